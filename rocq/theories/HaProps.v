(* HaProps.v: C19 and C20. *)
From Verif Require Import Base Strconv UrlModel UrlSpec HaModel HaSpec HaProofs.

(* ---- C19: failover *)
(* every failover call has one of the four outcomes of HaSpec.failover_outcome, with retries + 1 attempts allowed *)
Theorem C19_outcome u method desc id noEp env :
  let (r, calls) := failoverCall u method desc id noEp env in
  failover_outcome id (S (Z.to_nat (retries_for u method desc))) env calls r.
Proof. pose proof (failover_ok u method desc id noEp env). destruct (failoverCall u method desc id noEp env). exact H. Qed.
Print Assumptions C19_outcome.

Theorem C19_attempts_bounded u method desc id noEp env :
  (Z.of_nat (snd (failoverCall u method desc id noEp env)) <= retries_for u method desc + 1)%Z.
Proof. pose proof (outcome_calls _ _ _ _ _ (failover_ok u method desc id noEp env)). unfold retries_for in *. lia. Qed.
Print Assumptions C19_attempts_bounded.

(* the outcomes exclude one another: the number of endpoints called is determined by what the attempts meet *)
Theorem C19_outcome_unique id n env k1 r1 k2 r2 :
  failover_outcome id n env k1 r1 -> failover_outcome id n env k2 r2 -> k1 = k2.
Proof. exact (outcome_functional id n env k1 r1 k2 r2). Qed.
Print Assumptions C19_outcome_unique.

(* two retries; the first endpoint fails, the second gives nil, the third answers a business error *)
Definition haUrl : url := mkUrl (s2b "motan2") (s2b "h") 1 (s2b "com.S") (s2b "g") (Some [(s2b "retries", s2b "2"); (s2b "get(s).retries", s2b "1")]).
Definition haFail : resp := mkResp 7 [] (Some (mkExc 503 (s2b "busy") ServiceException)).
Definition haBiz : resp := mkResp 7 [] (Some (mkExc 1 (s2b "no such user") BizException)).
Definition haEnv (i : nat) : option (option resp) :=
  match i with 0 => Some (Some haFail) | 1 => Some None | _ => Some (Some haBiz) end.
Example C19_nonvacuous :
  failoverCall haUrl (s2b "put") (s2b "s") 7 [] haEnv = (haBiz, 3) /\
  retries_for haUrl (s2b "put") (s2b "s") = 2%Z /\ retries_for haUrl (s2b "get") (s2b "s") = 1%Z /\
  snd (failoverCall haUrl (s2b "get") (s2b "s") 7 [] haEnv) = 2 /\
  eMsg (match rExc (fst (failoverCall haUrl (s2b "get") (s2b "s") 7 [] haEnv)) with Some e => e | None => mkExc 0 [] 0 end)
    = s2b "FailOverHA call fail 2 times. Exception: busy".
Proof. vm_compute. auto 8. Qed.

(* ---- C20: backup requests *)
(* a call enters the loop only when an endpoint was found and retries are configured; all its limits are positive *)
Theorem C20_entry u method desc sel percentile :
  match backupEntry u method desc sel percentile with
  | BNoEndpoint => sel = false
  | BDirect => sel = true
  | BBackup r delay limit timeout =>
      sel = true /\ (0 < r)%Z /\ r = retries_for u method desc /\ (0 < delay)%Z /\ (0 < limit)%Z /\ (0 < timeout)%Z
  end.
Proof. exact (entry_spec u method desc sel percentile). Qed.
Print Assumptions C20_entry.

(* whatever the interleaving of any number of calls, no call sends more than retries + 1 requests *)
Theorem C20_requests_bounded start es s c b :
  sysRun (sysInit start) es = Some s -> nth_error (sCalls s) c = Some b ->
  (Z.of_nat (countb (of_call c) (sLog s)) <= bRetries b + 1)%Z.
Proof.
  intros E Eb. pose proof (reachable_log_ok _ _ _ E c) as H. rewrite Eb in H. change (countb (of_call c) (sLog s) = length (bSent b)) in H.
  rewrite H. apply sent_bound, (reachable_calls_ok _ _ _ E c b Eb).
Qed.
Print Assumptions C20_requests_bounded.

(* between two resets of the counters at most L backup requests are sent, by all calls together, when no call allows more than L;
   and at most 101 calls are counted *)
Theorem C20_round_bounded L start es s before round after :
  (0 <= L)%Z -> (forall id r l, In (EStart id r l) es -> (l <= L)%Z) ->
  sysRun (sysInit start) es = Some s -> sLog s = after ++ round ++ before -> one_round round ->
  (Z.of_nat (countb is_backup round) <= L /\ Z.of_nat (countb is_request round) <= 101)%Z.
Proof.
  intros HL Hl E El Ho. assert (F : Forall (limits_within L) es) by (apply Forall_forall; intros [] Hin; cbn; auto; eapply Hl, Hin).
  destruct (cn_seg _ _ (reachable_cnt_ok L start es HL F s E) after round before El Ho). auto.
Qed.
Print Assumptions C20_round_bounded.

(* what a call returns is a final answer an endpoint gave to this very call, or the timeout error with the request's id *)
Theorem C20_answer start es s c b r :
  sysRun (sysInit start) es = Some s -> nth_error (sCalls s) c = Some b -> bPhase b = HDone r ->
  (In r (bHeard b) /\ answer_is_final r) \/ is_timeout (bId b) r.
Proof.
  intros E Eb Ep. destruct (ok_done _ (reachable_calls_ok _ _ _ E c b Eb) r Ep) as [[H1 H2]|H]; [left; split; [exact H1|apply conclusive_spec, H2]|auto].
Qed.
Print Assumptions C20_answer.

(* once it has returned a call's answer is settled and it sends nothing more, however late answers arrive *)
Theorem C20_answer_settled s es s' c b r :
  sysRun s es = Some s' -> nth_error (sCalls s) c = Some b -> bPhase b = HDone r ->
  exists b', nth_error (sCalls s') c = Some b' /\ bPhase b' = HDone r /\ bSent b' = bSent b.
Proof. exact (done_stays_run es s s' c b r). Qed.
Print Assumptions C20_answer_settled.

(* the success channel (capacity retries + 1) has room for the answer of every request still open: no sender ever blocks *)
Theorem C20_no_sender_blocks start es s c b :
  sysRun (sysInit start) es = Some s -> nth_error (sCalls s) c = Some b ->
  (Z.of_nat (length (bSucc b) + length (bOpen b)) <= bRetries b + 1)%Z.
Proof.
  intros E Eb. pose proof (reachable_calls_ok _ _ _ E c b Eb) as H. pose proof (sent_bound b H). pose proof (ok_chan b H). lia.
Qed.
Print Assumptions C20_no_sender_blocks.

(* a success that has arrived is available to a waiting call at once *)
Theorem C20_success_taken s c b :
  nth_error (sCalls s) c = Some b -> bSucc b <> [] -> (exists i, bPhase b = HWait i) \/ bPhase b = HFinal ->
  exists s', sysStep s (ESuccess c) = Some s'.
Proof. exact (success_enabled s c b). Qed.
Print Assumptions C20_success_taken.

Definition haOk : resp := mkResp 7 (s2b "v") None.
Definition haRun : list ev :=
  [EStart 7 2 15; EHead 0 10 true; ETimer 0; EHead 0 11 true; EReply 0 1 (Some haFail); EError 0; EHead 0 12 true; EReply 0 0 (Some haOk); ESuccess 0].
Example C20_nonvacuous : exists s b, sysRun (sysInit 0) haRun = Some s /\ nth_error (sCalls s) 0 = Some b /\
  bPhase b = HDone haOk /\ countb (of_call 0) (sLog s) = 3 /\ countb is_backup (sLog s) = 2 /\ bOpen b = [2].
Proof. eexists. eexists. split; [vm_compute; reflexivity|]. split; [vm_compute; reflexivity|]. cbn. auto. Qed.

(* the ratio is not a ratio of the requests actually made: two backup requests for one request, far above 15 per cent *)
Theorem C20_ratio_of_traffic_refuted : exists es s,
  (forall id r l, In (EStart id r l) es -> l = 15%Z) /\ sysRun (sysInit 0) es = Some s /\ one_round (sLog s) /\
  countb is_request (sLog s) = 1 /\ countb is_backup (sLog s) = 2.
Proof.
  exists haRun. eexists. split; [|split; [vm_compute; reflexivity|cbn; unfold one_round; cbn; auto]].
  intros id r l H. cbn in H. intuition; try discriminate. injection H0. auto.
Qed.
Print Assumptions C20_ratio_of_traffic_refuted.

(* a call whose every request has failed may still have nothing to do but wait for the deadline *)
Theorem C20_prompt_failure_refuted : exists es s b,
  sysRun (sysInit 0) es = Some s /\ nth_error (sCalls s) 0 = Some b /\
  length (bHeard b) = length (bSent b) /\ bOpen b = [] /\ (forall r, In r (bHeard b) -> ~ answer_is_final r) /\ bPhase b = HFinal /\
  forall e s', sysStep s e = Some s' -> e = EDeadline 0 \/ exists id r l, e = EStart id r l.
Proof.
  exists [EStart 7 1 15; EHead 0 10 true; EReply 0 0 (Some haFail); EError 0; EHead 0 11 true; EReply 0 1 (Some haFail); EError 0; EHead 0 12 true].
  eexists. eexists. split; [vm_compute; reflexivity|]. split; [vm_compute; reflexivity|]. cbn [bHeard bSent bOpen bPhase].
  split; [reflexivity|]. split; [reflexivity|]. split; [|split; [reflexivity|]].
  - intros r Hr Hf. apply conclusive_spec in Hf. destruct Hr as [<-|[<-|[]]]; discriminate Hf.
  - intros e s' H. destruct e as [id r l|c now sel|c i r|c|c|c|c].
    { right. eauto. }
    all: destruct c as [|[|c]]; [|discriminate H..]; first [discriminate H|left; reflexivity].
Qed.
Print Assumptions C20_prompt_failure_refuted.
