(* EpProps.v: request timeouts (C30), endpoint availability (C28), what a call reports and counts (C63). *)
From Coq Require Import Lia ZifyBool.
From Verif Require Import Base Strconv GoStrings GoStrings2 UrlModel UrlSpec EpModel EpSpec EpProofs EpProofs2.

(* ================= C30 ================= *)
(* Without a timeout attachment a request gets the configured timeout of its method. *)
Theorem C30_default : forall u m d, (configured u m d <= 9223372036854)%Z -> timeout_of u m d [] = (configured u m d * ms)%Z.
Proof. exact timeout_default. Qed.
Print Assumptions C30_default.
(* With one, it gets the requested timeout when that lies in the window, and the configured one otherwise. *)
Theorem C30_exact : forall u m d rt, rt <> [] ->
  (configured u m d <= 9223372036854)%Z -> small (low u (configured u m d)) -> small (high u (configured u m d)) ->
  timeout_of u m d rt =
  (if (low u (configured u m d) <=? number rt)%Z && (number rt <=? high u (configured u m d))%Z then number rt * ms else configured u m d * ms)%Z.
Proof. exact timeout_exact. Qed.
Print Assumptions C30_exact.
(* A positive lower bound makes every timeout positive. *)
Theorem C30_positive : forall u m d rt, (configured u m d <= 9223372036854)%Z -> (0 < low u (configured u m d) <= 9223372036854)%Z -> small (high u (configured u m d)) ->
  (0 < timeout_of u m d rt)%Z.
Proof. exact timeout_positive. Qed.
Print Assumptions C30_positive.
Definition u30 (ps : list (bs * bs)) : url := mkUrl (s2b "motan2") (s2b "h") 80 (s2b "svc") (s2b "g") (Some ps).
Example C30_example :
  let u := u30 [(s2b "requestTimeout", s2b "200"); (s2b "get(int).requestTimeout", s2b "50")] in
  timeout_of u (s2b "get") (s2b "int") [] = 50000000%Z /\ timeout_of u (s2b "put") (s2b "int") [] = 200000000%Z /\
  timeout_of u (s2b "put") [] (s2b "100") = 100000000%Z /\ timeout_of u (s2b "put") [] (s2b "99") = 200000000%Z /\
  timeout_of u (s2b "put") [] (s2b "400") = 400000000%Z /\ timeout_of u (s2b "put") [] (s2b "401") = 200000000%Z /\
  timeout_of u (s2b "put") [] (s2b "abc") = 200000000%Z /\ low u (configured u (s2b "put") []) = 100%Z.
Proof. vm_compute. repeat split. Qed.
(* The bounds are needed: with a configured timeout of one millisecond, text that is not a number gives a timeout of zero. *)
Theorem C30_zero_timeout_refuted : ~ (forall u m d rt, (configured u m d <= 9223372036854)%Z -> (0 < timeout_of u m d rt)%Z).
Proof.
  intro H. specialize (H (u30 [(s2b "requestTimeout", s2b "1")]) (s2b "m") [] (s2b "abc")).
  assert (X : (configured (u30 [(s2b "requestTimeout", s2b "1")]) (s2b "m") [] <= 9223372036854)%Z) by (vm_compute; discriminate).
  specialize (H X). vm_compute in H. discriminate H.
Qed.
Print Assumptions C30_zero_timeout_refuted.
(* And a timeout configured too large for nanoseconds wraps around. *)
Theorem C30_overflow_refuted : ~ (forall u m d, (0 < timeout_of u m d [])%Z).
Proof. intro H. specialize (H (u30 [(s2b "requestTimeout", s2b "9223372036855")]) (s2b "m") []). vm_compute in H. discriminate H. Qed.
Print Assumptions C30_overflow_refuted.

(* ================= C63: a call through an endpoint ================= *)
(* the group of the endpoint wins whenever it has one; nothing else of the request is touched *)
Theorem C63_group : forall u (v1 : bool) m, uGroup u <> [] ->
  (if v1 then attach (fitGroup u v1 m) (s2b "group") else getRequestGroup (fitGroup u v1 m)) = uGroup u.
Proof.
  intros u v1 m N. change (s2b "group") with GroupKey. unfold fitGroup. assert (X : bs_eqb (uGroup u) [] = false).
  { destruct (bs_eqb (uGroup u) []) eqn:E; [|reflexivity]. apply bs_eqb_spec in E. contradiction. }
  rewrite X. cbn [negb]. rewrite !andb_true_r. destruct v1.
  - destruct (bs_eqb (attach m GroupKey) (uGroup u)) eqn:E; cbn [negb]; [apply bs_eqb_spec; exact E|]. rewrite attach_set.
    replace (bs_eqb GroupKey GroupKey) with true by reflexivity. reflexivity.
  - destruct (bs_eqb (getRequestGroup m) (uGroup u)) eqn:E; cbn [negb]; [apply bs_eqb_spec; exact E|]. unfold getRequestGroup. rewrite !attach_set.
    replace (bs_eqb MGroup MGroup) with true by reflexivity. destruct (uGroup u); [contradiction|reflexivity].
Qed.
Print Assumptions C63_group.
Theorem C63_group_only : forall u (v1 : bool) m k, k <> s2b "group" -> k <> s2b "M_g" -> attach (fitGroup u v1 m) k = attach m k.
Proof.
  intros u v1 m k N1 N2. unfold fitGroup.
  assert (X : forall a, k <> a -> bs_eqb k a = false).
  { intros a H. destruct (bs_eqb k a) eqn:E; [|reflexivity]. apply bs_eqb_spec in E. contradiction. }
  destruct v1; [destruct (_ && _)|destruct (_ && _)]; try reflexivity; rewrite attach_set, X by assumption; reflexivity.
Qed.
Print Assumptions C63_group_only.
(* exactly: an endpoint without a group, or a request naming its group already, leaves the request as it is; else the group is
   put under "group" for motan v1 and under "M_g" for motan v2, and no other value changes *)
Theorem C63_group_exact : forall u (v1 : bool) m,
  let named := if v1 then value_of m (s2b "group") = uGroup u else group_named m (uGroup u) in
  let key := if v1 then s2b "group" else s2b "M_g" in
  ((uGroup u = [] \/ named) -> fitGroup u v1 m = m) /\
  (uGroup u <> [] -> ~ named -> forall k, aget bs_eqb (fitGroup u v1 m) k = if bs_eqb k key then Some (uGroup u) else aget bs_eqb m k).
Proof.
  intros u v1 m named key.
  assert (G : getRequestGroup m = uGroup u <-> group_named m (uGroup u)).
  { unfold getRequestGroup, group_named. change (attach m MGroup) with (value_of m (s2b "M_g")). change (attach m GroupKey) with (value_of m (s2b "group")).
    destruct (value_of m (s2b "M_g")) as [|b g].
    - split; [intro H; right; auto|]. intros [[X _]|[_ X]]; [contradiction|exact X].
    - split; [intro H; left; split; [intro X; discriminate X|exact H]|]. intros [[_ X]|[X _]]; [exact X|discriminate X]. }
  assert (N : (negb (bs_eqb (if v1 then attach m GroupKey else getRequestGroup m) (uGroup u)) = true) <-> ~ named).
  { rewrite negb_true_iff, bs_eqb_neq. unfold named. destruct v1; [reflexivity|]. rewrite G. reflexivity. }
  assert (E : fitGroup u v1 m = if negb (bs_eqb (if v1 then attach m GroupKey else getRequestGroup m) (uGroup u)) && negb (bs_eqb (uGroup u) [])
                                then aset bs_eqb m key (uGroup u) else m) by (unfold fitGroup, key; destruct v1; reflexivity).
  rewrite E. split.
  - intros [H|H].
    + rewrite H. cbn [bs_eqb negb]. rewrite andb_false_r. reflexivity.
    + destruct (negb (bs_eqb (if v1 then attach m GroupKey else getRequestGroup m) (uGroup u))); [|reflexivity]. exfalso. apply N; [reflexivity|exact H].
  - intros Hg Hn k. apply N in Hn. rewrite Hn. apply bs_eqb_neq in Hg. rewrite Hg. cbn [negb andb]. apply (aget_aset bs_eqb bs_eqb_spec).
Qed.
Print Assumptions C63_group_exact.
Example C63_group_exact_example : let u := mkUrl (s2b "motan2") (s2b "h") 1 (s2b "svc") (s2b "g") None in
  ~ group_named [(s2b "M_g", s2b "other"); (s2b "group", s2b "g")] (uGroup u) /\ group_named [(s2b "group", s2b "g")] (uGroup u) /\
  fitGroup u false [(s2b "M_g", s2b "other")] = [(s2b "M_g", s2b "g")].
Proof. split; [intros [[_ X]|[X _]]; discriminate X|]. split; [right; split; reflexivity|reflexivity]. Qed.
(* whatever goes wrong before an answer arrives, the caller gets an exception carrying the id of its own request;
   an answer is handed on as it came, unless its value cannot be read *)
Theorem C63_always_answers : forall proxy rid o,
  match o with
  | Got id e df => fst (epCall proxy rid o) = mkCallRes id e \/
                   (proxy = false /\ df = true /\ exists x, fst (epCall proxy rid o) = mkCallRes rid (Some x) /\ xBiz x = false)
  | _ => exists x, fst (epCall proxy rid o) = mkCallRes rid (Some x) /\ xBiz x = false
  end.
Proof.
  intros proxy rid o. destruct o as [| | |id e df]; cbn; try (eexists; split; reflexivity).
  destruct proxy, df; cbn; try (left; reflexivity). right. split; [reflexivity|]. split; [reflexivity|]. eexists; split; reflexivity.
Qed.
Print Assumptions C63_always_answers.
(* the error counter goes up exactly for calls the service itself did not answer, and back to zero for the others *)
Theorem C63_what_counts : forall proxy rid o,
  (countsAsError o = true <-> exists x, snd (epCall proxy rid o) = NErr x) /\ (countsAsError o = false <-> snd (epCall proxy rid o) = NReset).
Proof.
  intros proxy rid o. pose proof (epCall_note proxy rid o) as H. destruct (snd (epCall proxy rid o)) as [x|]; rewrite H; (split; split; intro X); try discriminate X; try reflexivity.
  - exists x; reflexivity.
  - destruct X as [x X]. discriminate X.
Qed.
Print Assumptions C63_what_counts.
(* what the caller is told when there is no answer: code 1002 when no connection could be had, 400 otherwise; none of these
   counts as "provider does not exist" *)
Theorem C63_own_errors : forall proxy rid,
  epCall proxy rid NilPool = (mkCallRes rid (Some (mkExc false 400 false)), NErr (mkExc false 400 false)) /\
  epCall proxy rid NoChannel = (mkCallRes rid (Some (mkExc false 1002 false)), NErr (mkExc false 1002 false)) /\
  epCall proxy rid CallErr = (mkCallRes rid (Some (mkExc false 400 false)), NErr (mkExc false 400 false)) /\
  forall id e, fst (epCall false rid (Got id e true)) = mkCallRes rid (Some (mkExc false 400 false)).
Proof. intros. repeat split. Qed.
Print Assumptions C63_own_errors.
Example C63_example : snd (epCall false 7 (Got 7 (Some (mkExc true 500 false)) false)) = NReset /\ snd (epCall false 7 NoChannel) = NErr (mkExc false 1002 false) /\
  fitGroup (u30 []) false [(s2b "M_g", s2b "other")] = [(s2b "M_g", s2b "g")].
Proof. vm_compute. repeat split. Qed.

(* ================= C28 ================= *)
(* An endpoint only becomes unavailable through Destroy or because an error brought the number of errors since the last
   good call or heartbeat to the threshold: the i-th goroutine that takes it down belongs to the i-th such error. *)
Theorem C28_down_only_at_threshold : forall thr ops s o s', (0 < thr < 4294967296)%Z -> (Z.of_nat (length ops) < 4294967296)%Z ->
  eruns thr ep0 ops = Some s -> estep thr s o = Some s' -> eAvail s = true -> eAvail s' = false ->
  o = ODestroy \/
  exists i p, o = OHand i /\ p < length ops /\ trigger thr ops p = true /\ countb (trigger thr ops) (seq 0 p) = i.
Proof.
  intros thr ops s o s' T B R E A A'. destruct (step_down thr s o s' E A A') as [->|(i & x & -> & Hi)]; [left; reflexivity|right].
  destruct (run_hand_which thr ops s i T B R) as (p & H); [apply nth_error_Some; congruence|]. exists i, p. split; [reflexivity|exact H].
Qed.
Print Assumptions C28_down_only_at_threshold.
(* Conversely every such error starts a goroutine that will take the endpoint down. *)
Theorem C28_every_trigger_acts : forall thr ops s, (0 < thr < 4294967296)%Z -> (Z.of_nat (length ops) < 4294967296)%Z -> eruns thr ep0 ops = Some s ->
  length (eHand s) = countb (trigger thr ops) (seq 0 (length ops)) /\
  forall i x, nth_error (eHand s) i = Some (EDown x) -> exists s', estep thr s (OHand i) = Some s' /\ eAvail s' = false.
Proof.
  intros thr ops s T B R. split; [exact (run_hand_exact thr ops s T R B)|]. intros i x H. cbn [estep]. rewrite H. eexists; split; [reflexivity|reflexivity].
Qed.
Print Assumptions C28_every_trigger_acts.
(* A threshold of zero or less never takes the endpoint down. *)
Theorem C28_no_threshold : forall thr ops s, (thr <= 0)%Z -> eruns thr ep0 ops = Some s -> eHand s = [] /\ eKeep s = [].
Proof.
  intros thr ops s T. revert s. induction ops as [|o l IH] using rev_ind; intros s E; [injection E as <-; split; reflexivity|].
  apply eruns_snoc in E. destruct E as (s1 & E1 & E2). destruct (IH s1 E1) as [H K].
  assert (N : forall A i, nth_error (@nil A) i = None) by (intros A i; destruct i; reflexivity).
  destruct o; cbn [estep] in E2; try (rewrite ?H, ?K in E2; rewrite N in E2; discriminate E2).
  - destruct (Z.ltb_spec 0 thr); [lia|]. injection E2 as <-. split; assumption.
  - injection E2 as <-. split; assumption.
  - destr E2; injection E2 as <-; split; assumption.
  - destr E2; injection E2 as <-; split; assumption.
  - destr E2; injection E2 as <-; split; assumption.
  - destr E2; injection E2 as <-; split; assumption.
Qed.
Print Assumptions C28_no_threshold.
(* One after the other: the flag a user sees is the one the history says. *)
Theorem C28_sequential : forall thr es, (0 < thr < 4294967296)%Z -> (Z.of_nat (length es) < 4294967296)%Z ->
  exists s, eruns thr ep0 [OConn; OInit] = Some epUp /\ evRun thr epUp es = Some s /\ eAvail s = vUp (views thr es).
Proof.
  intros thr es T B. destruct (seq_run thr es epUp view0 T B seqInv0) as (s & E & I). exists s. split; [reflexivity|]. split; [exact E|exact (si_avail _ _ I)].
Qed.
Print Assumptions C28_sequential.
(* At most one keepalive goroutine is ever at work. *)
Theorem C28_one_keepalive : forall thr ops s, eruns thr ep0 ops = Some s -> countb at_work (eKeep s) <= 1.
Proof. intros thr ops s E. rewrite (run_one thr ops s E). destruct (eRunning s); lia. Qed.
Print Assumptions C28_one_keepalive.
(* As long as no keepalive goroutine starts in the short time another one has made the endpoint available and is about to
   end, an unavailable endpoint always has somebody looking after it. *)
Theorem C28_looked_after : forall thr s, cleanRun thr s -> eDestroyed s = false -> eInit s = IEnd -> eAvail s = false -> pending s.
Proof. intros thr s R. exact (proj2 (proj2 (cleanRun_kinv thr s R))). Qed.
Print Assumptions C28_looked_after.
(* A keepalive goroutine whose heartbeat is answered makes the endpoint available and clears the counter. *)
Theorem C28_recovers : forall thr s j, nth_error (eKeep s) j = Some KLoop -> eProfile s = false -> eChans s = true ->
  exists s', eruns thr s [OBeat j true; OUp j; ORst j; OExit j] = Some s' /\ eAvail s' = true /\ eCount s' = 0%N /\ eRunning s' = false.
Proof.
  intros thr s j Hj p ch. fields. rewrite Hj, p, ch. cbn [negb].
  do 3 (fields; rewrite ?set_set; rewrite (nth_set _ _ _ _ _ Hj), Nat.eqb_refl; fields; rewrite ?set_set).
  eexists. split; [reflexivity|]. repeat split.
Qed.
Print Assumptions C28_recovers.
(* Destroy never blocks; an endpoint destroyed after its initialisation, while no answered heartbeat is being dealt with,
   stays unavailable, and a waiting keepalive goroutine is told to end. *)
Theorem C28_destroy_never_blocks : forall thr ops s, eruns thr ep0 ops = Some s -> estep thr s ODestroy <> None.
Proof. intros thr ops s E. cbn. destruct (eDestroyed s) eqn:D; [discriminate|]. rewrite (run_tok thr ops s E D). discriminate. Qed.
Print Assumptions C28_destroy_never_blocks.
Theorem C28_destroyed_stays_down : forall thr s s1 s2, eInit s = IEnd -> eDestroyed s = false -> (forall j, nth_error (eKeep s) j <> Some KUp) ->
  estep thr s ODestroy = Some s1 -> dRun thr s1 s2 -> eAvail s2 = false.
Proof.
  intros thr s s1 s2 I D K E R. apply (dead_run thr s1 s2 R). cbn in E. rewrite D in E. destruct (eTok s); [|discriminate E]. injection E as <-.
  repeat split; try assumption. cbn. intros j k H X. subst. exact (K j H).
Qed.
Print Assumptions C28_destroyed_stays_down.
Theorem C28_destroy_ends_keepalive : forall thr ops s j, eruns thr ep0 ops = Some s -> ~ In OInitToken ops -> eDestroyed s = true ->
  nth_error (eKeep s) j = Some KLoop -> exists s', estep thr s (OToken j) = Some s' /\ nth_error (eKeep s') j = Some KExit.
Proof.
  intros thr ops s j E N D Hj. assert (T : tokInv s).
  { clear D Hj. revert s E. induction ops as [|o l IH] using rev_ind; intros s E.
    - injection E as <-. split; [reflexivity|intro X; discriminate X].
    - apply eruns_snoc in E. destruct E as (s1 & E1 & E2). apply (tok_step thr s1 o s E2); [|exact (run_one thr l s1 E1)|].
      + intro X. apply N. apply in_or_app. right. left. exact X.
      + apply IH; [|exact E1]. intro X. apply N. apply in_or_app. left. exact X. }
  cbn [estep]. rewrite Hj, (proj2 T D (ex_intro _ j Hj)). eexists. split; [reflexivity|]. cbn. rewrite (nth_set _ _ _ _ _ Hj), Nat.eqb_refl. reflexivity.
Qed.
Print Assumptions C28_destroy_ends_keepalive.

Definition boom : exc := mkExc false 400 false.
Definition noProvider : exc := mkExc false 404 true.
Example C28_example :
  map (fun es => vUp (views 3 es)) [[EvErr boom; EvErr boom]; [EvErr boom; EvErr boom; EvErr boom]; [EvErr boom; EvErr boom; EvOk; EvErr boom];
     [EvErr boom; EvErr boom; EvErr boom; EvBeat false]; [EvErr boom; EvErr boom; EvErr boom; EvBeat true]] = [true; false; true; false; true] /\
  exists s, evRun 3 epUp [EvErr boom; EvErr boom; EvErr boom; EvBeat true] = Some s /\ eAvail s = true.
Proof. split; [reflexivity|]. eexists. vm_compute. split; reflexivity. Qed.
(* the hypotheses of C28_looked_after: a run with an unavailable endpoint *)
Example C28_example_looked_after : exists s, cleanRun 1 s /\ eDestroyed s = false /\ eInit s = IEnd /\ eAvail s = false.
Proof.
  assert (X : cleanRun 1 epUp).
  { refine (cleanSnoc 1 _ OInit _ (cleanSnoc 1 _ OConn _ (cleanNil 1) Logic.I _) Logic.I _); reflexivity. }
  eexists. split; [|split; [|split]].
  - refine (cleanSnoc 1 _ (OHand 0) _ (cleanSnoc 1 _ (OErr boom) _ X Logic.I _) Logic.I _); reflexivity.
  - reflexivity.
  - reflexivity.
  - reflexivity.
Qed.

(* The full statement fails: errors arriving between setAvailable(true) and the end of a keepalive goroutine leave the endpoint
   unavailable with nobody looking after it ... *)
Definition strand_ops : list eop :=
  [OConn; OInit; OErr boom; OHand 0; OHand 0; OHand 0; OKeep 0; OBeat 0 true; OUp 0;
   OErr boom; OHand 1; OHand 1; OHand 1; OKeep 1; ORst 0; OExit 0].
Theorem C28_stranded_refuted : ~ (forall thr ops s, (0 < thr)%Z -> eruns thr ep0 ops = Some s -> eDestroyed s = false -> eInit s = IEnd -> eAvail s = false -> pending s).
Proof.
  intro H. destruct (eruns 1 ep0 strand_ops) as [s|] eqn:E; [|vm_compute in E; discriminate E].
  specialize (H 1%Z strand_ops s eq_refl E). vm_compute in E. injection E as <-. specialize (H eq_refl eq_refl eq_refl).
  destruct H as [(i & x & H)|[(i & H)|[(i & H)|[(i & H)|(i & H)]]]]; repeat (destruct i as [|i]; cbn in H; try discriminate H).
Qed.
Print Assumptions C28_stranded_refuted.
(* ... and no action but a new error changes that. *)
Theorem C28_stranded_stays : forall thr ops s s', idle s -> eInit s = IEnd -> eAvail s = false ->
  forallb (fun o => negb (isErr o)) ops = true -> eruns thr s ops = Some s' -> eAvail s' = false.
Proof. intros thr ops s s' I1 I2 A F E. exact (idle_runs thr ops s s' E F I1 I2 A). Qed.
Print Assumptions C28_stranded_stays.
Example C28_stranded_example : exists s, eruns 1 ep0 strand_ops = Some s /\ idle s /\ eInit s = IEnd /\ eAvail s = false.
Proof.
  eexists. split; [vm_compute; reflexivity|]. repeat split; cbn; intros i h H; repeat (destruct i as [|i]; cbn in H; try discriminate H; try (injection H as <-; reflexivity)).
Qed.
(* An endpoint taken down by "provider does not exist" never comes back by heartbeats. *)
Theorem C28_profile_stays_down : forall thr ops s s', profiled s -> forallb (fun o => negb (isErr o)) ops = true ->
  eruns thr s ops = Some s' -> eAvail s' = false.
Proof. intros thr ops s s' P F E. exact (profiled_runs thr ops s s' E F P). Qed.
Print Assumptions C28_profile_stays_down.
Example C28_profile_example : exists s, evRun 2 epUp [EvErr noProvider; EvErr noProvider] = Some s /\ profiled s.
Proof.
  eexists. split; [vm_compute; reflexivity|]. repeat split; cbn; intros i h H; repeat (destruct i as [|i]; cbn in H; try discriminate H; try (injection H as <-; try reflexivity; discriminate)).
Qed.
(* A threshold of 2^32 is cut to zero: the first error takes the endpoint down. *)
Theorem C28_threshold_truncated_refuted : ~ (forall thr es s, (0 < thr)%Z -> evRun thr epUp es = Some s -> (Z.of_nat (length es) < thr)%Z -> eAvail s = true).
Proof.
  intro H. destruct (evRun 4294967296 epUp [EvErr boom]) as [s|] eqn:E; [|vm_compute in E; discriminate E].
  specialize (H 4294967296%Z [EvErr boom] s eq_refl E eq_refl). vm_compute in E. injection E as <-. discriminate H.
Qed.
Print Assumptions C28_threshold_truncated_refuted.
(* A destroyed endpoint can become available again: its asynchronous initialisation may finish after Destroy. *)
Theorem C28_destroyed_revives_refuted : ~ (forall thr ops s s', eruns thr ep0 ops = Some s -> eDestroyed s = true -> eAvail s = false -> dRun thr s s' -> eAvail s' = false).
Proof.
  intro H. set (s := mkEp false 0 false false true 1 true ISet [] []).
  assert (R : dRun 1 s (mkEp true 0 false false true 1 true IEnd [] [])) by (refine (dSnoc 1 s s OInit _ (dNil 1 s) Logic.I _); reflexivity).
  specialize (H 1%Z [OConn; ODestroy] s _ eq_refl eq_refl eq_refl R). discriminate H.
Qed.
Print Assumptions C28_destroyed_revives_refuted.
(* An endpoint is not available before its connections exist, whatever happens. *)
Theorem C28_not_before_connected : forall thr ops s, eruns thr ep0 ops = Some s -> ~ In OConn ops -> eAvail s = false /\ eChans s = false.
Proof. exact not_before_connected. Qed.
Print Assumptions C28_not_before_connected.
Example C28_not_before_example : exists s, eruns 1 ep0 [OErr boom; OHand 0; OHand 0; OHand 0; OKeep 0; OBeat 0 true] = Some s /\ eKeep s = [KExit].
Proof. eexists. split; vm_compute; reflexivity. Qed.

(* The attachments belong to the request, so the attempts of one call write the group one after the other.  An endpoint with a
   group sends its own, whichever endpoints were tried before *)
Theorem C63_attempts_group : forall tried u (v1 : bool) m, uGroup u <> [] ->
  let sent := fitGroup u v1 (fold_left (fun a (e : url * bool) => fitGroup (fst e) (snd e) a) tried m) in
  (if v1 then value_of sent (s2b "group") = uGroup u else group_named sent (uGroup u)) /\
  (forall k, k <> s2b "group" -> k <> s2b "M_g" -> value_of sent k = value_of m k).
Proof.
  intros tried u v1 m N sent. split.
  - pose proof (C63_group u v1 (fold_left (fun a (e : url * bool) => fitGroup (fst e) (snd e) a) tried m) N) as G. fold sent in G.
    destruct v1; [exact G|]. unfold getRequestGroup in G. unfold group_named.
    change (value_of sent (s2b "M_g")) with (attach sent MGroup). change (value_of sent (s2b "group")) with (attach sent GroupKey).
    destruct (attach sent MGroup) eqn:E; [right; split; [reflexivity|exact G]|left; split; [discriminate|exact G]].
  - intros k N1 N2. change (attach sent k = attach m k). unfold sent. rewrite C63_group_only by assumption.
    clear sent. revert m. induction tried as [|e l IH]; intro m; [reflexivity|]. cbn [fold_left]. rewrite IH. apply C63_group_only; assumption.
Qed.
Print Assumptions C63_attempts_group.
Example C63_attempts_group_example :
  let a := mkUrl (s2b "motan2") (s2b "h") 1 (s2b "svc") (s2b "ga") None in let b := mkUrl (s2b "motan2") (s2b "h") 2 (s2b "svc") (s2b "gb") None in
  let sent := fitGroup b false (fold_left (fun x (e : url * bool) => fitGroup (fst e) (snd e) x) [(a, false); (a, true)] [(s2b "k", s2b "v")]) in
  uGroup b <> [] /\ value_of sent (s2b "M_g") = s2b "gb" /\ value_of sent (s2b "group") = s2b "ga" /\ value_of sent (s2b "k") = s2b "v".
Proof. vm_compute. repeat split; discriminate. Qed.
(* An endpoint without a group does not get the group the caller gave: it gets the group of an endpoint tried before it *)
Theorem C63_attempts_group_refuted : ~ (forall tried u m g, uGroup u = [] -> group_named m g ->
  group_named (fitGroup u false (fold_left (fun a (e : url * bool) => fitGroup (fst e) (snd e) a) tried m)) g).
Proof.
  intro H. specialize (H [(mkUrl (s2b "motan2") (s2b "h") 1 (s2b "svc") (s2b "ga") None, false)] (mkUrl (s2b "motan2") (s2b "h") 2 (s2b "svc") [] None)
    [(s2b "M_g", s2b "mine")] (s2b "mine") eq_refl).
  assert (X : group_named [(s2b "M_g", s2b "mine")] (s2b "mine")) by (left; split; [vm_compute; discriminate|reflexivity]).
  specialize (H X). destruct H as [[_ H]|[H _]]; vm_compute in H; discriminate H.
Qed.
Print Assumptions C63_attempts_group_refuted.
