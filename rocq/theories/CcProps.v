(* CcProps.v: C117, many calls at once over one connection. *)
From Verif Require Import Base BytesModel Strconv ProtoModel ProtoSpec ConvModel ConvSpec SimpleModel SimpleSpec ServerModel ServerSpec ProvModel ProvSpec
  ProvProps CcModel CcSpec CcProofs.
From Verif Require StreamModel StreamSpec.
Import StreamModel.
Open Scope nat_scope.

(* Whatever the order in which calls, handlers, loops and the network take their steps: a call that returns an answer has the id of its
   own request, and reading that answer gives what this request alone, sent over a connection of its own, would have given. *)
Theorem C117_own_result : forall W, world_ok W -> forall s i r, kreach W s ->
  StreamSpec.returned (cc_st s) i (ROk r) -> cHb (stCall (cc_st s) i) = false ->
  rRid r = qID (w_req W i) /\
  exists pt sid, cSid (stCall (cc_st s) i) = Some sid /\ (sid < 2 ^ 64)%N /\ int64 pt /\
    forall reply, readAnswer (w_c W) (qID (w_req W i)) reply (rOf r) = roundTrip (w_c W) (w_g W) (w_ip W) pt sid reply (w_req W i).
Proof. exact own_result. Qed.
Print Assumptions C117_own_result.

(* It is the result of the called method on the arguments of this call. *)
Theorem C117_computes : forall W, world_ok W -> forall s i r p reply, kreach W s ->
  StreamSpec.returned (cc_st s) i (ROk r) -> cHb (stCall (cc_st s) i) = false ->
  aget bs_eqb (g_table (w_g W)) (qService (w_req W i)) = Some p -> results_ok (g_impl (w_g W) (v_id p)) (qArgs (w_req W i)) ->
  let o := spec_method (g_impl (w_g W) (v_id p)) (firstUpper (g_uni (w_g W)) (qMethod (w_req W i))) (qMethod (w_req W i)) (qArgs (w_req W i)) reply
             (g_etext (w_g W) (DBuf ErrEOF)) (s_errText (g_cfg (w_g W)) CErrSerialize) in
  (forall e, o = Fails e -> json_lossless (c_ext (w_c W)) e) ->
  readAnswer (w_c W) (qID (w_req W i)) reply (rOf r) = seen reply o.
Proof. exact computes. Qed.
Print Assumptions C117_computes.

(* The server handles each call at most once, and nothing else: its jobs are the messages of different calls that were started. *)
Theorem C117_at_most_once : forall W, world_ok W -> forall s, kreach W s -> exists who, NoDup who /\
  Forall2 (fun i j => i < stNc (cc_st s) /\ exists m, outgoing W (cc_st s) i = inl m /\ fst j = J2 (received m)) who (k_jobs (cc_srv s)).
Proof. exact at_most_once. Qed.
Print Assumptions C117_at_most_once.

(* However the bytes are cut, neither side ever reads anything that makes it give up the connection. *)
Theorem C117_framing : forall W, world_ok W -> forall s, kreach W s ->
  (forall b, readOne (s_max (g_cfg (w_g W))) (k_in (cc_srv s)) = b -> b <> RStop /\ forall m rest, b <> RGot (J1 m) rest) /\
  (forall b, readOne (c_max (w_c W)) (cc_in s) = b -> b <> RStop /\ forall m rest, b <> RGot (J1 m) rest).
Proof. exact framing. Qed.
Print Assumptions C117_framing.

(* No answer is lost: when nothing is on its way any more and every message has been handled, a call that still waits can return. *)
Theorem C117_nothing_lost : forall W, world_ok W -> forall s i, kaccepted W s -> settled_down s ->
  i < stNc (cc_st s) -> stPc (cc_st s) i = PWait -> exists s', kstep W s (KCall (OTake i)) = Some s'.
Proof. exact nothing_lost. Qed.
Print Assumptions C117_nothing_lost.

(* ------------------------------------------------------------ two calls at once *)

Definition cc_world : world := mkWorld p_client p_server (s2b "1.2.3.4") (fun _ => None)
  (fun i => let q := if Nat.eqb i 0 then buildRequest p_url (s2b "app") (s2b "add") [VInt 40; VI64 2] else buildRequest p_url (s2b "app") (s2b "echo") [VStr (s2b "hi")] in
            mkReq value (if Nat.eqb i 0 then 1001 else 1002)%N (qService q) (qMethod q) (qDesc q) (qArgs q) (qAttach q) (qCtx q)).

Lemma digits_length fuel : forall n acc, length (fmtDigits fuel n acc) <= fuel + length acc.
Proof. induction fuel as [|f IH]; intros n acc; cbn [fmtDigits]; [lia|]. cbv zeta. destruct (N.eqb _ 0); [cbn [length]; lia|]. etransitivity; [apply IH|cbn [length]; lia]. Qed.
Lemma int64_length z : int64 z -> length (fmtZ z) <= 66.
Proof.
  intros [A B].
  assert (S64 : forall n, (n <= 2 ^ 63)%N -> length (fmtN n) <= 65).
  { intros n Hn. unfold fmtN. etransitivity; [apply digits_length|]. cbn [length]. assert (N.size_nat n <= 64); [|lia].
    destruct (N.eq_dec n 0) as [->|Nz]; [cbn; lia|]. pose proof (N.size_log2 n Nz) as Sl. assert (N.log2 n <= 63)%N by (change 63%N with (N.log2 (2 ^ 63)); apply N.log2_le_mono; exact Hn).
    assert (N.of_nat (N.size_nat n) = N.size n) by (destruct n as [|p]; [reflexivity|]; cbn; clear; induction p; cbn [Pos.size_nat Pos.size]; lia). lia. }
  unfold fmtZ. destruct (Z.ltb_spec z 0); cbn [length].
  - pose proof (S64 (Z.to_N (- z)) ltac:(lia)). lia.
  - pose proof (S64 (Z.to_N z) ltac:(lia)). lia.
Qed.

Lemma cc_world_ok : world_ok cc_world.
Proof.
  split; [exact p_plain|]. split.
  { intro i. unfold cc_world. cbn [w_req]. destruct (i =? 0); (split; [|split; [repeat constructor; cbn; lia|]; split; reflexivity]).
    - split; [reflexivity|]. split; [vm_compute; repeat constructor; cbn; intuition congruence|]. split; [vm_compute; intuition congruence|].
      split; [vm_compute; intuition congruence|]. split; [reflexivity|]. intros k [<-|[<-|[<-|[]]]]; reflexivity.
    - split; [reflexivity|]. split; [vm_compute; repeat constructor; cbn; intuition congruence|]. split; [vm_compute; intuition congruence|].
      split; [vm_compute; intuition congruence|]. split; [reflexivity|]. intros k [<-|[<-|[<-|[]]]]; reflexivity. }
  split.
  { intros i pt sid Hpt Hsid. pose proof (int64_length pt Hpt) as L. unfold cc_world. cbn [w_req w_c w_g w_ip].
    destruct (i =? 0); intros m H; vm_compute in H; injection H as <-; (split; [vm_compute; intuition congruence|]); intros r H;
      unfold processV2, fillRes in H; remember (fmtZ pt) as z eqn:Ez; clear Ez; vm_compute in H; injection H as <-.
    all: unfold sizes_ok, sent_meta; cbn [mMeta mBody filter]; destruct (encodable _); cbn [meta_text app length]; rewrite ?app_length; cbn [length c_max p_client];
      (split; [lia|]); split; lia. }
  split; [vm_compute; reflexivity|]. split; [vm_compute; reflexivity|]. intros q p H. discriminate H.
Qed.

(* both calls are on their way when the server answers, the second first; the bytes arrive in pieces *)
Definition cc_ops : list kop :=
  let rid i := qID (w_req cc_world i) in
  [KCall (OStart 0 false (rid 0) 100 7 None); KCall (OStart 0 false (rid 1) 100 8 None); KCall (OReg 0); KCall (OReg 1); KCall (OSendOk 0); KUp 10;
   KCall (OSendOk 1); KUp 1000; KRead true; KRead true; KEnd 1 5; KEnd 0 3; KDown 11; KDown 1000; KRecv true; KRecv true;
   KCall (OLook 0); KCall (ORes 0); KCall (OPush 0); KCall (OLook 1); KCall (ORes 1); KCall (OPush 1)].
Definition cc_ends : list kop :=
  [KCall (OTake 1); KCall (ORemove 1); KCall (ORelease 1); KCall (OPut 1); KCall (OTake 0); KCall (ORemove 0); KCall (ORelease 0); KCall (OPut 0)].
Definition cc_fine (s : cc) (o : kop) : bool :=
  match o with
  | KCall (OStart _ _ _ _ sid _) => forallb (fun i => match cSid (stCall (cc_st s) i) with Some a => negb (N.eqb a sid) | None => true end) (seq 0 (stNc (cc_st s))) && (sid <? 2 ^ 64)%N
  | KEnd _ pt => (- 2 ^ 63 <=? pt)%Z && (pt <? 2 ^ 63)%Z
  | KRead a | KRecv a => a
  | _ => true
  end.
Fixpoint cc_allfine (W : world) (s : cc) (os : list kop) : bool :=
  match os with [] => true | o :: r => cc_fine s o && match kstep W s o with Some s' => cc_allfine W s' r | None => false end end.
Lemma fine_legal s o : cc_fine s o = true -> klegal s o /\ accepted o.
Proof.
  destruct o as [o|m|acc|i pt|i| |m|acc]; cbn [cc_fine klegal accepted]; intro H; try (split; [exact Logic.I|first [exact H|exact Logic.I]]).
  - destruct o; try (split; exact Logic.I). apply andb_true_iff in H as [A B]. split; [|exact Logic.I]. split; [|apply N.ltb_lt; exact B].
    intros i Li Hi. rewrite forallb_forall in A. specialize (A i). rewrite Hi, N.eqb_refl in A. apply diff_false_true, A, in_seq. lia.
  - apply andb_true_iff in H as [A B]. split; [|exact Logic.I]. split; [apply Z.leb_le|apply Z.ltb_lt]; assumption.
Qed.
Lemma run_fine W os : forall s s', kaccepted W s -> kreach W s -> cc_allfine W s os = true -> kruns W s os = Some s' -> kaccepted W s' /\ kreach W s'.
Proof.
  induction os as [|o os IH]; intros s s' A R L E; cbn [kruns cc_allfine] in *; [injection E as <-; auto|].
  apply andb_true_iff in L as [L1 L2]. destruct (kstep W s o) as [s1|] eqn:E1; [|discriminate L2]. destruct (fine_legal _ _ L1) as [B C].
  apply (IH s1 s'); [exact (kacceptedS _ _ _ _ A B C E1)|exact (kreachS _ _ _ _ R B E1)|exact L2|exact E].
Qed.

Example C117_example : world_ok cc_world /\
  (* the answers have arrived and both calls still wait *)
  (exists s, kaccepted cc_world s /\ settled_down s /\ stNc (cc_st s) = 2 /\ stPc (cc_st s) 0 = PWait /\ stPc (cc_st s) 1 = PWait /\ length (k_jobs (cc_srv s)) = 2) /\
  (* each returns the result of its own call *)
  exists s r0 r1, kreach cc_world s /\ StreamSpec.returned (cc_st s) 0 (ROk r0) /\ StreamSpec.returned (cc_st s) 1 (ROk r1) /\
    rRid r0 = 1001%N /\ rRid r1 = 1002%N /\ readAnswer p_client (rRid r0) TPInt64 (rOf r0) = Value (VI64 42) (Some (VI64 42)) /\
    readAnswer p_client (rRid r1) TPString (rOf r1) = Value (VStr (s2b "hi")) (Some (VStr (s2b "hi"))).
Proof.
  split; [exact cc_world_ok|]. split.
  - assert (X : option_map (fun s => (k_closed (cc_srv s), cc_up s, k_in (cc_srv s), map snd (k_jobs (cc_srv s)), cc_down s, cc_in s,
                 (stNh (cc_st s), stHpc (cc_st s) 0, stHpc (cc_st s) 1), (stNc (cc_st s), stPc (cc_st s) 0, stPc (cc_st s) 1))) (kruns cc_world cc0 cc_ops) =
      Some (false, [], [], [Finished; Finished], [], [], (2, HEnd, HEnd), (2, PWait, PWait))) by (vm_compute; reflexivity).
    destruct (kruns cc_world cc0 cc_ops) as [s|] eqn:E; [|discriminate X]. cbn [option_map] in X. injection X as X1 X2 X3 X4 X5 X6 X7 X8 X9 X10 X11 X12. exists s.
    destruct (run_fine cc_world cc_ops cc0 s (kaccepted0 _) (kreach0 _) ltac:(vm_compute; reflexivity) E) as [A _]. split; [exact A|]. clear A E.
    split; [|split; [exact X10|]; split; [exact X11|]; split; [exact X12|]; rewrite <- (map_length snd), X4; reflexivity].
    split; [exact X1|]. split; [exact X2|]. split; [exact X3|]. split; [|split; [exact X5|]; split; [exact X6|]; intros [|[|h]] Hh; [exact X8|exact X9|lia]].
    apply Forall_forall. intros j Hj. apply (in_map snd) in Hj. rewrite X4 in Hj. destruct Hj as [<-|[<-|[]]]; reflexivity.
  - set (see := option_map (fun s => (stNc (cc_st s), stPc (cc_st s) 0, stPc (cc_st s) 1)) (kruns cc_world cc0 (cc_ops ++ cc_ends))).
    let v := eval vm_compute in see in assert (X : see = v) by (vm_compute; reflexivity). unfold see in X. clear see.
    destruct (kruns cc_world cc0 (cc_ops ++ cc_ends)) as [s|] eqn:E; [|discriminate X]. cbn [option_map] in X. injection X as X1 X2 X3.
    destruct (run_fine cc_world (cc_ops ++ cc_ends) cc0 s (kaccepted0 _) (kreach0 _) ltac:(vm_compute; reflexivity) E) as [_ R]. clear E.
    eexists s, _, _. split; [exact R|]. split; [split; [rewrite X1; lia|exact X2]|]. split; [split; [rewrite X1; lia|exact X3]|].
    split; [reflexivity|]. split; [reflexivity|]. split; vm_compute; reflexivity.
Qed.
