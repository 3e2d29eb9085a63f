(* BrrProofs.v *)
From Verif Require Import Base Lists Strconv UrlModel UrlSpec HaModel HaSpec HaProofs BrrModel BrrSpec.
Ltac Zify.zify_post_hook ::= idtac.
Open Scope nat_scope.

Definition heard_by (e : ev) (c : nat) : list resp := match e with EReply d _ (Some r) => if Nat.eqb c d then [r] else [] | _ => [] end.

Lemma replyRun_sys : forall es s m, option_map fst (replyRun s m es) = sysRun s es.
Proof. induction es as [|e es IH]; intros s m; [reflexivity|]. cbn [replyRun sysRun]. destruct (sysStep s e); [apply IH|reflexivity]. Qed.

Lemma step_heard s e s' : sysStep s e = Some s' ->
  (exists id r l, e = EStart id r l /\ sCalls s' = sCalls s ++ [mkCall id r l (HHead 0) [] [] [] [] []]) \/
  (exists c b b', nth_error (sCalls s) c = Some b /\ sCalls s' = list_set (sCalls s) c b' /\ bHeard b' = heard_by e c ++ bHeard b /\
     forall d, d <> c -> heard_by e d = []).
Proof.
  destruct e as [id r l|c now sel|c i r|c|c|c|c]; cbn [sysStep heard_by]; intro H.
  - left. exists id, r, l. destruct (_ && _); [injection H as <-; split; reflexivity|discriminate H].
  - destruct (nth_error (sCalls s) c) as [b|] eqn:Eb; [|discriminate H]. right. exists c, b. destruct (bPhase b) as [i| | |x]; try discriminate H.
    destruct (_ <? _)%Z; [injection H as <-; eexists; split; [exact Eb|]; split; [reflexivity|]; split; reflexivity|].
    destruct (Nat.eqb i 0).
    { destruct (updateCallRecord _ _) as [cn fr]. injection H as <-. eexists. split; [exact Eb|]. split; [reflexivity|]. split; reflexivity. }
    destruct (negb sel); [injection H as <-; eexists; split; [exact Eb|]; split; [reflexivity|]; split; reflexivity|].
    destruct (tryAcquirePermit _ _) as [cn []]; injection H as <-; eexists; (split; [exact Eb|]; split; [reflexivity|]; split; reflexivity).
  - destruct (nth_error (sCalls s) c) as [b|] eqn:Eb; [|discriminate H]. right. exists c, b. destruct (existsb _ _); [|discriminate H]. injection H as <-.
    eexists. split; [exact Eb|]. split; [reflexivity|]. split.
    + destruct r as [r|]; [rewrite Nat.eqb_refl|cbn [doCall bHeard app]; reflexivity]. destruct (doCall _ _) as [x|]; [destruct (conclusive x)|]; reflexivity.
    + intros d Hd. destruct r; [|reflexivity]. apply Nat.eqb_neq in Hd. rewrite Hd. reflexivity.
  - destruct (nth_error (sCalls s) c) as [b|] eqn:Eb; [|discriminate H]. right. exists c, b.
    destruct (bPhase b); try discriminate H; (destruct (bSucc b) as [|x rest]; [discriminate H|]); injection H as <-;
      (eexists; split; [exact Eb|]; split; [reflexivity|]; split; reflexivity).
  - destruct (nth_error (sCalls s) c) as [b|] eqn:Eb; [|discriminate H]. right. exists c, b.
    destruct (bPhase b); try discriminate H; (destruct (bSent b) as [|x rest]; [discriminate H|]); (destruct (existsb _ _); [|discriminate H]); injection H as <-;
      (eexists; split; [exact Eb|]; split; [reflexivity|]; split; reflexivity).
  - destruct (nth_error (sCalls s) c) as [b|] eqn:Eb; [|discriminate H]. right. exists c, b.
    destruct (bPhase b); try discriminate H; injection H as <-; (eexists; split; [exact Eb|]; split; [reflexivity|]; split; reflexivity).
  - destruct (nth_error (sCalls s) c) as [b|] eqn:Eb; [|discriminate H]. right. exists c, b.
    destruct (bPhase b); try discriminate H; injection H as <-; (eexists; split; [exact Eb|]; split; [reflexivity|]; split; reflexivity).
Qed.

Lemma stores_heard e m d : stores e m d = match heard_by e d with r :: _ => match rExc r with None => Some (rValue r) | Some _ => m d end | [] => m d end.
Proof.
  destruct e as [id r l|c now sel|c i r|c|c|c|c]; try reflexivity. destruct r as [r|]; [|reflexivity]. cbn [stores heard_by].
  destruct (Nat.eqb_spec d c) as [->|Hne]; destruct (rExc r); try reflexivity; [rewrite Nat.eqb_refl; reflexivity|].
  apply Nat.eqb_neq in Hne. rewrite Hne. reflexivity.
Qed.

Definition kept (s : sys) (m : replies) : Prop :=
  (forall c v, m c = Some v -> exists b, nth_error (sCalls s) c = Some b /\ answered_with b v) /\
  (forall c b r, nth_error (sCalls s) c = Some b -> In r (bHeard b) -> rExc r = None -> m c <> None).

Lemma kept_step s m e s' : kept s m -> sysStep s e = Some s' -> kept s' (stores e m).
Proof.
  intros [K1 K2] H. destruct (step_heard s e s' H) as [(id & r & l & -> & E)|(c & b & b' & Eb & E & Hh & Ho)].
  - split.
    + intros c v Hv. destruct (K1 c v Hv) as (b & B1 & B2). exists b. split; [|exact B2]. rewrite E. rewrite nth_error_app1; [exact B1|]. apply nth_error_Some. congruence.
    + intros c b x Hb Hx He. rewrite E in Hb. destruct (Nat.lt_ge_cases c (length (sCalls s))) as [L|L].
      * rewrite nth_error_app1 in Hb by exact L. exact (K2 c b x Hb Hx He).
      * rewrite nth_error_app2 in Hb by exact L. destruct (c - length (sCalls s)) as [|n]; [|destruct n; discriminate Hb]. injection Hb as <-. destruct Hx.
  - assert (L : c < length (sCalls s)) by (apply nth_error_Some; congruence).
    assert (G : forall d, nth_error (sCalls s') d = if Nat.eqb d c then Some b' else nth_error (sCalls s) d) by (intro d; rewrite E; apply list_set_nth_error, L).
    split.
    + intros d v Hv. rewrite stores_heard in Hv. rewrite G. destruct (Nat.eqb_spec d c) as [->|Hne].
      * exists b'. split; [reflexivity|]. destruct (heard_by e c) as [|r rest] eqn:Er.
        -- destruct (K1 c v Hv) as (b0 & B1 & x & X1 & X2). rewrite Eb in B1. injection B1 as <-. exists x. rewrite Hh. split; [exact X1|exact X2].
        -- destruct (rExc r) eqn:Ex.
           ++ destruct (K1 c v Hv) as (b0 & B1 & x & X1 & X2). rewrite Eb in B1. injection B1 as <-. exists x. rewrite Hh. split; [apply in_or_app; right; exact X1|exact X2].
           ++ injection Hv as <-. exists r. rewrite Hh. split; [left; reflexivity|]. split; [exact Ex|reflexivity].
      * rewrite (Ho d Hne) in Hv. exact (K1 d v Hv).
    + intros d x r Hd Hr He. rewrite G in Hd. rewrite stores_heard. destruct (Nat.eqb_spec d c) as [->|Hne].
      * injection Hd as <-. rewrite Hh in Hr. destruct (heard_by e c) as [|y rest] eqn:Er; [exact (K2 c b r Eb Hr He)|].
        destruct (rExc y) eqn:Ey; [|discriminate].
        assert (R : rest = []) by (destruct e as [| |c' i [z|]| | | |]; cbn [heard_by] in Er; try discriminate Er; destruct (Nat.eqb c c'); [injection Er as _ <-; reflexivity|discriminate Er]).
        subst rest. destruct Hr as [<-|Hr]; [congruence|]. exact (K2 c b r Eb Hr He).
      * rewrite (Ho d Hne). exact (K2 d x r Hd Hr He).
Qed.

Lemma kept_run : forall es s m s' m', kept s m -> replyRun s m es = Some (s', m') -> kept s' m'.
Proof.
  induction es as [|e es IH]; intros s m s' m' K H; cbn [replyRun] in H; [injection H as <- <-; exact K|].
  destruct (sysStep s e) as [s1|] eqn:E; [|discriminate H]. exact (IH s1 _ s' m' (kept_step s m e s1 K E) H).
Qed.

Lemma kept_init start : kept (sysInit start) untouched.
Proof. split; [intros c v H; discriminate H|]. intros c b r H. destruct c; discriminate H. Qed.

Lemma run_sys start es s m : replyRun (sysInit start) untouched es = Some (s, m) -> sysRun (sysInit start) es = Some s.
Proof. intro H. rewrite <- (replyRun_sys es _ untouched), H. reflexivity. Qed.

Lemma some_answer start es s m c v : replyRun (sysInit start) untouched es = Some (s, m) -> m c = Some v ->
  exists b, nth_error (sCalls s) c = Some b /\ answered_with b v.
Proof. intros H Hv. exact (proj1 (kept_run es _ _ s m (kept_init start) H) c v Hv). Qed.

Lemma same_value start es s m c b r : replyRun (sysInit start) untouched es = Some (s, m) -> nth_error (sCalls s) c = Some b ->
  bPhase b = HDone r -> rExc r = None -> agree b -> m c = Some (rValue r).
Proof.
  intros H Hb Hp He Ha. destruct (kept_run es _ _ s m (kept_init start) H) as [K1 K2].
  pose proof (run_sys start es s m H) as Hs.
  destruct (ok_done _ (reachable_calls_ok _ _ _ Hs c b Hb) r Hp) as [[H1 _]|(_ & e & H1 & _)]; [|congruence].
  destruct (m c) as [v|] eqn:Ev; [|destruct (K2 c b r Hb H1 He Ev)]. f_equal.
  destruct (K1 c v Ev) as (b0 & B1 & B2). rewrite Hb in B1. injection B1 as <-. apply (Ha v (rValue r) B2). exists r. auto.
Qed.
