(* FailfastProofs.v: proofs of C26. *)
From Coq Require Import Lia.
From Verif Require Import Base Lists HaProofs FailfastModel FailfastSpec.
Ltac Zify.zify_post_hook ::= idtac.
Local Open Scope Z_scope.
Arguments N.pow : simpl never.

(* ---------------------------------------------------------------- one call at a time *)
Definition after (h : list ffop) : ffmap := ffRun [] (rev h).
Lemma after_cons o h : after (o :: h) = fst (ffStep (after h) o).
Proof. unfold after, ffRun. cbn [rev]. rewrite fold_left_app. reflexivity. Qed.
Definition ffInv (h : list ffop) (m : ffmap) : Prop := forall addr,
  match aget bs_eqb m addr with
  | None => marked addr h = None /\ streak addr h = 0%nat /\ ~ registered addr h
  | Some e => marked addr h = Some (epTime e) /\ epErr e = (N.of_nat (streak addr h) mod 2 ^ 32)%N /\ (epAvail e = false <-> (10 <= streak addr h)%nat)
  end.
Lemma registered_cons a o h : registered a (o :: h) <-> (exists t, o = FNew a t) \/ registered a h.
Proof.
  unfold registered. split.
  - intros [t [H|H]]; [left; exists t; exact H|right; exists t; exact H].
  - intros [[t H]|[t H]]; exists t; [left; exact H|right; exact H].
Qed.
Lemma bs_eqb_false a b : a <> b -> bs_eqb a b = false.
Proof. intro H. destruct (bs_eqb a b) eqn:E; [|reflexivity]. apply bs_eqb_spec in E. contradiction. Qed.
Lemma bs_eqb_rfl a : bs_eqb a a = true.
Proof. apply bs_eqb_spec. reflexivity. Qed.
Lemma ff_inv h : well_formed h -> ffInv h (after h).
Proof.
  induction h as [|o h IH]; intro W.
  - intro addr. cbn. split; [reflexivity|]. split; [reflexivity|]. intros [t []].
  - rewrite after_cons. destruct o as [a t|a ok t|a t].
    + cbn in W. specialize (IH W). intro addr. specialize (IH addr). cbn [ffStep fst marked streak].
      destruct (bs_eqb a addr) eqn:E.
      * apply bs_eqb_spec in E. subst addr. unfold getEps. destruct (aget bs_eqb (after h) a) as [e|] eqn:G.
        -- rewrite G. destruct IH as (M & X). rewrite M. split; [reflexivity|]. exact X.
        -- destruct IH as (M & K & _). rewrite (aget_aset bs_eqb bs_eqb_spec), bs_eqb_rfl, M, K. cbn [epTime epErr epAvail].
           split; [reflexivity|]. split; [reflexivity|]. split; [intro X; discriminate X|lia].
      * assert (NE : a <> addr) by (intro X; apply bs_eqb_spec in X; congruence).
        assert (AE : aget bs_eqb (getEps (after h) a t) addr = aget bs_eqb (after h) addr).
        { unfold getEps. destruct (aget bs_eqb (after h) a); [reflexivity|]. rewrite (aget_aset bs_eqb bs_eqb_spec). rewrite bs_eqb_false; [reflexivity|congruence]. }
        rewrite AE. destruct (aget bs_eqb (after h) addr); [exact IH|]. destruct IH as (M & K & N). split; [exact M|]. split; [exact K|].
        rewrite registered_cons. intros [[t' X]|X]; [injection X as X _; congruence|contradiction].
    + destruct W as [R W]. specialize (IH W). pose proof (IH a) as IA. intro addr. specialize (IH addr). cbn [ffStep fst marked streak].
      destruct (aget bs_eqb (after h) a) as [e|] eqn:G; [|exfalso; apply IA; exact R]. destruct IA as (M & K & V).
      rewrite (aget_aset bs_eqb bs_eqb_spec). destruct (bs_eqb a addr) eqn:E.
      * apply bs_eqb_spec in E. subst addr. rewrite bs_eqb_rfl, M. destruct ok; cbn [ffResult epTime epErr epAvail].
        -- split; [reflexivity|]. split; [reflexivity|]. split; [intro X; discriminate X|lia].
        -- split; [reflexivity|]. assert (C : ((epErr e + 1) mod 2 ^ 32)%N = (N.of_nat (S (streak a h)) mod 2 ^ 32)%N).
           { rewrite K. rewrite N.add_mod_idemp_l by (intro X; discriminate X). f_equal. lia. }
           split; [exact C|]. destruct (failureCount <=? (epErr e + 1) mod 2 ^ 32)%N eqn:L.
           ++ split; [intros _|reflexivity]. apply N.leb_le in L. rewrite C in L. unfold failureCount in L.
              pose proof (N.mod_le (N.of_nat (S (streak a h))) (2 ^ 32)). lia.
           ++ apply N.leb_gt in L. rewrite C in L. unfold failureCount in L. rewrite V. split; [lia|]. intro Q.
              destruct (Nat.eq_dec (streak a h) 9) as [E9|]; [|lia]. rewrite E9 in L. exfalso. revert L. apply N.le_ngt. vm_compute. discriminate.
      * assert (NE : addr <> a) by (intro X; subst; rewrite bs_eqb_rfl in E; discriminate E). rewrite (bs_eqb_false addr a NE).
        destruct (aget bs_eqb (after h) addr); [exact IH|]. destruct IH as (M' & K' & N). split; [exact M'|]. split; [exact K'|].
        rewrite registered_cons. intros [[t' X]|X]; [discriminate X|contradiction].
    + destruct W as [R W]. specialize (IH W). pose proof (IH a) as IA. intro addr. specialize (IH addr). cbn [ffStep marked streak].
      destruct (aget bs_eqb (after h) a) as [e|] eqn:G; [|exfalso; apply IA; exact R]. destruct IA as (M & K & V).
      destruct (ffAsk e t) as [e1 b1] eqn:QA. cbn [fst]. replace e1 with (fst (ffAsk e t)) by (rewrite QA; reflexivity). clear QA.
      rewrite (aget_aset bs_eqb bs_eqb_spec). destruct (bs_eqb a addr) eqn:E.
      * apply bs_eqb_spec in E. subst addr. rewrite bs_eqb_rfl, M. unfold ffAsk. destruct (epAvail e) eqn:A; cbn [fst].
        -- destruct (10 <=? streak a h)%nat eqn:L; [apply Nat.leb_le in L; apply V in L; discriminate L|]. cbn [andb]. rewrite A. split; [reflexivity|]. split; [exact K|exact V].
        -- assert (L : (10 <=? streak a h)%nat = true) by (apply Nat.leb_le, V; reflexivity). rewrite L. cbn [andb].
           change (10 * 1000 * 1000 * 1000) with nextTestTime. destruct (epTime e + nextTestTime <? t); cbn [fst epTime epErr epAvail]; rewrite ?A; (split; [reflexivity|]); (split; [exact K|exact V]).
      * assert (NE : addr <> a) by (intro X; subst; rewrite bs_eqb_rfl in E; discriminate E). rewrite (bs_eqb_false addr a NE).
        destruct (aget bs_eqb (after h) addr); [exact IH|]. destruct IH as (M' & K' & N). split; [exact M'|]. split; [exact K'|].
        rewrite registered_cons. intros [[t' X]|X]; [discriminate X|contradiction].
Qed.
Lemma ask_answer h addr now : well_formed h -> registered addr h ->
  exists x b, marked addr h = Some x /\ snd (ffStep (after h) (FAsk addr now)) = Some b /\
    (b = true <-> (streak addr h < 10)%nat \/ x + 10 * 1000 * 1000 * 1000 < now).
Proof.
  intros W R. pose proof (ff_inv h W addr) as I. cbn [ffStep]. destruct (aget bs_eqb (after h) addr) as [e|]; [|exfalso; apply I; exact R].
  destruct I as (M & K & V). exists (epTime e), (snd (ffAsk e now)). split; [exact M|]. split; [destruct (ffAsk e now); reflexivity|].
  change (10 * 1000 * 1000 * 1000) with nextTestTime. unfold ffAsk. destruct (epAvail e) eqn:A.
  - cbn [snd]. split; [intros _|reflexivity]. left. destruct (Nat.lt_ge_cases (streak addr h) 10) as [L|L]; [exact L|]. apply V in L. discriminate L.
  - assert (L : (10 <= streak addr h)%nat) by (apply V; reflexivity). destruct (epTime e + nextTestTime <? now) eqn:T; cbn [snd].
    + apply Z.ltb_lt in T. split; [intros _; right; exact T|reflexivity].
    + apply Z.ltb_ge in T. split; [intro X; discriminate X|lia].
Qed.

(* ---------------------------------------------------------------- many calls at once *)
Definition evTime (e : ffev) : Z := match e with EvMark t | EvProbe t => t end.
Definition spaced (l : list ffev) : Prop := forall l1 a l2 b l3, l = l1 ++ EvProbe a :: l2 ++ EvProbe b :: l3 -> a + nextTestTime < b.
Record winv (s : ffst) (T : Z) : Prop := {
  wi_time : epTime (fsEps s) <= T;
  wi_log : Forall (fun e => evTime e <= epTime (fsEps s)) (fsLog s);
  wi_cas : forall i v, nth_error (fsCalls s) i = Some (PCas v) -> v + nextTestTime < T;
  wi_sp : spaced (fsLog s) }.
Lemma spaced_snoc_mark l t : spaced l -> spaced (l ++ [EvMark t]).
Proof.
  intros H l1 a l2 b l3 E. destruct l3 as [|z l3 _] using rev_ind.
  - replace (l1 ++ EvProbe a :: l2 ++ [EvProbe b]) with ((l1 ++ EvProbe a :: l2) ++ [EvProbe b]) in E by (rewrite <- app_assoc; reflexivity).
    apply app_inj_tail in E. destruct E as [_ E]. discriminate E.
  - replace (l1 ++ EvProbe a :: l2 ++ EvProbe b :: l3 ++ [z]) with ((l1 ++ EvProbe a :: l2 ++ EvProbe b :: l3) ++ [z]) in E by (rewrite <- !app_assoc; cbn; rewrite <- !app_assoc; reflexivity).
    apply app_inj_tail in E. destruct E as [E _]. apply (H _ _ _ _ _ E).
Qed.
Lemma spaced_snoc_probe l t : spaced l -> Forall (fun e => evTime e + nextTestTime < t) l -> spaced (l ++ [EvProbe t]).
Proof.
  intros H F l1 a l2 b l3 E. destruct l3 as [|z l3 _] using rev_ind.
  - replace (l1 ++ EvProbe a :: l2 ++ [EvProbe b]) with ((l1 ++ EvProbe a :: l2) ++ [EvProbe b]) in E by (rewrite <- app_assoc; reflexivity).
    apply app_inj_tail in E. destruct E as [E X]. injection X as <-. rewrite E in F. rewrite Forall_forall in F.
    apply (F (EvProbe a)). apply in_or_app. right. left. reflexivity.
  - replace (l1 ++ EvProbe a :: l2 ++ EvProbe b :: l3 ++ [z]) with ((l1 ++ EvProbe a :: l2 ++ EvProbe b :: l3) ++ [z]) in E by (rewrite <- !app_assoc; cbn; rewrite <- !app_assoc; reflexivity).
    apply app_inj_tail in E. destruct E as [E _]. apply (H _ _ _ _ _ E).
Qed.
Lemma set_call (l : list ffpc) i p q j x : nth_error l i = Some p -> nth_error (list_set l i q) j = Some x -> (j = i /\ x = q) \/ nth_error l j = Some x.
Proof.
  intros H G. assert (L : (i < length l)%nat) by (apply nth_error_Some; congruence). rewrite list_set_nth_error in G by exact L.
  destruct (Nat.eqb_spec j i) as [->|N]; [left; split; [reflexivity|injection G as <-; reflexivity]|right; exact G].
Qed.
Lemma winv_step s T now o : is_call (match o with SCall p => p | SStep _ => PAsk end) -> winv s T -> T <= now -> winv (ffMove s (now, o)) now.
Proof.
  intros C [I1 I2 I3 I4] L. assert (I3' : forall i v, nth_error (fsCalls s) i = Some (PCas v) -> v + nextTestTime < now) by (intros i v H; specialize (I3 i v H); lia).
  destruct o as [p|i]; unfold ffMove; cbn [fst snd].
  - constructor; cbn [fsEps fsLog fsCalls]; [lia|exact I2| |exact I4].
    intros j v H. destruct (Nat.lt_ge_cases j (length (fsCalls s))) as [J|J].
    + rewrite nth_error_app1 in H by exact J. exact (I3' j v H).
    + rewrite nth_error_app2 in H by exact J. destruct (j - length (fsCalls s))%nat as [|k]; [cbn in H; injection H as H|destruct k; discriminate H].
      subst p. destruct C as [C|[ok C]]; discriminate C.
  - destruct (nth_error (fsCalls s) i) as [p|] eqn:E; [|constructor; [lia|exact I2|exact I3'|exact I4]].
    assert (KEEP : forall q, (forall v, q = PCas v -> v + nextTestTime < now) -> forall j v, nth_error (list_set (fsCalls s) i q) j = Some (PCas v) -> v + nextTestTime < now).
    { intros q Q j v H. destruct (set_call _ _ _ _ _ _ E H) as [[_ X]|X]; [apply Q; congruence|exact (I3' j v X)]. }
    destruct p as [[|]|c| | | | | | |v|v|b]; cbn [ffStep1];
      try (constructor; cbn [fsEps fsLog fsCalls epTime]; [lia|rewrite app_nil_r; exact I2|apply KEEP; intros v0 X; discriminate X|rewrite app_nil_r; exact I4]).
    + (* POk *) constructor; cbn [fsEps fsLog fsCalls epTime]; [lia|rewrite app_nil_r; exact I2| |rewrite app_nil_r; exact I4].
      apply KEEP. intros v0 X. destruct (epAvail (fsEps s)); discriminate X.
    + (* PMark *) constructor; cbn [fsEps fsLog fsCalls epTime]; [lia| |apply KEEP; intros v0 X; discriminate X|apply spaced_snoc_mark; exact I4].
      apply Forall_app. split; [eapply Forall_impl; [|exact I2]; cbn; intros; lia|]. constructor; [cbn; lia|constructor].
    + (* PAsk *) constructor; cbn [fsEps fsLog fsCalls epTime]; [lia|rewrite app_nil_r; exact I2| |rewrite app_nil_r; exact I4].
      apply KEEP. intros v0 X. destruct (epAvail (fsEps s)); discriminate X.
    + (* PCheck *) constructor; cbn [fsEps fsLog fsCalls epTime]; [lia|rewrite app_nil_r; exact I2| |rewrite app_nil_r; exact I4].
      apply KEEP. intros v0 X. destruct (v + nextTestTime <? now) eqn:Q; [|discriminate X]. injection X as <-. apply Z.ltb_lt. exact Q.
    + (* PCas *) destruct (epTime (fsEps s) =? v) eqn:Q.
      * apply Z.eqb_eq in Q. pose proof (I3' i v E) as B. constructor; cbn [fsEps fsLog fsCalls epTime]; [lia| |apply KEEP; intros v0 X; discriminate X|].
        -- apply Forall_app. split; [eapply Forall_impl; [|exact I2]; cbn; intros; unfold nextTestTime in *; lia|]. constructor; [cbn; lia|constructor].
        -- apply spaced_snoc_probe; [exact I4|]. eapply Forall_impl; [|exact I2]. cbn. intros. unfold nextTestTime in *. lia.
      * constructor; cbn [fsEps fsLog fsCalls epTime]; [lia|rewrite app_nil_r; exact I2|apply KEEP; intros v0 X; discriminate X|rewrite app_nil_r; exact I4].
Qed.
Lemma winv_run os : forall s T, calls_only os -> clocked T os -> winv s T -> exists T', winv (ffMoves s os) T'.
Proof.
  induction os as [|[t o] os IH]; intros s T C K I; [exists T; exact I|]. destruct K as [K1 K2]. cbn [ffMoves fold_left]. apply (IH _ t); [|exact K2|].
  - intros t' p H. apply (C t' p). right. exact H.
  - apply (winv_step s T t o); [|exact I|exact K1]. destruct o as [p|i]; [apply (C t p); left; reflexivity|left; reflexivity].
Qed.
Lemma probes_spaced t0 os : calls_only os -> clocked t0 os -> spaced (fsLog (ffMoves (ffInit t0) os)).
Proof.
  intros C K. destruct (winv_run os (ffInit t0) t0 C K) as [T I]; [|exact (wi_sp _ _ I)].
  constructor; cbn; [lia|constructor|intros i v H; destruct i; discriminate H|]. intros l1 a l2 b l3 E. destruct l1; discriminate E.
Qed.

Lemma countb_list_set {B} (p : B -> bool) l i x y : nth_error l i = Some x ->
  (countb p (list_set l i y) + (if p x then 1 else 0) = countb p l + (if p y then 1 else 0))%nat.
Proof.
  revert i. induction l as [|a l IH]; intros [|i] H; try discriminate H.
  - cbn in H. injection H as ->. cbn [list_set]. rewrite !countb_cons. lia.
  - cbn in H. cbn [list_set]. rewrite !countb_cons. specialize (IH i H). lia.
Qed.
Definition toFail (p : ffpc) : bool := match p with PRes false => true | _ => false end.
Record finv (s : ffst) (F : nat) : Prop := {
  fi_cnt : (epErr (fsEps s) + N.of_nat (countb toFail (fsCalls s)) <= N.of_nat F)%N;
  fi_pc : forall i c, nth_error (fsCalls s) i = Some (PFailed c) -> (c <= N.of_nat F)%N;
  fi_av : (F < 10)%nat -> epAvail (fsEps s) = true }.
Lemma finv_step s F o : calls_only [o] -> finv s F -> finv (ffMove s o) (F + (if failing o then 1 else 0)).
Proof.
  intros C [I1 I2 I3]. destruct o as [now [p|i]]; unfold ffMove, failing; cbn [fst snd].
  - assert (P : is_call p) by (apply (C now p); left; reflexivity). constructor; cbn [fsEps fsCalls].
    + rewrite countb_app. unfold countb at 2. destruct P as [->|[[|] ->]]; cbn [filter toFail length]; lia.
    + intros j c H. destruct (Nat.lt_ge_cases j (length (fsCalls s))) as [J|J].
      * rewrite nth_error_app1 in H by exact J. specialize (I2 j c H). lia.
      * rewrite nth_error_app2 in H by exact J. destruct (j - length (fsCalls s))%nat as [|k]; [cbn in H; injection H as H|destruct k; discriminate H].
        subst p. destruct P as [P|[ok P]]; discriminate P.
    + intro L. apply I3. lia.
  - rewrite Nat.add_0_r. destruct (nth_error (fsCalls s) i) as [p|] eqn:E; [|constructor; assumption].
    assert (CS : forall q, (countb toFail (list_set (fsCalls s) i q) + (if toFail p then 1 else 0) = countb toFail (fsCalls s) + (if toFail q then 1 else 0))%nat)
      by (intro q; apply (countb_list_set toFail _ _ _ q E)).
    assert (KEEP : forall q, (forall c, q = PFailed c -> (c <= N.of_nat F)%N) -> forall j c, nth_error (list_set (fsCalls s) i q) j = Some (PFailed c) -> (c <= N.of_nat F)%N).
    { intros q Q j c H. destruct (set_call _ _ _ _ _ _ E H) as [[_ X]|X]; [apply Q; congruence|exact (I2 j c X)]. }
    assert (W : ((epErr (fsEps s) + 1) mod 2 ^ 32 <= epErr (fsEps s) + 1)%N) by (apply N.mod_le; intro X; discriminate X).
    destruct p as [[|]|c| | | | | | |v|v|b]; cbn [ffStep1];
      try (constructor; cbn [fsEps fsCalls epErr epAvail];
           [match goal with |- context [list_set _ _ ?q] => specialize (CS q); cbn [toFail] in CS; lia end
           |apply KEEP; intros c0 X; discriminate X|assumption || (intro; reflexivity)]).
    + (* PRes false *) specialize (CS (PFailed ((epErr (fsEps s) + 1) mod 2 ^ 32)%N)). cbn [toFail] in CS.
      constructor; cbn [fsEps fsCalls epErr epAvail]; [lia| |exact I3]. apply KEEP. intros c X. injection X as <-. lia.
    + (* PFailed *) specialize (CS PMark). cbn [toFail] in CS. constructor; cbn [fsEps fsCalls epErr epAvail]; [lia|apply KEEP; intros c0 X; discriminate X|].
      intro L. rewrite (I3 L). specialize (I2 i c E). destruct (failureCount <=? c)%N eqn:Q; [|reflexivity]. apply N.leb_le in Q. unfold failureCount in Q. lia.
    + (* POk *) constructor; cbn [fsEps fsCalls]; [|apply KEEP; intros c X; destruct (epAvail (fsEps s)); discriminate X|exact I3].
      destruct (epAvail (fsEps s)); [specialize (CS PMark)|specialize (CS POkSet)]; cbn [toFail] in CS; lia.
    + (* PAsk *) constructor; cbn [fsEps fsCalls]; [|apply KEEP; intros c X; destruct (epAvail (fsEps s)); discriminate X|exact I3].
      destruct (epAvail (fsEps s)); [specialize (CS (PAns true))|specialize (CS PLoad)]; cbn [toFail] in CS; lia.
    + (* PCheck *) constructor; cbn [fsEps fsCalls]; [|apply KEEP; intros c X; destruct (v + nextTestTime <? now); discriminate X|exact I3].
      destruct (v + nextTestTime <? now); [specialize (CS (PCas v))|specialize (CS (PAns false))]; cbn [toFail] in CS; lia.
    + (* PCas *) destruct (epTime (fsEps s) =? v); (constructor; cbn [fsEps fsCalls epErr epAvail]; [|apply KEEP; intros c X; discriminate X|exact I3]);
        [specialize (CS (PAns true))|specialize (CS (PAns false))]; cbn [toFail] in CS; lia.
Qed.
Lemma finv_run os : forall s F, calls_only os -> finv s F -> finv (ffMoves s os) (F + countb failing os).
Proof.
  induction os as [|o os IH]; intros s F C I; [cbn; rewrite Nat.add_0_r; exact I|]. cbn [ffMoves fold_left]. rewrite countb_cons.
  replace (F + ((if failing o then 1 else 0) + countb failing os))%nat with ((F + (if failing o then 1 else 0)) + countb failing os)%nat by lia. apply IH.
  - intros t p H. apply (C t p). right. exact H.
  - apply finv_step; [|exact I]. intros t p [H|[]]. apply (C t p). left. exact H.
Qed.
Lemma few_failures t0 os : calls_only os -> (countb failing os < 10)%nat -> epAvail (fsEps (ffMoves (ffInit t0) os)) = true.
Proof.
  intros C L. destruct (finv_run os (ffInit t0) 0 C) as [_ _ I].
  - constructor; cbn; [lia|intros i c H; destruct i; discriminate H|reflexivity].
  - apply I. exact L.
Qed.

(* without a success: past the counter *)
Definition past (p : ffpc) : bool := match p with PFailed _ | PMark | PDone => true | _ => false end.
Definition waiting (p : ffpc) : bool := match p with PFailed _ => true | _ => false end.
Definition late (p : ffpc) : bool := match p with PFailed c => (10 <=? c)%N | _ => false end.
Record oinv (s : ffst) (F : nat) : Prop := {
  oi_cnt : (epErr (fsEps s) = N.of_nat (countb past (fsCalls s)))%N;
  oi_F : (countb past (fsCalls s) + countb toFail (fsCalls s) = F)%nat;
  oi_none : forall i p, nth_error (fsCalls s) i = Some p -> p <> POk /\ p <> POkSet /\ p <> PRes true;
  oi_late : epAvail (fsEps s) = true -> (countb late (fsCalls s) = countb past (fsCalls s) - 9)%nat }.
Lemma oinv_step s F o : (N.of_nat F + 1 < 2 ^ 32)%N -> calls_only [o] -> succeeding o = false -> oinv s F -> oinv (ffMove s o) (F + (if failing o then 1 else 0)).
Proof.
  intros B C SU [I1 I2 I3 I4]. destruct o as [now [p|i]]; unfold ffMove, failing, succeeding in *; cbn [fst snd] in *.
  - assert (P : is_call p) by (apply (C now p); left; reflexivity).
    assert (X : countb past [p] = 0%nat /\ countb late [p] = 0%nat /\ countb toFail [p] = (if match p with PRes false => true | _ => false end then 1 else 0)%nat).
    { destruct P as [->|[[|] ->]]; repeat split; reflexivity. }
    destruct X as (X1 & X2 & X3). constructor; cbn [fsEps fsCalls]; rewrite ?countb_app, ?X1, ?X2, ?X3.
    + rewrite I1. f_equal. lia.
    + destruct p as [[|]|c| | | | | | |v|v|b]; lia.
    + intros j q H. destruct (Nat.lt_ge_cases j (length (fsCalls s))) as [J|J].
      * rewrite nth_error_app1 in H by exact J. exact (I3 j q H).
      * rewrite nth_error_app2 in H by exact J. destruct (j - length (fsCalls s))%nat as [|k]; [cbn in H; injection H as <-|destruct k; discriminate H].
        destruct P as [->|[[|] ->]]; [| discriminate SU|]; (split; [intro Y; discriminate Y|]; split; intro Y; discriminate Y).
    + intro A. specialize (I4 A). lia.
  - rewrite Nat.add_0_r. destruct (nth_error (fsCalls s) i) as [p|] eqn:E; [|constructor; assumption].
    pose proof (fun q => countb_list_set past _ _ _ q E) as CP. pose proof (fun q => countb_list_set late _ _ _ q E) as CL. pose proof (fun q => countb_list_set toFail _ _ _ q E) as CT.
    assert (KEEP : forall q, (q <> POk /\ q <> POkSet /\ q <> PRes true) -> forall j x, nth_error (list_set (fsCalls s) i q) j = Some x -> x <> POk /\ x <> POkSet /\ x <> PRes true).
    { intros q Q j x H. destruct (set_call _ _ _ _ _ _ E H) as [[_ ->]|X]; [exact Q|exact (I3 j x X)]. }
    destruct (I3 i p E) as (N1 & N2 & N3).
    destruct p as [[|]|c| | | | | | |v|v|b]; try contradiction; cbn [ffStep1].
    + (* PRes false *)
      assert (M : ((epErr (fsEps s) + 1) mod 2 ^ 32 = epErr (fsEps s) + 1)%N).
      { apply N.mod_small. rewrite I1. specialize (CT PMark). cbn [toFail] in CT. pose proof I2. lia. }
      rewrite M. specialize (CP (PFailed (epErr (fsEps s) + 1))). specialize (CL (PFailed (epErr (fsEps s) + 1))). specialize (CT (PFailed (epErr (fsEps s) + 1))).
      cbn [past late toFail] in CP, CL, CT. constructor; cbn [fsEps fsCalls epErr epAvail].
      * lia.
      * lia.
      * apply KEEP. split; [intro Y; discriminate Y|]; split; intro Y; discriminate Y.
      * intro A. specialize (I4 A). destruct (10 <=? epErr (fsEps s) + 1)%N eqn:Q; [apply N.leb_le in Q|apply N.leb_gt in Q]; lia.
    + (* PFailed *) specialize (CP PMark). specialize (CL PMark). specialize (CT PMark). cbn [past late toFail] in CP, CL, CT. constructor; cbn [fsEps fsCalls epErr epAvail].
      * rewrite I1. f_equal. lia.
      * lia.
      * apply KEEP. split; [intro Y; discriminate Y|]; split; intro Y; discriminate Y.
      * unfold failureCount. destruct (10 <=? c)%N; [intro A; discriminate A|]. intro A. specialize (I4 A). lia.
    + (* PMark *) specialize (CP PDone). specialize (CL PDone). specialize (CT PDone). cbn [past late toFail] in CP, CL, CT. constructor; cbn [fsEps fsCalls epErr epAvail].
      * rewrite I1. f_equal. lia.
      * lia.
      * apply KEEP. split; [intro Y; discriminate Y|]; split; intro Y; discriminate Y.
      * intro A. specialize (I4 A). lia.
    + (* PDone *) specialize (CP PDone). specialize (CL PDone). specialize (CT PDone). cbn [past late toFail] in CP, CL, CT. constructor; cbn [fsEps fsCalls epErr epAvail].
      * rewrite I1. f_equal. lia.
      * lia.
      * apply KEEP. split; [intro Y; discriminate Y|]; split; intro Y; discriminate Y.
      * intro A. specialize (I4 A). lia.
    + (* PAsk *) destruct (epAvail (fsEps s)) eqn:A.
      * specialize (CP (PAns true)). specialize (CL (PAns true)). specialize (CT (PAns true)). cbn [past late toFail] in CP, CL, CT. constructor; cbn [fsEps fsCalls].
        -- rewrite I1. f_equal. lia.
        -- lia.
        -- apply KEEP. split; [intro Y; discriminate Y|]; split; intro Y; discriminate Y.
        -- intro A'. specialize (I4 eq_refl). lia.
      * specialize (CP PLoad). specialize (CL PLoad). specialize (CT PLoad). cbn [past late toFail] in CP, CL, CT. constructor; cbn [fsEps fsCalls].
        -- rewrite I1. f_equal. lia.
        -- lia.
        -- apply KEEP. split; [intro Y; discriminate Y|]; split; intro Y; discriminate Y.
        -- intro A'. congruence.
    + (* PLoad *) specialize (CP (PCheck (epTime (fsEps s)))). specialize (CL (PCheck (epTime (fsEps s)))). specialize (CT (PCheck (epTime (fsEps s)))).
      cbn [past late toFail] in CP, CL, CT. constructor; cbn [fsEps fsCalls].
      * rewrite I1. f_equal. lia.
      * lia.
      * apply KEEP. split; [intro Y; discriminate Y|]; split; intro Y; discriminate Y.
      * intro A. specialize (I4 A). lia.
    + (* PCheck *) set (q := if v + nextTestTime <? now then PCas v else PAns false).
      assert (Q : past q = false /\ late q = false /\ toFail q = false /\ q <> POk /\ q <> POkSet /\ q <> PRes true).
      { unfold q. destruct (v + nextTestTime <? now); repeat split; intro Y; discriminate Y. }
      destruct Q as (Q1 & Q2 & Q3 & Q4). specialize (CP q). specialize (CL q). specialize (CT q). rewrite Q1 in CP. rewrite Q2 in CL. rewrite Q3 in CT. cbn [past late toFail] in CP, CL, CT.
      constructor; cbn [fsEps fsCalls].
      * rewrite I1. f_equal. lia.
      * lia.
      * apply KEEP. exact Q4.
      * intro A. specialize (I4 A). lia.
    + (* PCas *) assert (G : forall b : bool, oinv (mkFfst (mkEps (epAvail (fsEps s)) (epErr (fsEps s)) (if b then now else epTime (fsEps s))) (list_set (fsCalls s) i (PAns b)) (fsLog s ++ (if b then [EvProbe now] else []))) F).
      { intro b. specialize (CP (PAns b)). specialize (CL (PAns b)). specialize (CT (PAns b)). cbn [past late toFail] in CP, CL, CT. constructor; cbn [fsEps fsCalls epErr epAvail].
        - rewrite I1. f_equal. lia.
        - lia.
        - apply KEEP. split; [intro Y; discriminate Y|]; split; intro Y; discriminate Y.
        - intro A. specialize (I4 A). lia. }
      destruct (epTime (fsEps s) =? v); [exact (G true)|]. specialize (G false). destruct (fsEps s). exact G.
    + (* PAns *) specialize (CP (PAns b)). specialize (CL (PAns b)). specialize (CT (PAns b)). cbn [past late toFail] in CP, CL, CT. constructor; cbn [fsEps fsCalls epErr epAvail].
      * rewrite I1. f_equal. lia.
      * lia.
      * apply KEEP. split; [intro Y; discriminate Y|]; split; intro Y; discriminate Y.
      * intro A. specialize (I4 A). lia.
Qed.
Lemma oinv_run os : forall s F, (N.of_nat (F + countb failing os) + 1 < 2 ^ 32)%N -> calls_only os -> countb succeeding os = 0%nat -> oinv s F -> oinv (ffMoves s os) (F + countb failing os).
Proof.
  induction os as [|o os IH]; intros s F B C SU I; [cbn; rewrite Nat.add_0_r; exact I|]. cbn [ffMoves fold_left]. rewrite countb_cons in *.
  replace (F + ((if failing o then 1 else 0) + countb failing os))%nat with ((F + (if failing o then 1 else 0)) + countb failing os)%nat in * by lia.
  apply IH.
  - exact B.
  - intros t p H. apply (C t p). right. exact H.
  - lia.
  - apply oinv_step; [lia| | |exact I].
    + intros t p [H|[]]. apply (C t p). left. exact H.
    + destruct (succeeding o); [discriminate SU|reflexivity].
Qed.
Lemma late_le_waiting l : (countb late l <= countb waiting l)%nat.
Proof. induction l as [|p l IH]; [apply Nat.le_refl|]. rewrite !countb_cons. destruct p; cbn [late waiting]; try lia. destruct (10 <=? c)%N; lia. Qed.
Lemma waiting_finished l : (countb waiting l + countb finished l <= countb past l)%nat.
Proof. induction l as [|p l IH]; [apply Nat.le_refl|]. rewrite !countb_cons. destruct p; cbn [finished waiting past]; lia. Qed.
Lemma opens t0 os : calls_only os -> countb succeeding os = 0%nat -> (N.of_nat (countb failing os) + 1 < 2 ^ 32)%N ->
  (10 <= countb finished (fsCalls (ffMoves (ffInit t0) os)))%nat -> epAvail (fsEps (ffMoves (ffInit t0) os)) = false.
Proof.
  intros C SU B FI. destruct (oinv_run os (ffInit t0) 0 B C SU) as [I1 I2 I3 I4].
  - constructor; cbn; [reflexivity|reflexivity|intros i p H; destruct i; discriminate H|reflexivity].
  - destruct (epAvail (fsEps (ffMoves (ffInit t0) os))) eqn:A; [|reflexivity]. specialize (I4 eq_refl).
    pose proof (late_le_waiting (fsCalls (ffMoves (ffInit t0) os))). pose proof (waiting_finished (fsCalls (ffMoves (ffInit t0) os))). lia.
Qed.
Lemma nth_list_set_eq {A} (l : list A) i x : (i < length l)%nat -> nth_error (list_set l i x) i = Some x.
Proof. intro H. rewrite list_set_nth_error, Nat.eqb_refl by exact H. reflexivity. Qed.
Lemma nth_list_set_ne {A} (l : list A) i j x : (i < length l)%nat -> j <> i -> nth_error (list_set l i x) j = nth_error l j.
Proof. intros L H. rewrite list_set_nth_error by exact L. apply Nat.eqb_neq in H. rewrite H. reflexivity. Qed.
(* ---- a good response makes the endpoint available unless a failed one is worked on at the same time *)
Definition ginv (i : nat) (A : nat -> Prop) (s : ffst) : Prop :=
  (forall j p, A j -> nth_error (fsCalls s) j = Some p -> ~ fails_now p) /\
  (exists p, nth_error (fsCalls s) i = Some p /\ (p = PRes true \/ p = POk \/ p = POkSet \/ ((p = PMark \/ p = PDone) /\ epAvail (fsEps s) = true))).
Lemma step1_calm e p now e' p' l : ~ fails_now p -> ffStep1 e p now = (e', p', l) ->
  ~ fails_now p' /\ (epAvail e = true -> epAvail e' = true).
Proof.
  unfold fails_now. intros N H.
  destruct p as [ok|c| | | | | | |v|v|b]; cbn in H.
  - destruct ok; [|exfalso; apply N; left; reflexivity]. injection H as <- <- _. cbn [epAvail]. split; [intros [X|[c X]]; discriminate X|auto].
  - exfalso. apply N. right. exists c. reflexivity.
  - injection H as <- <- _. split; [destruct (epAvail e); intros [X|[c X]]; discriminate X|auto].
  - injection H as <- <- _. split; [intros [X|[c X]]; discriminate X|auto].
  - injection H as <- <- _. split; [intros [X|[c X]]; discriminate X|auto].
  - injection H as <- <- _. split; [intros [X|[c X]]; discriminate X|auto].
  - injection H as <- <- _. split; [destruct (epAvail e); intros [X|[c X]]; discriminate X|auto].
  - injection H as <- <- _. split; [intros [X|[c X]]; discriminate X|auto].
  - injection H as <- <- _. split; [destruct (v + nextTestTime <? now); intros [X|[c X]]; discriminate X|auto].
  - destruct (epTime e =? v); injection H as <- <- _; (split; [intros [X|[c X]]; discriminate X|auto]).
  - injection H as <- <- _. split; [intros [X|[c X]]; discriminate X|auto].
Qed.
Lemma ginv_move i A s o : ginv i A s -> (forall p, snd o = SCall p -> ~ fails_now p) -> (forall j, snd o = SStep j -> A j) -> ginv i A (ffMove s o).
Proof.
  intros [G1 G2] HC HS. destruct o as [t [p|j]]; cbn [snd] in *; unfold ffMove; cbn [snd].
  - specialize (HC p eq_refl). split; cbn [fsCalls fsEps].
    + intros j q Hj Hq. destruct (Nat.lt_ge_cases j (length (fsCalls s))) as [L|L].
      * rewrite nth_error_app1 in Hq by exact L. exact (G1 j q Hj Hq).
      * rewrite nth_error_app2 in Hq by exact L. destruct (j - length (fsCalls s))%nat as [|n]; cbn in Hq; [injection Hq as <-; exact HC|destruct n; discriminate Hq].
    + destruct G2 as (q & Hq & H). exists q. split; [|exact H]. rewrite nth_error_app1; [exact Hq|]. apply nth_error_Some. congruence.
  - specialize (HS j eq_refl). destruct (nth_error (fsCalls s) j) as [p|] eqn:E; [|split; assumption].
    cbn [fst]. destruct (ffStep1 (fsEps s) p t) as [[e' p'] l] eqn:E1. pose proof (G1 j p HS E) as Np.
    destruct (step1_calm _ _ _ _ _ _ Np E1) as [Np' Ha]. assert (Lj : (j < length (fsCalls s))%nat) by (apply nth_error_Some; congruence).
    split; cbn [fsCalls fsEps].
    + intros k q Hk Hq. destruct (Nat.eq_dec k j) as [->|Ne].
      * rewrite nth_list_set_eq in Hq by exact Lj. injection Hq as <-. exact Np'.
      * rewrite nth_list_set_ne in Hq by (exact Lj || congruence). exact (G1 k q Hk Hq).
    + destruct G2 as (q & Hq & H). destruct (Nat.eq_dec i j) as [->|Ne].
      * rewrite E in Hq. injection Hq as <-. exists p'. split; [rewrite nth_list_set_eq by exact Lj; reflexivity|].
        destruct H as [->|[->|[->|[[->| ->] Hv]]]]; cbn in E1.
        -- injection E1 as <- <- _. auto.
        -- injection E1 as <- <- _. destruct (epAvail (fsEps s)) eqn:Ev; auto 6.
        -- injection E1 as <- <- _. auto 6.
        -- injection E1 as <- <- _. right. right. right. auto.
        -- injection E1 as <- <- _. right. right. right. auto.
      * exists q. split; [rewrite nth_list_set_ne by (exact Lj || congruence); exact Hq|]. destruct H as [H|[H|[H|[H Hv]]]]; auto 6.
Qed.
Lemma good_response t0 os t os2 : let s := ffMoves (ffInit t0) os in let i := length (fsCalls s) in
  let s1 := ffMove s (t, SCall (PRes true)) in
  calls_only os2 -> no_failure s1 os2 -> nth_error (fsCalls (ffMoves s1 os2)) i = Some PDone -> epAvail (fsEps (ffMoves s1 os2)) = true.
Proof.
  intros s i s1 C [N1 N2] Hd. set (A := fun j => exists t, In (t, SStep j) os2).
  assert (G : ginv i A s1).
  { split.
    - intros j p (t' & Hj) Hp. exact (N2 t' j p Hj Hp).
    - exists (PRes true). split; [|auto]. unfold s1, ffMove, i. cbn [snd fsCalls]. rewrite nth_error_app2, Nat.sub_diag by apply Nat.le_refl. reflexivity. }
  assert (R : forall os', (forall o, In o os' -> In o os2) -> forall s', ginv i A s' -> ginv i A (ffMoves s' os')).
  { induction os' as [|o os' IH]; intros Hin s' G'; [exact G'|]. unfold ffMoves. cbn [fold_left]. apply IH; [intros x Hx; apply Hin; right; exact Hx|].
    assert (Ho : In o os2) by (apply Hin; left; reflexivity). destruct o as [t' [p|j]]; apply ginv_move; try exact G'; cbn [snd].
    - intros q X. injection X as <-. destruct (C t' p Ho) as [->|[[|] ->]]; intros [X|[c X]]; try discriminate X. apply (N1 t'). exact Ho.
    - intros j X. discriminate X.
    - intros q X. discriminate X.
    - intros k X. injection X as <-. exists t'. exact Ho. }
  destruct (R os2 (fun o H => H) s1 G) as [_ (p & Hp & H)]. rewrite Hd in Hp. injection Hp as <-.
  destruct H as [X|[X|[X|[_ H]]]]; try discriminate X. exact H.
Qed.
