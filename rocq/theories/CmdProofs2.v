(* CmdProofs2.v: which switcher and which degrade command is taken (C24). *)
From Coq Require Import Permutation Sorted.
From Verif Require Import Base Lists GoStrings GoStrings2 UrlModel UrlSpec ClusterModel CmdModel CmdSpec CmdProofs.

Definition isT (lib : cmdlib) (u : url) (t : Z) (c : cmd) : bool := matchPattern lib c u && (cmType c =? t)%Z.
Definition pick (t : Z) (m : option cmd * option cmd * option cmd) : option cmd := if (t =? 2)%Z then snd m else snd (fst m).
Lemma isT_spec lib u t c : (t = 1 \/ t = 2)%Z -> isT lib u t c = true <-> for_service lib u t c.
Proof.
  unfold isT, for_service. intros [->| ->]; cbn [Z.eqb Pos.eqb]; rewrite andb_true_iff, Z.eqb_eq.
  - apply matchPattern_spec. discriminate.
  - unfold matchPattern. split; [tauto|]. intros ->. split; reflexivity.
Qed.
Lemma find_app_last f (l : list cmd) c : find f (l ++ [c]) = match find f l with Some x => Some x | None => if f c then Some c else None end.
Proof. induction l as [|x l IH]; cbn; [reflexivity|]. destruct (f x); [reflexivity|exact IH]. Qed.
Lemma fold_pick lib u t : (t = 1 \/ t = 2)%Z -> forall l acc, pick t (fold_left (mergeStep lib u) l acc) = orElse (find (isT lib u t) (rev l)) (pick t acc).
Proof.
  intros Ht l. induction l as [|c l IH]; intros [[tc dc] sc]; cbn [fold_left rev]; [reflexivity|]. rewrite IH, find_app_last.
  destruct (find (isT lib u t) (rev l)) as [x|]; [reflexivity|]. cbn [orElse]. unfold isT, mergeStep, pick.
  destruct (matchPattern lib c u); cbn [andb]; [|reflexivity].
  change CMDTrafficControl with 0%Z. change CMDDegrade with 1%Z. change CMDSwitcher with 2%Z.
  destruct (cmType c =? 0)%Z eqn:E0; [apply Z.eqb_eq in E0; rewrite E0; destruct Ht as [->| ->]; reflexivity|].
  destruct (cmType c =? 1)%Z eqn:E1; [apply Z.eqb_eq in E1; rewrite E1; destruct Ht as [->| ->]; reflexivity|].
  destruct (cmType c =? 2)%Z eqn:E2; [apply Z.eqb_eq in E2; rewrite E2; destruct Ht as [->| ->]; reflexivity|].
  destruct Ht as [->| ->]; [rewrite E1|rewrite E2]; reflexivity.
Qed.
Lemma find_rev_sorted f l c : StronglySorted (fun a b => (cmIndex a <= cmIndex b)%Z) l -> find f (rev l) = Some c ->
  forall c', In c' l -> f c' = true -> (cmIndex c' <= cmIndex c)%Z.
Proof.
  induction l as [|x l IH]; cbn [rev]; intros Hs H; [discriminate H|]. inversion Hs as [|? ? Hs' Hx]; subst. rewrite Forall_forall in Hx.
  rewrite find_app_last in H. destruct (find f (rev l)) as [y|] eqn:E.
  - injection H as <-. intros c' [<-|Hc] Hf; [apply Hx; apply find_some in E as [E _]; apply in_rev; exact E|exact (IH Hs' eq_refl c' Hc Hf)].
  - destruct (f x) eqn:Ex; [injection H as <-|discriminate H]. intros c' [<-|Hc] Hf; [lia|]. apply in_rev in Hc. pose proof (find_none _ _ E _ Hc). congruence.
Qed.
Lemma merged_takes lib u t info : sort_ok lib -> (t = 1 \/ t = 2)%Z ->
  match pick t (merged lib info u) with Some c => highest lib u t info c | None => none_for lib u t info end.
Proof.
  intros Hs Ht. unfold merged, highest, none_for, cmds_of.
  assert (N : pick t (None, None, None) = None) by (destruct Ht as [->| ->]; reflexivity).
  destruct info as [|b info]; [rewrite N; intros c []|]. unfold mergeCommand. destruct (clParse lib (b :: info)) as [l|]; [|rewrite N; intros c []].
  rewrite (fold_pick lib u t Ht). destruct (Hs l) as [Hp Hss].
  assert (Hin : forall c, In c (clSort lib l) <-> In c l) by (intro c; split; apply Permutation_in; [exact Hp|symmetry; exact Hp]).
  destruct (find (isT lib u t) (rev (clSort lib l))) as [c|] eqn:E; cbn [orElse].
  - pose proof (find_rev_sorted _ _ _ Hss E) as Hm. apply find_some in E as [E1 E2]. apply in_rev in E1. split; [apply Hin; exact E1|].
    split; [apply (isT_spec lib u t c Ht); exact E2|]. intros c' Hc Hf. apply Hm; [apply Hin; exact Hc|apply (isT_spec lib u t c' Ht); exact Hf].
  - rewrite N. intros c Hc Hf. apply Hin in Hc. apply in_rev in Hc. pose proof (find_none _ _ E _ Hc) as X. apply (isT_spec lib u t c Ht) in Hf. congruence.
Qed.
Lemma takes_orElse lib u t a s : sort_ok lib -> (t = 1 \/ t = 2)%Z ->
  takes lib u t a s (orElse (pick t (merged lib a u)) (pick t (merged lib s u))).
Proof.
  intros Hs Ht. pose proof (merged_takes lib u t a Hs Ht) as A. pose proof (merged_takes lib u t s Hs Ht) as B. unfold takes.
  destruct (pick t (merged lib a u)); cbn [orElse]; [left; exact A|]. destruct (pick t (merged lib s u)); auto.
Qed.
Definition sw_ok lib u (w : crw) : Prop := takes lib u 2 (cwAgent w) (cwService w) (cwSwitch w).
Definition dg_ok lib u (w : crw) : Prop := takes lib u 1 (cwAgent w) (cwService w) (cwDegrade w).
Lemma command_takes lib u disc w typ info : sort_ok lib -> cwUrl w = u -> let w' := fst (processCommand lib disc w typ info) in
  (sw_ok lib u w -> sw_ok lib u w') /\ (dg_ok lib u w -> dg_ok lib u w').
Proof.
  intros Hs Hu. unfold processCommand. rewrite Hu.
  assert (G : forall agent service, let w' := fst (
     let '(t1, d1, s1) := merged lib agent u in let '(t2, d2, s2) := merged lib service u in
     let tc := orElse t1 t2 in let dc := orElse d1 d2 in let sc := orElse s1 s2 in
     let need := match tc, cwTc w with None, None => false | _, _ => true end in
     let w1 := processTc disc w tc in
     (mkCrw (cwUrl w1) (cwStatic w1) (cwOwn w1) (cwOthers w1) (cwTc w1) dc sc agent service (cwWeights w1)
           (match dc with None => true | Some _ => false end) (cwSubs w1) (cwNext w1), need)) in sw_ok lib u w' /\ dg_ok lib u w').
  { intros agent service. pose proof (takes_orElse lib u 2 agent service Hs (or_intror eq_refl)) as T2.
    pose proof (takes_orElse lib u 1 agent service Hs (or_introl eq_refl)) as T1. revert T1 T2.
    destruct (merged lib agent u) as [[t1 d1] s1]. destruct (merged lib service u) as [[t2 d2] s2]. cbv zeta. unfold sw_ok, dg_ok.
    cbn [fst cwAgent cwService cwSwitch cwDegrade]. unfold pick. cbn [Z.eqb Pos.eqb fst snd]. auto. }
  destruct (typ =? AgentCmd)%Z; [destruct (bs_eqb (cwAgent w) info); [auto|destruct (G info (cwService w)) as [G1 G2]; split; intros _; assumption]|].
  destruct (typ =? ServiceCmd)%Z; [destruct (bs_eqb (cwService w) info); [auto|destruct (G (cwAgent w) info) as [G1 G2]; split; intros _; assumption]|auto].
Qed.
Lemma ok_same lib u w w' : same_but w w' -> (sw_ok lib u w -> sw_ok lib u w') /\ (dg_ok lib u w -> dg_ok lib u w').
Proof. intros (U1 & U2 & U3 & U4 & U5 & U6 & U7 & U8 & U9). unfold sw_ok, dg_ok. rewrite U5, U6, U7, U8. auto. Qed.
Lemma step_takes lib u w o : sort_ok lib -> Inv lib u w -> let w' := fst (wStep lib w o) in
  (o <> WUnsubscribe -> sw_ok lib u w -> sw_ok lib u w') /\ (dg_ok lib u w -> dg_ok lib u w').
Proof.
  intros Hs Hi. destruct o as [typ info disc|urls disc|id urls disc|urls service disc|]; cbn [wStep].
  - pose proof (command_takes lib u disc w typ info Hs (proj1 (proj2 Hi))) as C. pose proof (processCommand_spec lib u disc w typ info Hs Hi) as P.
    destruct (processCommand lib disc w typ info) as [w1 need]. cbn [fst] in C. destruct P as (P & _). destruct need; cbn [fst]; [|tauto].
    pose proof (deliver lib u disc w1 P) as D. destruct (getResult lib disc w1) as [w2 r]. destruct D as (_ & _ & D & _).
    destruct (ok_same lib u _ _ D) as [S1 S2]. cbn [fst]. tauto.
  - match goal with |- context [if ?b then _ else _] => destruct b end; [|cbn; auto].
    assert (P : Inv lib u (setOwn w urls)) by exact Hi.
    pose proof (deliver lib u disc _ P) as D. destruct (getResult lib disc (setOwn w urls)) as [w2 r]. destruct D as (_ & _ & D & _).
    destruct (ok_same lib u _ _ D) as [S1 S2]. cbn [fst]. split; [intros _ H; apply S1; exact H|intro H; apply S2; exact H].
  - pose proof (step_stepped lib u w (WOther id urls disc) Hs Hi) as SS. cbn [wStep] in SS.
    destruct (existsb (fun s => fst s =? id) (cwSubs w)); [|cbn; auto].
    set (w1 := setOthers _ _) in *. assert (X : same_but w (fst (getResult lib disc w1))).
    { unfold getResult. assert (Y : same_but w w1) by (unfold same_but, w1, setOthers; cbn; auto 10).
      destruct (currentTc w1) as [c|]; [|exact Y].
      assert (F : forall gs st, same_but (fst st) (fst (fold_left (mergeGroup disc) gs st))).
      { induction gs as [|g gs IH]; intro st; cbn [fold_left]; [apply same_but_refl|]. eapply same_but_trans; [|apply IH]. destruct st as [w0 m0].
        unfold mergeGroup. cbv zeta. cbn [fst].
        destruct (bs_eqb (uGroup (cwUrl w0)) (groupName g)); [apply same_but_refl|]. destruct (aget bs_eqb (cwOthers w0) (groupName g)); [apply same_but_refl|].
        unfold newSubscribe, same_but, setOthers. cbn. auto 10. }
      specialize (F (cmGroups c) (w1, [])). cbn [fst] in F. destruct (fold_left (mergeGroup disc) (cmGroups c) (w1, [])) as [w2 m]. cbn [fst] in F.
      destruct (processRoute _ _ _); cbn [fst]; exact (same_but_trans _ _ _ Y F). }
    destruct (getResult lib disc w1) as [w2 r]. cbn [fst] in *. destruct (ok_same lib u _ _ X). tauto.
  - assert (P : Inv lib u (setOwn w urls)) by exact Hi.
    pose proof (command_takes lib u disc (setOwn w urls) ServiceCmd service Hs (proj1 (proj2 P))) as C.
    pose proof (processCommand_spec lib u disc (setOwn w urls) ServiceCmd service Hs P) as Q.
    destruct (processCommand lib disc (setOwn w urls) ServiceCmd service) as [w1 need]. cbn [fst] in C. destruct Q as (Q & _). destruct C as [C1 C2].
    pose proof (deliver lib u disc w1 Q) as D. destruct (getResult lib disc w1) as [w2 r]. destruct D as (_ & _ & D & _).
    destruct (ok_same lib u _ _ D) as [S1 S2]. cbn [fst]. split; [intros _ H; apply S1, C1; exact H|intro H; apply S2, C2; exact H].
  - cbn [fst]. split; [congruence|]. intros _. unfold dg_ok, takes. cbn. split; intros c [].
Qed.
Lemma after_takes lib u os : sort_ok lib ->
  (Forall (fun o => o <> WUnsubscribe) os -> sw_ok lib u (wAfter lib u os)) /\ dg_ok lib u (wAfter lib u os).
Proof.
  intro Hs. induction os as [|o os IH] using rev_ind.
  - split; [intros _|]; unfold sw_ok, dg_ok, takes; cbn; (split; intros c []).
  - destruct IH as [I1 I2]. rewrite after_snoc. destruct (after_inv lib u os Hs) as (Hi & _). destruct (step_takes lib u _ o Hs Hi) as [S1 S2].
    split; [intro Hf; apply Forall_app in Hf as [Hf Ho]; inversion Ho; subst; auto|auto].
Qed.
