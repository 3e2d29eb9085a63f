(* ReqProofs.v *)
From Verif Require Import Base Lists ReqModel ReqSpec.
Require Import Lia.
Ltac Zify.zify_post_hook ::= idtac.

Definition maps_of (q : qreq) : list nat := (match qAtt q with Some m => [m] | None => [] end) ++ (match qMsg q with Some (_, k) => [k] | None => [] end).
Definition okq (s : qst) (q : qreq) : Prop :=
  fst (qArgs q) < length (sArr s) /\ snd (qArgs q) <= length (nth (fst (qArgs q)) (sArr s) []) /\
  fst (qFin q) < length (sFin s) /\ snd (qFin q) <= length (nth (fst (qFin q)) (sFin s) []) /\ (forall m, In m (maps_of q) -> m < length (sMap s)).
Definition wf (s : qst) (fs : list nat) : Prop :=
  length fs = length (sReq s) /\ (forall r q, nth_error (sReq s) r = Some q -> okq s q) /\
  (forall r r' q q', nth_error (sReq s) r = Some q -> nth_error (sReq s) r' = Some q' -> r <> r' -> forall m, In m (maps_of q) -> ~ In m (maps_of q')) /\
  (forall r r' q q', nth_error (sReq s) r = Some q -> nth_error (sReq s) r' = Some q' ->
     fst (qArgs q) = fst (qArgs q') \/ fst (qFin q) = fst (qFin q') -> nth_error fs r = nth_error fs r').

(* memory only grows, arrays keep their size *)
Definition ext (s s' : qst) : Prop :=
  (forall a, a < length (sArr s) -> a < length (sArr s') /\ length (nth a (sArr s') []) = length (nth a (sArr s) [])) /\
  (forall a, a < length (sFin s) -> a < length (sFin s') /\ length (nth a (sFin s') []) = length (nth a (sFin s) [])) /\
  (length (sMap s) <= length (sMap s')).
Lemma okq_ext s s' q : ext s s' -> okq s q -> okq s' q.
Proof.
  intros (E1 & E2 & E3) (A & B & C & D & M). destruct (E1 _ A) as [A' A2]. destruct (E2 _ C) as [C' C2].
  unfold okq. rewrite A2, C2. repeat split; auto. intros m H. pose proof (M m H). lia.
Qed.
Lemma nth_grow {A} (l : list A) x k d : k < length l -> nth k (l ++ [x]) d = nth k l d.
Proof. intro H. apply app_nth1. exact H. Qed.
Lemma nth_end {A} (l : list A) x d : nth (length l) (l ++ [x]) d = x.
Proof. rewrite app_nth2, Nat.sub_diag by lia. reflexivity. Qed.
Lemma ext_grow_arr s x : ext s (mkQst (sArr s ++ [x]) (sFin s) (sMap s) (sReq s) (sPool s)).
Proof. unfold ext; cbn. repeat split; intros; rewrite ?app_length; cbn; try lia. rewrite nth_grow by assumption. reflexivity. Qed.

Lemma wf_set s s' fs r q q' :
  wf s fs -> nth_error (sReq s) r = Some q -> sReq s' = list_set (sReq s) r q' -> ext s s' -> okq s' q' ->
  (forall m, In m (maps_of q') -> In m (maps_of q) \/ length (sMap s) <= m) ->
  (fst (qArgs q') = fst (qArgs q) \/ length (sArr s) <= fst (qArgs q')) ->
  (fst (qFin q') = fst (qFin q) \/ length (sFin s) <= fst (qFin q')) -> wf s' fs.
Proof.
  intros (L & O & M & F) E ES X OK MM AA FF. assert (LT : r < length (sReq s)) by (apply nth_error_Some; rewrite E; discriminate).
  unfold wf. rewrite ES. rewrite list_set_length. split; [exact L|]. split; [|split].
  - intros r0 q0 H. rewrite list_set_nth_error in H by exact LT. destruct (Nat.eqb_spec r0 r).
    + injection H as <-. exact OK. + apply okq_ext with s; auto. exact (O _ _ H).
  - intros r1 r2 q1 q2 H1 H2 NE m I1 I2. rewrite list_set_nth_error in H1 by exact LT. rewrite list_set_nth_error in H2 by exact LT.
    destruct (Nat.eqb_spec r1 r) as [->|N1].
    + injection H1 as <-. destruct (Nat.eqb_spec r2 r) as [->|N2]; [congruence|]. destruct (MM m I1) as [I|I].
      * exact (M _ _ _ _ E H2 NE m I I2).
      * pose proof (proj2 (proj2 (proj2 (proj2 (O _ _ H2)))) m I2). lia.
    + destruct (Nat.eqb_spec r2 r) as [->|N2].
      * injection H2 as <-. destruct (MM m I2) as [I|I]; [exact (M _ _ _ _ H1 E NE m I1 I)|]. pose proof (proj2 (proj2 (proj2 (proj2 (O _ _ H1)))) m I1). lia.
      * exact (M _ _ _ _ H1 H2 NE m I1 I2).
  - intros r1 r2 q1 q2 H1 H2 SH. rewrite list_set_nth_error in H1 by exact LT. rewrite list_set_nth_error in H2 by exact LT.
    destruct (Nat.eqb_spec r1 r) as [->|N1]; destruct (Nat.eqb_spec r2 r) as [->|N2]; [reflexivity| | |exact (F _ _ _ _ H1 H2 SH)].
    + injection H1 as <-. pose proof (O _ _ H2) as (P1 & _ & P2 & _). apply (F _ _ _ _ E H2). destruct SH as [SH|SH]; [left; destruct AA|right; destruct FF]; lia || congruence.
    + injection H2 as <-. pose proof (O _ _ H1) as (P1 & _ & P2 & _). apply (F _ _ _ _ H1 E). destruct SH as [SH|SH]; [left; destruct AA|right; destruct FF]; lia || congruence.
Qed.

Lemma firstn_snoc {A} (l : list A) x t : firstn (S (length l)) (l ++ x :: t) = l ++ [x].
Proof. induction l as [|y l IH]; [reflexivity|]. cbn [length app]. rewrite <- IH. reflexivity. Qed.
Lemma append_ext h sl v g : fst sl < length h -> snd sl <= length (nth (fst sl) h []) -> let (h', sl') := goAppend h sl v g in
  (forall a, a < length h -> a < length h' /\ length (nth a h' []) = length (nth a h [])) /\
  fst sl' < length h' /\ snd sl' <= length (nth (fst sl') h' []) /\ (fst sl' = fst sl \/ length h <= fst sl') /\
  (forall a, a < length h -> a <> fst sl -> nth a h' [] = nth a h []) /\
  firstn (snd sl') (nth (fst sl') h' []) = firstn (snd sl) (nth (fst sl) h []) ++ [Some v].
Proof.
  intros L LE. unfold goAppend. destruct (Nat.ltb_spec (snd sl) (length (nth (fst sl) h []))) as [LT|GE]; cbn [fst snd].
  - split; [intros a H; rewrite list_set_length; split; [exact H|]; rewrite list_set_nth by exact L; destruct (Nat.eqb_spec a (fst sl)) as [->|]; [apply list_set_length|reflexivity]|].
    rewrite list_set_length. split; [exact L|]. rewrite list_set_nth by exact L. rewrite Nat.eqb_refl. rewrite list_set_length. split; [lia|]. split; [left; reflexivity|].
    split; [intros a H NE; rewrite list_set_nth by exact L; destruct (Nat.eqb_spec a (fst sl)); [contradiction|reflexivity]|].
    generalize (nth (fst sl) h []) (snd sl) LT. clear. intros l k. revert l. induction k as [|k IH]; intros [|x l] H; cbn in *; try lia; [reflexivity|]. f_equal. apply IH. lia.
  - split; [intros a H; rewrite app_length; cbn; split; [lia|]; rewrite nth_grow by exact H; reflexivity|].
    rewrite app_length. cbn. split; [lia|]. rewrite app_nth2 by lia. rewrite Nat.sub_diag. cbn [nth].
    assert (E : snd sl = length (nth (fst sl) h [])) by lia. rewrite E. rewrite firstn_all. rewrite app_length. cbn [length]. split; [lia|]. split; [right; lia|].
    split; [intros a H NE; apply nth_grow; exact H|].
    apply firstn_snoc.
Qed.

Lemma family_other o fs : (forall p, o <> QAcquire p) -> (forall r, o <> QClone r) -> family_step fs o = fs.
Proof. destruct o; intros A C; try reflexivity; [destruct (A p eq_refl)|destruct (C r eq_refl)]. Qed.

Lemma wf_grow s s' fs q f : wf s fs -> sReq s' = sReq s ++ [q] -> ext s s' -> okq s' q ->
  (forall m, In m (maps_of q) -> length (sMap s) <= m) ->
  (forall r0 q0, nth_error (sReq s) r0 = Some q0 -> fst (qArgs q0) = fst (qArgs q) \/ fst (qFin q0) = fst (qFin q) -> nth_error fs r0 = Some f) ->
  wf s' (fs ++ [f]).
Proof.
  intros (L & O & M & F) ES X OK MM FF. unfold wf. rewrite ES, !app_length, L. split; [reflexivity|].
  assert (C : forall r0 q0, nth_error (sReq s ++ [q]) r0 = Some q0 -> (r0 < length (sReq s) /\ nth_error (sReq s) r0 = Some q0) \/ (r0 = length (sReq s) /\ q0 = q)).
  { intros r0 q0 H. destruct (Nat.lt_ge_cases r0 (length (sReq s))) as [LT|GE].
    - rewrite nth_error_app1 in H by exact LT. auto.
    - assert (B : r0 < length (sReq s ++ [q])) by (apply nth_error_Some; rewrite H; discriminate). rewrite app_length in B. cbn in B.
      assert (r0 = length (sReq s)) by lia. subst r0. rewrite nth_error_app2, Nat.sub_diag in H by lia. injection H as <-. auto. }
  split; [|split].
  - intros r0 q0 H. destruct (C _ _ H) as [[_ H']|[_ ->]]; [apply okq_ext with s; eauto|exact OK].
  - intros r1 r2 q1 q2 H1 H2 NE m I1 I2. destruct (C _ _ H1) as [[L1 H1']|[E1 ->]]; destruct (C _ _ H2) as [[L2 H2']|[E2 ->]].
    + exact (M _ _ _ _ H1' H2' NE m I1 I2).
    + pose proof (MM m I2). pose proof (proj2 (proj2 (proj2 (proj2 (O _ _ H1')))) m I1). lia.
    + pose proof (MM m I1). pose proof (proj2 (proj2 (proj2 (proj2 (O _ _ H2')))) m I2). lia.
    + congruence.
  - intros r1 r2 q1 q2 H1 H2 SH.
    assert (N1 : forall r0, r0 < length (sReq s) -> nth_error (fs ++ [f]) r0 = nth_error fs r0) by (intros; apply nth_error_app1; lia).
    assert (N2 : nth_error (fs ++ [f]) (length (sReq s)) = Some f) by (rewrite nth_error_app2, L, Nat.sub_diag by lia; reflexivity).
    destruct (C _ _ H1) as [[L1 H1']|[E1 ->]]; destruct (C _ _ H2) as [[L2 H2']|[E2 ->]]; subst; rewrite ?N2; rewrite ?N1 by assumption.
    + exact (F _ _ _ _ H1' H2' SH).
    + exact (FF _ _ H1' SH).
    + symmetry. apply (FF _ _ H2'). destruct SH; [left|right]; congruence.
    + reflexivity.
Qed.

Ltac ext_tac := match goal with |- ext _ _ => idtac end; unfold ext; cbn [sArr sFin sMap]; repeat split; intros; rewrite ?app_length, ?list_set_length; cbn [length]; try lia; try assumption; try (rewrite nth_grow by assumption; reflexivity); reflexivity.
Lemma wf_step s fs o : wf s fs -> wf (qstep s o) (family_step fs o).
Proof.
  intro W. destruct o as [[p|]|r i svc mth desc|r m meta|r k v|r v g|r vs|r v g|r c|r|r]; cbn [qstep family_step].
  - exact W.
  - pose proof W as (L & O & _). rewrite L. apply wf_grow with (s := s) (q := mkQ 0 [] [] [] (length (sArr s), 0) None ctx0 None (length (sFin s), 0)); auto.
    + ext_tac. + unfold okq; cbn. rewrite !app_length. cbn. repeat split; try lia.
    + intros m [].
    + intros r0 q0 H SH. cbn in SH. pose proof (O _ _ H) as (A & _ & B & _). lia.
  - destruct (nth_error (sReq s) r) as [q|] eqn:E; [|exact W]. eapply (wf_set s _ fs r q); [exact W|exact E|reflexivity|..]; cbn [qArgs qFin fst snd]; try ext_tac; auto.
    exact (proj1 (proj2 W) _ _ E).
  - destruct (nth_error (sReq s) r) as [q|] eqn:E; [|exact W]. pose proof (proj1 (proj2 W) _ _ E) as (A & B & C & D & M). eapply (wf_set s _ fs r q); [exact W|exact E|reflexivity|..]; cbn [qArgs qFin fst snd]; try ext_tac; auto.
    + unfold okq; cbn. rewrite app_length; cbn. repeat split; auto. intros x [<-|[<-|[]]]; lia.
    + intros x [<-|[<-|[]]]; right; lia.
  - destruct (nth_error (sReq s) r) as [q|] eqn:E; [|exact W]. pose proof (proj1 (proj2 W) _ _ E) as (A & B & C & D & M). destruct (qAtt q) as [m|] eqn:EA.
    + destruct W as (L & O & MM & F). split; [exact L|]. split; [|split; assumption]. intros r0 q0 H. apply okq_ext with s; [ext_tac|exact (O _ _ H)].
    + eapply (wf_set s _ fs r q); [exact W|exact E|reflexivity|..]; cbn [qArgs qFin fst snd]; try ext_tac; auto.
      * unfold okq; cbn. rewrite app_length; cbn. repeat split; auto. intros x [<-|H]; [lia|].
        enough (x < length (sMap s)) by lia. apply M. unfold maps_of. apply in_or_app. right. exact H.
      * intros x [<-|H]; [right; lia|left]. unfold maps_of. apply in_or_app. right. exact H.
  - destruct (nth_error (sReq s) r) as [q|] eqn:E; [|exact W]. pose proof (proj1 (proj2 W) _ _ E) as (A & B & C & D & M).
    pose proof (append_ext (sArr s) (qArgs q) v g A B) as P. destruct (goAppend (sArr s) (qArgs q) v g) as [h sl]. destruct P as (P1 & P2 & P3 & P4 & _).
    eapply (wf_set s _ fs r q); [exact W|exact E|reflexivity|..]; cbn [qArgs qFin fst snd]; auto.
    + unfold ext; cbn. repeat split; try (apply P1); auto.
    + unfold okq; cbn. repeat split; auto.
  - destruct (nth_error (sReq s) r) as [q|] eqn:E; [|exact W]. pose proof (proj1 (proj2 W) _ _ E) as (A & B & C & D & M). eapply (wf_set s _ fs r q); [exact W|exact E|reflexivity|..]; cbn [qArgs qFin fst snd]; try ext_tac; auto.
    unfold okq; cbn. rewrite app_length, app_nth2, Nat.sub_diag by lia. cbn. rewrite map_length. repeat split; auto; lia.
  - destruct (nth_error (sReq s) r) as [q|] eqn:E; [|exact W]. pose proof (proj1 (proj2 W) _ _ E) as (A & B & C & D & M).
    pose proof (append_ext (sFin s) (qFin q) v g C D) as P. destruct (goAppend (sFin s) (qFin q) v g) as [h sl]. destruct P as (P1 & P2 & P3 & P4 & _).
    eapply (wf_set s _ fs r q); [exact W|exact E|reflexivity|..]; cbn [qArgs qFin fst snd]; auto.
    + unfold ext; cbn. repeat split; try (apply P1); auto.
    + unfold okq; cbn. repeat split; auto.
  - destruct (nth_error (sReq s) r) as [q|] eqn:E; [|exact W]. eapply (wf_set s _ fs r q); [exact W|exact E|reflexivity|..]; cbn [qArgs qFin fst snd]; try ext_tac; auto.
    exact (proj1 (proj2 W) _ _ E).
  - destruct (nth_error (sReq s) r) as [q|] eqn:E.
    + pose proof W as (L & O & MM & F). pose proof (O _ _ E) as (A & B & C & D & M).
      destruct (nth_error fs r) as [f|] eqn:Ef. 2:{ apply nth_error_None in Ef. assert (r < length (sReq s)) by (apply nth_error_Some; rewrite E; discriminate). lia. }
      destruct (qAtt q) as [m|] eqn:EA; destruct (qMsg q) as [[mi k]|] eqn:EM; cbn [copyMap option_map];
        (eapply (wf_grow s); [exact W|reflexivity|ext_tac| | |]);
        try (intros r0 q0 H SH; cbn in SH; rewrite <- Ef; exact (F _ _ _ _ H E SH)).
      all: try (unfold okq; cbn; rewrite ?app_length; cbn; repeat split; auto; intros x H; repeat (destruct H as [<-|H]; [cbn; lia|]); destruct H).
      all: cbn; rewrite ?app_length; cbn; intros x H; repeat (destruct H as [<-|H]; [lia|]); destruct H.
    + destruct (nth_error fs r) eqn:Ef; [|exact W]. apply nth_error_None in E. assert (r < length fs) by (apply nth_error_Some; rewrite Ef; discriminate). destruct W as [L _]. lia.
  - destruct (nth_error (sReq s) r) as [q|] eqn:E; [|exact W]. pose proof (proj1 (proj2 W) _ _ E) as (A & B & C & D & M). eapply (wf_set s _ fs r q); [exact W|exact E|reflexivity|..]; cbn [qArgs qFin fst snd]; try ext_tac; auto.
    + unfold okq; cbn. repeat split; auto; try lia.
    + intros m [].
Qed.
Lemma wf_run os : wf (qrun os) (families os).
Proof.
  unfold qrun, families. assert (W0 : wf q0 []) by (repeat split; cbn; intros; destruct r; discriminate).
  revert W0. generalize q0 (@nil nat). induction os as [|o os IH]; intros s fs W; [exact W|]. cbn. apply IH. apply wf_step. exact W.
Qed.

Lemma see_same s s' r q : nth_error (sReq s) r = Some q -> nth_error (sReq s') r = Some q ->
  nth (fst (qArgs q)) (sArr s') [] = nth (fst (qArgs q)) (sArr s) [] -> nth (fst (qFin q)) (sFin s') [] = nth (fst (qFin q)) (sFin s) [] ->
  (forall m, In m (maps_of q) -> nth m (sMap s') [] = nth m (sMap s) []) -> see s' r = see s r.
Proof.
  intros E E' A F M. unfold see. rewrite E, E', A, F. unfold maps_of in M. destruct (qAtt q) as [a|], (qMsg q) as [[b k]|]; cbn in *; rewrite ?M by auto; try reflexivity.
Qed.
Lemma isolated_step s fs o r : wf s fs -> nth_error (sReq s) r <> None -> works_on o <> Some r ->
  (forall x v g, o = QAppend x v g \/ o = QHandler x v g -> nth_error fs x <> nth_error fs r) -> see (qstep s o) r = see s r.
Proof.
  intros W LV NW FR. destruct (nth_error (sReq s) r) as [q|] eqn:E; [|contradiction]. clear LV. pose proof W as (L & O & MM & F). pose proof (O _ _ E) as (A & B & C & D & M).
  assert (LT : r < length (sReq s)) by (apply nth_error_Some; rewrite E; discriminate).
  assert (SET : forall x q', x <> r -> nth_error (sReq s) x <> None -> nth_error (list_set (sReq s) x q') r = Some q).
  { intros x q' NE X. rewrite list_set_nth_error by (apply nth_error_Some; exact X). destruct (Nat.eqb_spec r x); congruence. }
  destruct o as [[p|]|x i svc mth desc|x m meta|x k v|x v g|x vs|x v g|x c|x|x]; cbn [qstep works_on] in *; try (assert (NE : x <> r) by congruence).
  - apply (see_same _ _ _ q); auto.
  - apply (see_same _ _ _ q); cbn; auto; [rewrite nth_error_app1; auto|apply nth_grow; auto|apply nth_grow; auto].
  - destruct (nth_error (sReq s) x) eqn:Ex; [|reflexivity]. apply (see_same _ _ _ q); cbn; auto. apply SET; congruence.
  - destruct (nth_error (sReq s) x) eqn:Ex; [|reflexivity]. apply (see_same _ _ _ q); cbn; auto. { apply SET; congruence. } intros y H. apply nth_grow. auto.
  - destruct (nth_error (sReq s) x) as [qx|] eqn:Ex; [|reflexivity]. destruct (qAtt qx) as [m|] eqn:EA.
    + apply (see_same _ _ _ q); cbn; auto. intros y H.
      assert (Im : In m (maps_of qx)) by (unfold maps_of; rewrite EA; left; reflexivity).
      rewrite list_set_nth by (exact (proj2 (proj2 (proj2 (proj2 (O _ _ Ex)))) m Im)). destruct (Nat.eqb_spec y m) as [->|]; [|reflexivity].
      destruct (MM _ _ _ _ E Ex (not_eq_sym NE) m H Im).
    + apply (see_same _ _ _ q); cbn; auto. { apply SET; congruence. } intros y H. apply nth_grow. auto.
  - destruct (nth_error (sReq s) x) as [qx|] eqn:Ex; [|reflexivity]. pose proof (O _ _ Ex) as (A' & B' & _).
    pose proof (append_ext (sArr s) (qArgs qx) v g A' B') as P. destruct (goAppend (sArr s) (qArgs qx) v g) as [h sl]. destruct P as (_ & _ & _ & _ & P5 & _).
    apply (see_same _ _ _ q); cbn; auto. { apply SET; congruence. } apply P5; [exact A|]. intro Q. exact (FR x v g (or_introl eq_refl) (eq_sym (F _ _ _ _ E Ex (or_introl Q)))).
  - destruct (nth_error (sReq s) x) eqn:Ex; [|reflexivity]. apply (see_same _ _ _ q); cbn; auto. { apply SET; congruence. } apply nth_grow. auto.
  - destruct (nth_error (sReq s) x) as [qx|] eqn:Ex; [|reflexivity]. pose proof (O _ _ Ex) as (_ & _ & A' & B' & _).
    pose proof (append_ext (sFin s) (qFin qx) v g A' B') as P. destruct (goAppend (sFin s) (qFin qx) v g) as [h sl]. destruct P as (_ & _ & _ & _ & P5 & _).
    apply (see_same _ _ _ q); cbn; auto. { apply SET; congruence. } apply P5; [exact C|]. intro Q. exact (FR x v g (or_intror eq_refl) (eq_sym (F _ _ _ _ E Ex (or_intror Q)))).
  - destruct (nth_error (sReq s) x) eqn:Ex; [|reflexivity]. apply (see_same _ _ _ q); cbn; auto. apply SET; congruence.
  - destruct (nth_error (sReq s) x) as [qx|] eqn:Ex; [|reflexivity].
    destruct (qAtt qx) as [m|], (qMsg qx) as [[mi k]|]; cbn [copyMap option_map sMap]; apply (see_same _ _ _ q); cbn [sReq sArr sFin sMap]; auto;
      try (rewrite nth_error_app1; auto; fail); intros y H; pose proof (M y H); rewrite ?nth_grow; auto; rewrite app_length; cbn; lia.
  - destruct (nth_error (sReq s) x) eqn:Ex; [|reflexivity]. apply (see_same _ _ _ q); cbn; auto. apply SET; congruence.
Qed.
Lemma qrun_snoc os o : qrun (os ++ [o]) = qstep (qrun os) o.
Proof. unfold qrun. rewrite fold_left_app. reflexivity. Qed.
Lemma isolated os o r : see (qrun os) r <> None -> works_on o <> Some r ->
  (forall x v g, o = QAppend x v g \/ o = QHandler x v g -> ~ related os x r) -> see (qrun (os ++ [o])) r = see (qrun os) r.
Proof.
  intros LV NW FR. rewrite qrun_snoc. pose proof (wf_run os) as W. apply isolated_step with (families os); auto.
  - intro X. apply LV. unfold see. rewrite X. reflexivity.
  - intros x v g Q Y. apply (FR x v g Q). split; [|exact Y]. rewrite Y. intro Z. apply LV. unfold see. destruct (nth_error (sReq (qrun os)) r) eqn:ER; [|reflexivity].
    apply nth_error_None in Z. destruct W as [LL _]. assert (r < length (sReq (qrun os))) by (apply nth_error_Some; rewrite ER; discriminate). lia.
Qed.

(* ------------------------------------------------------------------ effects on the request itself *)
Lemma see_clone os r v : see (qrun os) r = Some v ->
  see (qrun (os ++ [QClone r])) (length (sReq (qrun os))) = Some (mkView (vId v) (vSvc v) (vMth v) (vDesc v) (vArgs v) (vAtt v) (clone_ctx (vCtx v)) (vMsg v) (vHandlers v)).
Proof.
  intro H. rewrite qrun_snoc. pose proof (wf_run os) as (L & O & _). unfold see in H. destruct (nth_error (sReq (qrun os)) r) as [q|] eqn:E; [|discriminate]. injection H as <-.
  cbn [qstep]. rewrite E. pose proof (O _ _ E) as (_ & _ & _ & _ & M). unfold maps_of in M.
  destruct (qAtt q) as [m|] eqn:EA, (qMsg q) as [[mi k]|] eqn:EM; cbn [copyMap option_map]; unfold see; cbn [sReq sArr sFin sMap];
    rewrite nth_error_app2, Nat.sub_diag by lia; cbn [nth_error qId qSvc qMth qDesc qArgs qAtt qCtx qMsg qFin vId vSvc vMth vDesc vArgs vAtt vCtx vMsg vHandlers option_map fst snd].
  - rewrite nth_end. rewrite (nth_grow _ _ (length (sMap (qrun os)))) by (rewrite app_length; cbn; lia). rewrite nth_end. rewrite nth_grow by (apply M; cbn; auto). reflexivity.
  - rewrite nth_end. reflexivity.
  - rewrite nth_end. reflexivity.
  - reflexivity.
Qed.
Lemma see_store os r v k w : see (qrun os) r = Some v ->
  exists v', see (qrun (os ++ [QStore r k w])) r = Some v' /\ vAtt v' = Some (aset bs_eqb (match vAtt v with Some m => m | None => [] end) k w) /\
    vArgs v' = vArgs v /\ vHandlers v' = vHandlers v /\ vCtx v' = vCtx v /\ vId v' = vId v /\ vSvc v' = vSvc v /\ vMth v' = vMth v /\ vDesc v' = vDesc v.
Proof.
  intro H. rewrite qrun_snoc. pose proof (wf_run os) as (L & O & _). unfold see in H. destruct (nth_error (sReq (qrun os)) r) as [q|] eqn:E; [|discriminate]. injection H as <-.
  cbn [qstep]. rewrite E. pose proof (O _ _ E) as (_ & _ & _ & _ & M). unfold maps_of in M. assert (LT : r < length (sReq (qrun os))) by (apply nth_error_Some; rewrite E; discriminate).
  destruct (qAtt q) as [m|] eqn:EA; unfold see; cbn [sReq sArr sFin sMap].
  - rewrite E. eexists. split; [reflexivity|]. cbn. rewrite EA. cbn. rewrite list_set_nth by (apply M; left; reflexivity). rewrite Nat.eqb_refl. repeat split.
  - rewrite list_set_nth_error by exact LT. rewrite Nat.eqb_refl. eexists. split; [reflexivity|]. cbn. rewrite app_nth2, Nat.sub_diag by lia. repeat split.
Qed.
Lemma see_append os r v x g : see (qrun os) r = Some v -> exists v', see (qrun (os ++ [QAppend r x g])) r = Some v' /\ vArgs v' = vArgs v ++ [Some x] /\
    vAtt v' = vAtt v /\ vHandlers v' = vHandlers v /\ vCtx v' = vCtx v /\ vMsg v' = vMsg v /\ vId v' = vId v /\ vSvc v' = vSvc v /\ vMth v' = vMth v /\ vDesc v' = vDesc v.
Proof.
  intro H. rewrite qrun_snoc. pose proof (wf_run os) as (L & O & _). unfold see in H. destruct (nth_error (sReq (qrun os)) r) as [q|] eqn:E; [|discriminate]. injection H as <-.
  cbn [qstep]. rewrite E. pose proof (O _ _ E) as (A & B & _). assert (LT : r < length (sReq (qrun os))) by (apply nth_error_Some; rewrite E; discriminate).
  pose proof (append_ext (sArr (qrun os)) (qArgs q) x g A B) as P. destruct (goAppend (sArr (qrun os)) (qArgs q) x g) as [h sl]. destruct P as (_ & _ & _ & _ & _ & P6).
  unfold see; cbn [sReq sArr sFin sMap]. rewrite list_set_nth_error by exact LT. rewrite Nat.eqb_refl. eexists. split; [reflexivity|]. cbn. rewrite P6. repeat split.
Qed.
Lemma see_handler os r v x g : see (qrun os) r = Some v -> exists v', see (qrun (os ++ [QHandler r x g])) r = Some v' /\ vHandlers v' = vHandlers v ++ [Some x] /\
    vAtt v' = vAtt v /\ vArgs v' = vArgs v /\ vCtx v' = vCtx v /\ vMsg v' = vMsg v /\ vId v' = vId v /\ vSvc v' = vSvc v /\ vMth v' = vMth v /\ vDesc v' = vDesc v.
Proof.
  intro H. rewrite qrun_snoc. pose proof (wf_run os) as (L & O & _). unfold see in H. destruct (nth_error (sReq (qrun os)) r) as [q|] eqn:E; [|discriminate]. injection H as <-.
  cbn [qstep]. rewrite E. pose proof (O _ _ E) as (_ & _ & A & B & _). assert (LT : r < length (sReq (qrun os))) by (apply nth_error_Some; rewrite E; discriminate).
  pose proof (append_ext (sFin (qrun os)) (qFin q) x g A B) as P. destruct (goAppend (sFin (qrun os)) (qFin q) x g) as [h sl]. destruct P as (_ & _ & _ & _ & _ & P6).
  unfold see; cbn [sReq sArr sFin sMap]. rewrite list_set_nth_error by exact LT. rewrite Nat.eqb_refl. eexists. split; [reflexivity|]. cbn. rewrite P6. repeat split.
Qed.

(* ------------------------------------------------------------------ the pool *)
Definition cleared (q : qreq) : Prop := exists c, q = mkQ 0 [] [] [] (fst (qArgs q), O) None c None (fst (qFin q), O) /\ ctxReset c = c.
Definition pinv (os : list qop) : Prop := let s := qrun os in let '(us, n, pl) := uses os in
  n = length (sReq s) /\ pl = sPool s /\ NoDup (us ++ pl) /\ (forall r, In r (us ++ pl) -> r < n) /\ (forall r q, In r pl -> nth_error (sReq s) r = Some q -> cleared q) /\
  (Forall never_async os -> forall r q, nth_error (sReq s) r = Some q -> cAsync (qCtx q) = false).
Lemma uses_snoc os o : uses (os ++ [o]) = use_step (uses os) o.
Proof. unfold uses. rewrite fold_left_app. reflexivity. Qed.
Lemma nodup_mid {A} (x : A) l1 l2 : NoDup (l1 ++ x :: l2) -> NoDup (x :: l1 ++ l2).
Proof. intro H. constructor; [apply NoDup_remove_2 in H; exact H|apply NoDup_remove_1 in H; exact H]. Qed.
Lemma split_at {A} (l : list A) i d : i < length l -> l = firstn i l ++ nth i l d :: skipn (S i) l.
Proof. revert i. induction l as [|x l IH]; intros [|i] H; cbn in *; try lia; [reflexivity|]. f_equal. apply IH. lia. Qed.
Lemma NoDup_app_intro_end {A} (x : A) l1 l2 : NoDup (x :: l1 ++ l2) -> NoDup (l1 ++ l2 ++ [x]).
Proof.
  intro H. rewrite app_assoc. apply (Permutation.Permutation_NoDup (l := x :: l1 ++ l2)); [|exact H]. apply Permutation.Permutation_cons_append.
Qed.
Lemma NoDup_app_intro_rm r us pl : NoDup (us ++ pl) -> In r us -> NoDup (remove Nat.eq_dec r us ++ pl ++ [r]).
Proof.
  intros ND I. apply in_split in I as (a & b & ->). rewrite <- app_assoc in ND. cbn in ND. apply nodup_mid in ND.
  assert (Na : ~ In r a) by (inversion ND; subst; intro H; apply H1; apply in_or_app; auto).
  assert (Nb : ~ In r b) by (inversion ND; subst; intro H; apply H1; apply in_or_app; right; apply in_or_app; auto).
  rewrite remove_app. cbn. destruct (Nat.eq_dec r r) as [_|]; [|congruence]. rewrite (notin_remove Nat.eq_dec a r Na), (notin_remove Nat.eq_dec b r Nb).
  apply NoDup_app_intro_end. rewrite <- app_assoc. exact ND.
Qed.
Lemma pinv_all os : careful os -> pinv os.
Proof.
  induction 1 as [|os o C IH CO].
  - unfold pinv. cbn. repeat split; try constructor; try (intros; contradiction). intros _ r q. destruct r; discriminate.
  - unfold pinv in *. rewrite qrun_snoc, uses_snoc. unfold careful_op, in_use in CO. destruct (uses os) as [[us n] pl] eqn:EU. cbn [fst snd] in CO.
    destruct IH as (N & P & ND & RG & CL & AS). set (s := qrun os) in *. subst pl.
    assert (SELF : forall r q', In r us -> (forall q, nth_error (sReq s) r = Some q -> cAsync (qCtx q) = false -> never_async o -> cAsync (qCtx q') = false) ->
       forall s', sReq s' = list_set (sReq s) r q' -> sPool s' = sPool s ->
       n = length (sReq s') /\ sPool s = sPool s' /\ NoDup (us ++ sPool s) /\ (forall r0, In r0 (us ++ sPool s) -> r0 < n) /\
       (forall r0 q, In r0 (sPool s) -> nth_error (sReq s') r0 = Some q -> cleared q) /\
       (Forall never_async (os ++ [o]) -> forall r0 q, nth_error (sReq s') r0 = Some q -> cAsync (qCtx q) = false)).
    { intros r q' I QA s' ES EP. rewrite ES, EP, list_set_length. assert (LT : r < length (sReq s)) by (rewrite <- N; apply RG; apply in_or_app; auto).
      repeat split; auto.
      - intros r0 q H H'. rewrite list_set_nth_error in H' by exact LT. destruct (Nat.eqb_spec r0 r) as [->|]; [|exact (CL _ _ H H')].
        exfalso. apply in_split in I as (a & b & ->). rewrite <- app_assoc in ND. cbn in ND. apply NoDup_remove_2 in ND. apply ND. apply in_or_app. right. apply in_or_app. auto.
      - intro FA. apply Forall_app in FA as [FA FO]. inversion FO; subst. intros r0 q H'. rewrite list_set_nth_error in H' by exact LT. destruct (Nat.eqb_spec r0 r) as [->|].
        + injection H' as <-. destruct (nth_error (sReq s) r) as [q0|] eqn:E0; [|apply nth_error_None in E0; lia]. exact (QA q0 eq_refl (AS FA _ _ E0) H1).
        + exact (AS FA _ _ H'). }
    assert (LU : forall r, In r us -> exists q, nth_error (sReq s) r = Some q).
    { intros r I. destruct (nth_error (sReq s) r) eqn:E0; [eauto|]. apply nth_error_None in E0. assert (r < n) by (apply RG; apply in_or_app; auto). lia. }
    assert (ASs : Forall never_async (os ++ [o]) -> forall r q, nth_error (sReq s) r = Some q -> cAsync (qCtx q) = false) by (intro FA; apply Forall_app in FA as [FA _]; exact (AS FA)).
    destruct o as [[p|]|r i svc mth desc|r m meta|r k v|r v g|r vs|r v g|r c|r|r]; cbn [qstep use_step].
    + (* from the pool *) cbn. split; [exact N|]. split; [reflexivity|].
      pose proof (split_at (sPool s) p O CO) as SP.
      assert (PM : forall x, In x ((nth p (sPool s) 0 :: us) ++ firstn p (sPool s) ++ skipn (S p) (sPool s)) -> In x (us ++ sPool s)).
      { intros x [<-|H]; [apply in_or_app; right; apply nth_In; exact CO|]. apply in_app_or in H as [H|H]; apply in_or_app; auto. right. rewrite SP. apply in_app_or in H as [H|H]; apply in_or_app; cbn; auto. }
      split; [|split; [|split]].
      * rewrite SP in ND at 1. rewrite app_assoc in ND. apply nodup_mid in ND. rewrite <- app_assoc in ND. exact ND.
      * intros r H. apply RG. exact (PM r H).
      * intros r q H. apply CL. rewrite SP. apply in_app_or in H as [H|H]; apply in_or_app; cbn; auto.
      * exact ASs.
    + cbn. rewrite app_length. cbn. split; [lia|]. split; [reflexivity|]. split; [|split; [|split]].
      * constructor; [|exact ND]. intro H. pose proof (RG _ H). lia.
      * intros r [<-|H]; [lia|]. pose proof (RG _ H). lia.
      * intros r q H H'. assert (r < n) by (apply RG; apply in_or_app; auto). rewrite nth_error_app1 in H' by lia. exact (CL _ _ H H').
      * intros FA r q H'. destruct (Nat.lt_ge_cases r (length (sReq s))) as [LT|GE]; [rewrite nth_error_app1 in H' by exact LT; exact (ASs FA _ _ H')|].
        rewrite nth_error_app2 in H' by exact GE. destruct (r - length (sReq s)) as [|[|]]; try discriminate. injection H' as <-. reflexivity.
    + destruct (LU r CO) as [q E]. rewrite E. eapply (SELF r _ CO); [|reflexivity|reflexivity]. cbn. congruence.
    + destruct (LU r CO) as [q E]. rewrite E. eapply (SELF r _ CO); [|reflexivity|reflexivity]. cbn. congruence.
    + destruct (LU r CO) as [q E]. rewrite E. destruct (qAtt q) eqn:EA.
      * cbn. repeat split; auto.
      * eapply (SELF r _ CO); [|reflexivity|reflexivity]. cbn. congruence.
    + destruct (LU r CO) as [q E]. rewrite E. destruct (goAppend (sArr s) (qArgs q) v g) as [h sl]. eapply (SELF r _ CO); [|reflexivity|reflexivity]. cbn. congruence.
    + destruct (LU r CO) as [q E]. rewrite E. eapply (SELF r _ CO); [|reflexivity|reflexivity]. cbn. congruence.
    + destruct (LU r CO) as [q E]. rewrite E. destruct (goAppend (sFin s) (qFin q) v g) as [h sl]. eapply (SELF r _ CO); [|reflexivity|reflexivity]. cbn. congruence.
    + destruct (LU r CO) as [q E]. rewrite E. eapply (SELF r _ CO); [|reflexivity|reflexivity]. cbn. congruence.
    + destruct (LU r CO) as [q E]. rewrite E. assert (LT : r < n) by (apply RG; apply in_or_app; auto). apply Nat.ltb_lt in LT. rewrite LT.
      assert (X : forall s' q', sReq s' = sReq s ++ [q'] -> cAsync (qCtx q') = false -> sPool s' = sPool s ->
        S n = length (sReq s') /\ sPool s = sPool s' /\ NoDup ((n :: us) ++ sPool s) /\ (forall r0, In r0 ((n :: us) ++ sPool s) -> r0 < S n) /\
        (forall r0 q0, In r0 (sPool s) -> nth_error (sReq s') r0 = Some q0 -> cleared q0) /\
        (Forall never_async (os ++ [QClone r]) -> forall r0 q0, nth_error (sReq s') r0 = Some q0 -> cAsync (qCtx q0) = false)).
      { intros s' q' ES EA EP. rewrite ES, EP, app_length. cbn. split; [lia|]. split; [reflexivity|]. split; [|split; [|split]].
        * constructor; [|exact ND]. intro H. pose proof (RG _ H). lia.
        * intros r0 [<-|H]; [lia|]. pose proof (RG _ H). lia.
        * intros r0 q0 H H'. assert (r0 < n) by (apply RG; apply in_or_app; auto). rewrite nth_error_app1 in H' by lia. exact (CL _ _ H H').
        * intros FA r0 q0 H'. destruct (Nat.lt_ge_cases r0 (length (sReq s))) as [LT'|GE]; [rewrite nth_error_app1 in H' by exact LT'; exact (ASs FA _ _ H')|].
          rewrite nth_error_app2 in H' by exact GE. destruct (r0 - length (sReq s)) as [|[|]]; try discriminate. injection H' as <-. exact EA. }
      destruct (copyMap s (qAtt q)) as [maps att]. destruct (match qMsg q with None => _ | Some _ => _ end) as [maps' msg]. eapply X; reflexivity.
    + destruct (LU r CO) as [q E]. rewrite E. assert (LT : r < length (sReq s)) by (rewrite <- N; apply RG; apply in_or_app; auto).
      cbn. rewrite list_set_length. split; [exact N|]. split; [reflexivity|].
      assert (PM : forall x, In x (remove Nat.eq_dec r us ++ sPool s ++ [r]) -> In x (us ++ sPool s)).
      { intros x H. apply in_app_or in H as [H|H]; [apply in_remove in H as [H _]; apply in_or_app; auto|]. apply in_app_or in H as [H|[<-|[]]]; apply in_or_app; auto. }
      split; [|split; [|split]].
      * apply NoDup_app_intro_rm with (1 := ND) (2 := CO).
      * intros r0 H. apply RG. exact (PM _ H).
      * intros r0 q0 H H'. rewrite list_set_nth_error in H' by exact LT. destruct (Nat.eqb_spec r0 r) as [->|NE].
        -- injection H' as <-. exists (ctxReset (qCtx q)). split; reflexivity.
        -- apply in_app_or in H as [H|[H|[]]]; [exact (CL _ _ H H')|congruence].
      * intros FA r0 q0 H'. rewrite list_set_nth_error in H' by exact LT. destruct (Nat.eqb_spec r0 r) as [->|NE]; [injection H' as <-; cbn; exact (ASs FA _ _ E)|exact (ASs FA _ _ H')].
Qed.
