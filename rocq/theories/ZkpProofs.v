(* ZkpProofs.v: proofs of C107. *)
From Verif Require Import Base GoStrings UrlModel UrlSpec ZkModel ZkpModel ZkpSpec.
Ltac Zify.zify_post_hook ::= idtac.

(* ------------------------------------------------------------ paths *)
Lemma path_cons s r : path (s :: r) = x2f :: s ++ path r.
Proof. reflexivity. Qed.
Lemma path_join names : names <> [] -> path names = joinWith x2f ([] :: names).
Proof.
  induction names as [|s r IH]; [congruence|]. intros _. destruct r as [|s' r].
  - cbn. rewrite app_nil_r. reflexivity.
  - rewrite path_cons, (IH ltac:(discriminate)). reflexivity.
Qed.
Lemma names_parts names : Forall name_ok names -> Forall (fun x => ~ In x2f x) ([] :: names).
Proof. intro H. constructor; [intros []|]. eapply Forall_impl; [|exact H]. intros a [_ X]. exact X. Qed.
Lemma path_split names : Forall name_ok names -> names <> [] -> splitOn x2f (path names) = [] :: names.
Proof. intros H N. rewrite (path_join names N). apply splitOn_join; [discriminate|apply names_parts; exact H]. Qed.
Lemma path_inj a b : Forall name_ok a -> Forall name_ok b -> path a = path b -> a = b.
Proof.
  intros A B H. destruct a as [|x a], b as [|y b]; [reflexivity|discriminate H|discriminate H|].
  pose proof (path_split (x :: a) A ltac:(discriminate)) as P. rewrite H, (path_split (y :: b) B ltac:(discriminate)) in P. injection P as -> ->. reflexivity.
Qed.
Lemma path_ne s r : path (s :: r) <> [].
Proof. discriminate. Qed.
Lemma path_parent names s : Forall name_ok names -> name_ok s -> zparent (path (names ++ [s])) = path names.
Proof.
  intros A B. unfold zparent. rewrite path_split; [|apply Forall_app; split; [exact A|constructor; [exact B|constructor]]|destruct names; discriminate].
  change ([] :: names ++ [s]) with (([] :: names) ++ [s]). rewrite removelast_last. destruct names; [reflexivity|]. symmetry. apply path_join. discriminate.
Qed.
Lemma path_valid names : Forall name_ok names -> names <> [] -> validPath (path names) = true.
Proof.
  intros A N. unfold validPath. rewrite path_split by assumption. destruct names as [|x r]; [congruence|]. apply forallb_forall. intros s I. rewrite Forall_forall in A.
  destruct (A s I) as [X _]. apply negb_true_iff, bs_eqb_neq. exact X.
Qed.
Lemma rootOr_path t names : rootOr t (path names) = match names with [] => true | _ => zhas t (path names) end.
Proof. destruct names; reflexivity. Qed.
Lemma Forall_snoc {A} (P : A -> Prop) l x : Forall P (l ++ [x]) -> Forall P l /\ P x.
Proof. intro H. apply Forall_app in H as [H1 H2]. inversion H2. auto. Qed.
Lemma firstn_names names k : Forall name_ok names -> Forall name_ok (firstn k names).
Proof. intro H. rewrite <- (firstn_skipn k names) in H. apply Forall_app in H. tauto. Qed.

Lemma anc_snoc pre s q : ancestor (pre ++ [s]) q <-> ancestor pre q \/ q = path (pre ++ [s]).
Proof.
  unfold ancestor. rewrite app_length. cbn [length]. split.
  - intros (k & K & ->). destruct (Nat.eq_dec k (length pre + 1)) as [->|N].
    + right. rewrite firstn_all2; [reflexivity|rewrite app_length; cbn [length]; lia].
    + left. exists k. split; [lia|]. rewrite firstn_app. replace (k - length pre) with 0 by lia. cbn [firstn]. rewrite app_nil_r. reflexivity.
  - intros [(k & K & ->)| ->].
    + exists k. split; [lia|]. rewrite firstn_app. replace (k - length pre) with 0 by lia. cbn [firstn]. rewrite app_nil_r. reflexivity.
    + exists (length pre + 1). split; [lia|]. rewrite firstn_all2; [reflexivity|rewrite app_length; cbn [length]; lia].
Qed.
Lemma anc_self names : names <> [] -> ancestor names (path names).
Proof. intro N. exists (length names). split; [destruct names; [congruence|cbn [length]; lia]|]. rewrite firstn_all. reflexivity. Qed.
Lemma anc_not pre s : Forall name_ok (pre ++ [s]) -> ~ ancestor pre (path (pre ++ [s])).
Proof.
  intros F (k & K & E). apply path_inj in E; [|exact F|apply Forall_snoc in F as [F _]; apply firstn_names; exact F].
  apply (f_equal (@length bs)) in E. rewrite app_length, firstn_length in E. cbn [length] in E. lia.
Qed.

(* ------------------------------------------------------------ createPersistent *)
Lemma zhas_aget t p : zhas t p = true <-> aget bs_eqb t p <> None.
Proof. unfold zhas. destruct (aget bs_eqb t p); split; congruence. Qed.
Lemma zhas_false t p : zhas t p = false <-> aget bs_eqb t p = None.
Proof. unfold zhas. destruct (aget bs_eqb t p); split; congruence. Qed.
Lemma aget_set (t : ztree) p v q : aget bs_eqb (aset bs_eqb t p v) q = if bs_eqb q p then Some v else aget bs_eqb t q.
Proof. apply (aget_aset bs_eqb bs_eqb_spec). Qed.

Lemma create_fine pre s t eph d : Forall name_ok (pre ++ [s]) -> (pre <> [] -> zhas t (path pre) = true) -> ephemeral t (path pre) = false ->
  zcreate never t (path (pre ++ [s])) eph d = if zhas t (path (pre ++ [s])) then (ZNodeExists, t) else (ZOk, aset bs_eqb t (path (pre ++ [s])) (eph, d)).
Proof.
  intros F H E. unfold zcreate. destruct (Forall_snoc _ _ _ F) as [F1 F2]. rewrite path_valid; [|exact F|destruct pre; discriminate]. rewrite (path_parent pre s F1 F2).
  rewrite rootOr_path. replace (match pre with [] => true | _ => zhas t (path pre) end) with true by (destruct pre; [reflexivity|symmetry; apply H; discriminate]).
  cbn [negb never]. destruct (zhas t (path (pre ++ [s]))); [reflexivity|]. rewrite E. reflexivity.
Qed.
Lemma create_missing pre s t deny eph d : Forall name_ok (pre ++ [s]) -> pre <> [] -> zhas t (path pre) = false ->
  zcreate deny t (path (pre ++ [s])) eph d = (ZNoNode, t).
Proof.
  intros F N H. unfold zcreate. destruct (Forall_snoc _ _ _ F) as [F1 F2]. rewrite path_valid; [|exact F|destruct pre; discriminate]. rewrite (path_parent pre s F1 F2).
  rewrite rootOr_path. destruct pre; [congruence|]. rewrite H. reflexivity.
Qed.
Lemma anc_there t : forall names q, closed t -> Forall name_ok names -> zhas t (path names) = true -> ancestor names q -> zhas t q = true.
Proof.
  induction names as [|s pre IH] using rev_ind; intros q C F Z A; [destruct A as (k & K & _); cbn [length] in K; lia|]. destruct (Forall_snoc _ _ _ F) as [F1 F2].
  apply anc_snoc in A as [A| ->]; [|exact Z]. apply IH; auto. apply (C pre s); auto. intros ->. destruct A as (k & K & _). cbn [length] in K. lia.
Qed.
Definition makes (names : list bs) (t t' : ztree) : Prop :=
  forall q, (zhas t q = true -> aget bs_eqb t' q = aget bs_eqb t q) /\ (zhas t q = false -> ancestor names q -> aget bs_eqb t' q = Some (false, [])) /\
            (~ ancestor names q -> aget bs_eqb t' q = aget bs_eqb t q).
Lemma cp_ok : forall names t fuel, Forall name_ok names -> names <> [] -> closed t -> ephemeral t [] = false ->
  (forall q, ancestor names q -> ephemeral t q = false) -> length names <= fuel ->
  exists t', createPersistent fuel never (t, []) (path names) = Some (t', []) /\ makes names t t'.
Proof.
  intro names. induction names as [|s pre IH] using rev_ind; intros t fuel F N C R E L; [congruence|].
  destruct (Forall_snoc _ _ _ F) as [F1 F2]. rewrite app_length in L. cbn [length] in L. destruct fuel as [|f]; [lia|].
  assert (Ep : ephemeral t (path pre) = false).
  { destruct pre as [|x r]; [exact R|]. apply E. apply anc_snoc. left. apply anc_self. discriminate. }
  cbn [createPersistent]. unfold callCreate, fault. cbn [snd fst].
  destruct (match pre with [] => true | _ => zhas t (path pre) end) eqn:P.
  - rewrite (create_fine pre s t false [] F); [|destruct pre; [congruence|intros _; exact P]|exact Ep].
    destruct (zhas t (path (pre ++ [s]))) eqn:Z; cbn [snd].
    + exists t. split; [reflexivity|]. intro q. split; [reflexivity|]. split; [|reflexivity]. intros H A. rewrite (anc_there t (pre ++ [s]) q C F Z A) in H. discriminate H.
    + eexists. split; [reflexivity|]. intro q. rewrite aget_set. split; [|split].
      * intro H. destruct (bs_eqb q (path (pre ++ [s]))) eqn:B; [apply bs_eqb_spec in B; congruence|reflexivity].
      * intros H A. apply anc_snoc in A as [A| ->]; [|rewrite bs_eqb_refl; reflexivity]. exfalso.
        assert (Np : pre <> []) by (intros ->; destruct A as (k & K & _); cbn [length] in K; lia).
        rewrite (anc_there t pre q C F1 ltac:(destruct pre; [congruence|exact P]) A) in H. discriminate H.
      * intro A. destruct (bs_eqb q (path (pre ++ [s]))) eqn:B; [|reflexivity]. apply bs_eqb_spec in B. destruct A. apply anc_snoc. right. exact B.
  - assert (Np : pre <> []) by (destruct pre; [discriminate P|discriminate]). assert (Pf : zhas t (path pre) = false) by (destruct pre; [congruence|exact P]).
    rewrite (create_missing pre s t never false [] F Np Pf). cbn [snd]. rewrite (path_parent pre s F1 F2).
    destruct (IH t f F1 Np C R) as (t1 & -> & M); [intros q A; apply E; apply anc_snoc; left; exact A|lia|].
    destruct f as [|f]; [destruct pre; [congruence|cbn [length] in L; lia]|]. cbn [createPersistent]. unfold callCreate, fault. cbn [snd fst].
    assert (Pt : aget bs_eqb t1 (path pre) = Some (false, [])) by (apply M; [exact Pf|apply anc_self; exact Np]).
    rewrite (create_fine pre s t1 false [] F); [|intros _; unfold zhas; rewrite Pt; reflexivity|unfold ephemeral; rewrite Pt; reflexivity].
    assert (Zt : zhas t (path (pre ++ [s])) = false).
    { destruct (zhas t (path (pre ++ [s]))) eqn:Z; [|reflexivity]. rewrite (C pre s F1 Np F2 Z) in Pf. discriminate Pf. }
    assert (Z1 : aget bs_eqb t1 (path (pre ++ [s])) = None).
    { destruct (M (path (pre ++ [s]))) as (_ & _ & X). rewrite X by (apply anc_not; exact F). apply zhas_false. exact Zt. }
    rewrite (proj2 (zhas_false _ _) Z1). cbn [snd]. eexists. split; [reflexivity|]. intro q. rewrite aget_set. destruct (M q) as (M1 & M2 & M3). split; [|split].
    + intro H. destruct (bs_eqb q (path (pre ++ [s]))) eqn:B; [apply bs_eqb_spec in B; congruence|auto].
    + intros H A. apply anc_snoc in A as [A| ->]; [|rewrite bs_eqb_refl; reflexivity]. destruct (bs_eqb q (path (pre ++ [s]))); [reflexivity|auto].
    + intro A. destruct (bs_eqb q (path (pre ++ [s]))) eqn:B; [apply bs_eqb_spec in B; destruct A; apply anc_snoc; right; exact B|]. apply M3. intro X. apply A. apply anc_snoc. left. exact X.
Qed.

(* whatever fails: nothing but the ancestors is made, and nothing is changed *)
Definition atmost (names : list bs) (t t' : ztree) : Prop :=
  forall q, aget bs_eqb t' q = aget bs_eqb t q \/ (zhas t q = false /\ ancestor names q /\ aget bs_eqb t' q = Some (false, [])).
Lemma create_cases deny t p eph d : snd (zcreate deny t p eph d) = t \/ (zhas t p = false /\ validPath p = true /\ snd (zcreate deny t p eph d) = aset bs_eqb t p (eph, d)).
Proof.
  unfold zcreate. destruct (validPath p); [|left; reflexivity]. destruct (rootOr t (zparent p)); [|left; reflexivity]. cbn [negb].
  destruct (deny (zparent p)); [left; reflexivity|]. destruct (zhas t p); [left; reflexivity|]. destruct (ephemeral t (zparent p)); [left; reflexivity|]. right. auto.
Qed.
Lemma atmost_trans pre names t1 t2 t3 : (forall q, ancestor pre q -> ancestor names q) -> atmost pre t1 t2 -> atmost names t2 t3 -> atmost names t1 t3.
Proof.
  intros I A B q. destruct (A q) as [X|(X & Y & Z)], (B q) as [X'|(X' & Y' & Z')].
  - left. congruence.
  - right. split; [|auto]. apply zhas_false. apply zhas_false in X'. congruence.
  - right. split; [exact X|]. split; [apply I; exact Y|]. congruence.
  - apply zhas_false in X'. congruence.
Qed.
Lemma cp_atmost deny : forall fuel names w w', Forall name_ok names -> names <> [] -> createPersistent fuel deny w (path names) = Some w' ->
  atmost names (fst w) (fst w') /\ length (snd w') <= length (snd w).
Proof.
  induction fuel as [|f IH]; intros names w w' F N H; [discriminate H|]. cbn [createPersistent] in H. unfold callCreate, fault in H. destruct w as [t fs]. cbn [fst snd] in *.
  assert (S0 : forall t', (t' = t \/ zhas t (path names) = false /\ t' = aset bs_eqb t (path names) (false, [])) -> atmost names t t').
  { intros t' [->|[Z ->]] q; [left; reflexivity|]. rewrite aget_set. destruct (bs_eqb q (path names)) eqn:B; [|left; reflexivity]. apply bs_eqb_spec in B. subst q. right.
    split; [exact Z|]. split; [apply anc_self; exact N|reflexivity]. }
  assert (St : forall fs1, length fs1 <= length fs -> (let (e, w1) := let (e, t0) := zcreate deny t (path names) false [] in (e, (t0, fs1)) in
      match e with ZNoNode => match createPersistent f deny w1 (zparent (path names)) with Some w2 => createPersistent f deny w2 (path names) | None => None end | _ => Some w1 end) = Some w' ->
      atmost names t (fst w') /\ length (snd w') <= length fs).
  { clear H. intros fs1 Lf H. pose proof (create_cases deny t (path names) false []) as CC. destruct (zcreate deny t (path names) false []) as [e t0] eqn:Z. cbn [snd] in CC.
    assert (St0 : atmost names t t0) by (apply S0; destruct CC as [->|(X & _ & ->)]; auto).
    destruct e; try (injection H as <-; cbn [fst snd]; auto; fail).
    destruct (exists_last N) as (pre & s & ->). destruct (Forall_snoc _ _ _ F) as [F1 F2]. rewrite (path_parent pre s F1 F2) in H.
    assert (Np : pre <> []).
    { intros ->. unfold zcreate in Z. rewrite path_valid in Z by assumption. change (zparent (path ([] ++ [s]))) with (zparent (path ([] ++ [s]))) in Z. rewrite (path_parent [] s F1 F2) in Z. cbn in Z.
      destruct (deny []); [discriminate Z|]. destruct (zhas t _); [discriminate Z|]. destruct (ephemeral t []); discriminate Z. }
    destruct (createPersistent f deny (t0, fs1) (path pre)) as [w2|] eqn:E; [|discriminate H]. destruct (IH pre _ _ F1 Np E) as [A1 L1]. destruct (IH _ _ _ F N H) as [A2 L2]. cbn [fst snd] in *.
    split; [|lia]. apply (atmost_trans (pre ++ [s]) (pre ++ [s]) t t0); [auto|exact St0|]. apply (atmost_trans pre (pre ++ [s]) t0 (fst w2)); [|exact A1|exact A2].
    intros q Aq. apply anc_snoc. left. exact Aq. }
  destruct fs as [|b fs]; cbn [fst snd] in H; [apply (St []); [lia|exact H]|]. destruct b; [|apply (St fs); [cbn [length]; lia|exact H]].
  injection H as <-. cbn [fst snd length]. split; [|lia]. intro q. left. reflexivity.
Qed.

(* ------------------------------------------------------------ failing calls *)
Lemma cp_more deny : forall f w p w', createPersistent f deny w p = Some w' -> forall g, f <= g -> createPersistent g deny w p = Some w'.
Proof.
  induction f as [|f IH]; intros w p w' H g L; [discriminate H|]. destruct g as [|g]; [lia|]. cbn [createPersistent] in *. destruct (callCreate deny w p false []) as [e w1].
  destruct e; try exact H. destruct (createPersistent f deny w1 (zparent p)) as [w2|] eqn:E; [|discriminate H]. rewrite (IH _ _ _ E g) by lia. apply (IH _ _ _ H). lia.
Qed.
Definition solid (names : list bs) (t : ztree) : Prop := ephemeral t [] = false /\ forall q, ancestor names q -> ephemeral t q = false.
Lemma anc_empty names : Forall name_ok names -> ~ ancestor names [].
Proof. intros F (k & K & E). destruct names as [|x r]; [cbn [length] in K; lia|]. destruct k; [lia|]. discriminate E. Qed.
Lemma solid_atmost names pre t t' : solid names t -> Forall name_ok pre -> atmost pre t t' -> solid names t'.
Proof.
  intros [A B] F M. split.
  - destruct (M []) as [X|(_ & X & _)]; [unfold ephemeral in *; rewrite X; exact A|]. destruct (anc_empty pre F X).
  - intros q Q. destruct (M q) as [X|(_ & _ & X)]; unfold ephemeral in *; rewrite X; [apply B; exact Q|reflexivity].
Qed.
Lemma solid_pre pre s t : solid (pre ++ [s]) t -> solid pre t.
Proof. intros [A B]. split; [exact A|]. intros q Q. apply B, anc_snoc. left. exact Q. Qed.
Lemma solid_parent pre s t : solid (pre ++ [s]) t -> ephemeral t (path pre) = false.
Proof. intros [A B]. destruct pre as [|x r]; [exact A|]. apply B, anc_snoc. left. apply anc_self. discriminate. Qed.
(* one call on the path: it fails, the parent is missing, or the node is there afterwards *)
Lemma call_cases pre s t fs : Forall name_ok (pre ++ [s]) -> solid (pre ++ [s]) t ->
  (exists fs1, callCreate never (t, fs) (path (pre ++ [s])) false [] = (ZConn, (t, fs1)) /\ S (length fs1) = length fs) \/
  (exists fs1, callCreate never (t, fs) (path (pre ++ [s])) false [] = (ZNoNode, (t, fs1)) /\ length fs1 <= length fs /\ pre <> [] /\ zhas t (path pre) = false) \/
  (exists e t1 fs1, callCreate never (t, fs) (path (pre ++ [s])) false [] = (e, (t1, fs1)) /\ e <> ZNoNode /\ length fs1 <= length fs /\ zhas t1 (path (pre ++ [s])) = true).
Proof.
  intros F Sd. unfold callCreate, fault. cbn [fst snd].
  assert (G : forall fs1 : list bool, length fs1 <= length fs ->
    (exists fs2, (let (e, t0) := zcreate never t (path (pre ++ [s])) false [] in (e, (t0, fs1))) = (ZNoNode, (t, fs2)) /\ length fs2 <= length fs /\ pre <> [] /\ zhas t (path pre) = false) \/
    (exists e t1 fs2, (let (e, t0) := zcreate never t (path (pre ++ [s])) false [] in (e, (t0, fs1))) = (e, (t1, fs2)) /\ e <> ZNoNode /\ length fs2 <= length fs /\ zhas t1 (path (pre ++ [s])) = true)).
  { intros fs1 L. destruct (match pre with [] => true | _ => zhas t (path pre) end) eqn:P.
    - right. rewrite (create_fine pre s t false [] F); [|destruct pre; [congruence|intros _; exact P]|eapply solid_parent; exact Sd].
      destruct (zhas t (path (pre ++ [s]))) eqn:Z; eexists; eexists; eexists; (split; [reflexivity|]); (split; [discriminate|]); (split; [exact L|]); [exact Z|].
      apply zhas_aget. rewrite aget_set, bs_eqb_refl. discriminate.
    - left. assert (Np : pre <> []) by (destruct pre; [discriminate P|discriminate]). assert (Pf : zhas t (path pre) = false) by (destruct pre; [congruence|exact P]).
      rewrite (create_missing pre s t never false [] F Np Pf). exists fs1. auto. }
  destruct fs as [|b fs]; [right; apply (G []); lia|]. destruct b; [left; exists fs; split; reflexivity|]. right. apply (G fs). cbn [length]. lia.
Qed.
Lemma cp_progress : forall fuel names t fs w', Forall name_ok names -> names <> [] -> solid names t -> createPersistent fuel never (t, fs) (path names) = Some w' ->
  zhas (fst w') (path names) = true \/ length (snd w') < length fs.
Proof.
  induction fuel as [|f IH]; intros names t fs w' F N Sd H; [discriminate H|]. destruct (exists_last N) as (pre & s & ->). destruct (Forall_snoc _ _ _ F) as [F1 F2].
  cbn [createPersistent] in H. destruct (call_cases pre s t fs F Sd) as [(fs1 & C & L)|[(fs1 & C & L & Np & Z)|(e & t1 & fs1 & C & E & L & Z)]]; rewrite C in H.
  - injection H as <-. right. cbn [snd]. lia.
  - rewrite (path_parent pre s F1 F2) in H. destruct (createPersistent f never (t, fs1) (path pre)) as [w2|] eqn:E; [|discriminate H].
    destruct (cp_atmost never f pre _ _ F1 Np E) as [A1 L1]. destruct w2 as [t2 fs2]. cbn [fst snd] in *.
    destruct (IH _ t2 fs2 _ F N (solid_atmost _ pre t t2 Sd F1 A1) H) as [X|X]; [left; exact X|right; lia].
  - left. destruct e; try congruence; injection H as <-; exact Z.
Qed.
Lemma cp_ends : forall names n t fs, Forall name_ok names -> names <> [] -> solid names t -> length fs <= n ->
  exists fuel w', createPersistent fuel never (t, fs) (path names) = Some w'.
Proof.
  induction names as [|s pre IHp] using rev_ind; [congruence|]. induction n as [|n IHn]; intros t fs F N Sd Ln; destruct (Forall_snoc _ _ _ F) as [F1 F2];
    (destruct (call_cases pre s t fs F Sd) as [(fs1 & C & L)|[(fs1 & C & L & Np & Z)|(e & t1 & fs1 & C & E & L & Z)]];
     [exists 1; eexists; cbn [createPersistent]; rewrite C; reflexivity| |exists 1; eexists; cbn [createPersistent]; rewrite C; destruct e; try reflexivity; congruence]);
    (destruct (IHp (length fs1) t fs1 F1 Np (solid_pre _ _ _ Sd) (le_n _)) as (f1 & [t2 fs2] & E1)); destruct (cp_atmost never f1 pre _ _ F1 Np E1) as [A1 L1];
    pose proof (solid_atmost _ pre t t2 Sd F1 A1) as Sd2; cbn [fst snd] in *;
    (assert (G : exists f2 w2, createPersistent f2 never (t2, fs2) (path (pre ++ [s])) = Some w2);
     [|destruct G as (f2 & w2 & E2); exists (S (Nat.max f1 f2)), w2; cbn [createPersistent]; rewrite C, (path_parent pre s F1 F2);
       rewrite (cp_more never f1 _ _ _ E1) by lia; apply (cp_more never f2 _ _ _ E2); lia]);
    (destruct (cp_progress f1 pre t fs1 _ F1 Np (solid_pre _ _ _ Sd) E1) as [X|X]; cbn [fst snd] in X;
     [destruct (call_cases pre s t2 fs2 F Sd2) as [(fs3 & C2 & L2)|[(fs3 & C2 & L2 & _ & Z2)|(e & t3 & fs3 & C2 & Ee & L2 & Z2)]];
      [exists 1; eexists; cbn [createPersistent]; rewrite C2; reflexivity|congruence|exists 1; eexists; cbn [createPersistent]; rewrite C2; destruct e; try reflexivity; congruence]|]).
  - lia.
  - apply IHn; auto. lia.
Qed.

(* ------------------------------------------------------------ createNode *)
Lemma valid_path q : validPath q = true -> exists names, q = path names /\ names <> [] /\ Forall name_ok names.
Proof.
  unfold validPath. destruct (splitOn x2f q) as [|[|c0 h] [|x r]] eqn:E; try discriminate. intro H. exists (x :: r). split; [|split; [discriminate|]].
  - rewrite <- (joinWith_split x2f q), E. symmetry. apply path_join. discriminate.
  - apply Forall_forall. intros s I. split; [|apply (splitOn_parts x2f q s); rewrite E; right; exact I]. rewrite forallb_forall in H. specialize (H s I). apply negb_true_iff, bs_eqb_neq in H. exact H.
Qed.
Lemma no_child t node : Forall name_ok node -> node <> [] -> (forall s, name_ok s -> zhas t (path (node ++ [s])) = false) -> hasChild t (path node) = false.
Proof.
  intros F N H. unfold hasChild. destruct (existsb _ _) eqn:E; [|reflexivity]. exfalso. apply existsb_exists in E as (q & I & Q). apply andb_true_iff in Q as [V P]. apply bs_eqb_spec in P.
  destruct (valid_path q V) as (names & -> & Nn & Fn). destruct (exists_last Nn) as (pre & s & ->). destruct (Forall_snoc _ _ _ Fn) as [F1 F2].
  rewrite (path_parent pre s F1 F2) in P. apply path_inj in P; [|assumption|assumption]. subst pre. specialize (H s F2). apply zhas_false in H.
  apply (aget_None bs_eqb bs_eqb_spec) in H. contradiction.
Qed.
Lemma remove_fine t node : Forall name_ok node -> node <> [] -> (forall s, name_ok s -> zhas t (path (node ++ [s])) = false) ->
  exists t1, removeNodeZ (t, []) (path node) = (t1, []) /\ forall q, aget bs_eqb t1 q = if bs_eqb q (path node) then None else aget bs_eqb t q.
Proof.
  intros F N H. unfold removeNodeZ, callExists, callDelete, fault, zdelete. cbn [fst snd]. destruct (zhas t (path node)) eqn:Z; cbn [negb].
  - rewrite (no_child t node F N H). cbn [fst snd]. eexists. split; [reflexivity|]. intro q. apply (aget_adel bs_eqb bs_eqb_spec).
  - exists t. split; [reflexivity|]. intro q. destruct (bs_eqb q (path node)) eqn:B; [|reflexivity]. apply bs_eqb_spec in B. subst q. apply zhas_false. exact Z.
Qed.
Lemma node_made names a t d fuel : Forall name_ok (names ++ [a]) -> names <> [] -> closed t -> solid names t ->
  (forall s, name_ok s -> zhas t (path ((names ++ [a]) ++ [s])) = false) -> length names <= fuel ->
  exists t', createNodeZ fuel never (t, []) (path names) (path (names ++ [a])) d = Some (t', []) /\
    aget bs_eqb t' (path (names ++ [a])) = Some (true, d) /\
    forall q, q <> path (names ++ [a]) ->
      (zhas t q = true -> aget bs_eqb t' q = aget bs_eqb t q) /\ (zhas t q = false -> ancestor names q -> aget bs_eqb t' q = Some (false, [])) /\
      (~ ancestor names q -> aget bs_eqb t' q = aget bs_eqb t q).
Proof.
  intros F N C Sd H L. destruct (Forall_snoc _ _ _ F) as [F1 F2]. destruct (remove_fine t (names ++ [a]) F ltac:(destruct names; discriminate) H) as (t1 & R & G).
  unfold createNodeZ. rewrite R. unfold callExists, fault. cbn [fst snd].
  assert (An : ~ ancestor names (path (names ++ [a]))) by (apply anc_not; exact F).
  assert (C1 : closed t1).
  { intros ns s Fn Nn Fs Z. apply zhas_aget. apply zhas_aget in Z. rewrite G in *. destruct (bs_eqb (path (ns ++ [s])) (path (names ++ [a]))) eqn:B; [congruence|].
    destruct (bs_eqb (path ns) (path (names ++ [a]))) eqn:B2.
    - apply bs_eqb_spec in B2. apply path_inj in B2; [|assumption|assumption]. subst ns. apply zhas_aget in Z. rewrite H in Z; [discriminate Z|exact Fs].
    - apply zhas_aget. apply (C ns s); auto. apply zhas_aget. exact Z. }
  assert (Sd1 : solid names t1).
  { destruct Sd as [S1 S2]. split; [|intros q Q]; unfold ephemeral in *; rewrite G; [|specialize (S2 q Q)].
    - destruct (bs_eqb [] (path (names ++ [a]))); [reflexivity|exact S1].
    - destruct (bs_eqb q (path (names ++ [a]))); [reflexivity|exact S2]. }
  assert (K : exists t2, (if zhas t1 (path names) then @Some zw (t1, []) else createPersistent fuel never (t1, []) (path names)) = Some (t2, []) /\ makes names t1 t2).
  { destruct (zhas t1 (path names)) eqn:Z.
    - exists t1. split; [reflexivity|]. intro q. split; [reflexivity|]. split; [|reflexivity]. intros Q A. rewrite (anc_there t1 names q C1 F1 Z A) in Q. discriminate Q.
    - destruct Sd1 as [S1 S2]. apply cp_ok; assumption. }
  destruct K as (t2 & Kt & M). rewrite Kt. unfold callCreate, fault. cbn [fst snd].
  assert (P2 : zhas t2 (path names) = true /\ ephemeral t2 (path names) = false).
  { destruct (M (path names)) as (M1 & M2 & _). destruct (zhas t1 (path names)) eqn:Z.
    - specialize (M1 eq_refl). unfold zhas, ephemeral in *. rewrite M1. split; [exact Z|]. apply Sd1. apply anc_self. exact N.
    - specialize (M2 eq_refl (anc_self names N)). unfold zhas, ephemeral. rewrite M2. split; reflexivity. }
  rewrite (create_fine names a t2 true d F); [|intros _; apply P2|apply P2].
  assert (Z2 : zhas t2 (path (names ++ [a])) = false).
  { apply zhas_false. destruct (M (path (names ++ [a]))) as (_ & _ & M3). rewrite (M3 An), G, bs_eqb_refl. reflexivity. }
  rewrite Z2. cbn [fst snd]. eexists. split; [reflexivity|]. rewrite aget_set, bs_eqb_refl. split; [reflexivity|]. intros q Q. rewrite aget_set. apply bs_eqb_neq in Q. rewrite Q.
  assert (Gq : aget bs_eqb t1 q = aget bs_eqb t q) by (rewrite G, Q; reflexivity). assert (Zq : zhas t1 q = zhas t q) by (unfold zhas; rewrite Gq; reflexivity).
  destruct (M q) as (M1 & M2 & M3). rewrite Zq, Gq in *. auto.
Qed.
(* whatever fails *)
Lemma fault_tree w : fst (snd (fault w)) = fst w.
Proof. unfold fault. destruct w as [t [|b fs]]; reflexivity. Qed.
Lemma delete_call w p q : aget bs_eqb (fst (snd (callDelete w p))) q = aget bs_eqb (fst w) q \/ q = p.
Proof.
  unfold callDelete. pose proof (fault_tree w) as T. destruct (fault w) as [f w1]. cbn [snd] in T. destruct f; [left; cbn [snd]; rewrite T; reflexivity|].
  unfold zdelete. destruct (zhas (fst w1) p); cbn [negb]; [|left; cbn [fst snd]; rewrite T; reflexivity]. destruct (hasChild (fst w1) p); cbn [fst snd]; [left; rewrite T; reflexivity|].
  rewrite (aget_adel bs_eqb bs_eqb_spec), T. destruct (bs_eqb q p) eqn:B; [right; apply bs_eqb_spec; exact B|left; reflexivity].
Qed.
Lemma delete_atmost w p q : aget bs_eqb (fst (removeNodeZ w p)) q = aget bs_eqb (fst w) q \/ q = p.
Proof.
  unfold removeNodeZ, callExists. pose proof (fault_tree w) as T. destruct (fault w) as [f w1]. cbn [snd] in T. destruct f; [left; rewrite T; reflexivity|].
  destruct (zhas (fst w1) p); [|left; rewrite T; reflexivity]. rewrite <- T. apply delete_call.
Qed.
Lemma node_atmost deny fuel names a w d w' : Forall name_ok (names ++ [a]) -> names <> [] ->
  createNodeZ fuel deny w (path names) (path (names ++ [a])) d = Some w' ->
  forall q, q <> path (names ++ [a]) ->
    aget bs_eqb (fst w') q = aget bs_eqb (fst w) q \/ (zhas (fst w) q = false /\ ancestor names q /\ aget bs_eqb (fst w') q = Some (false, [])).
Proof.
  intros F N H q Q. destruct (Forall_snoc _ _ _ F) as [F1 F2]. unfold createNodeZ in H.
  assert (R : aget bs_eqb (fst (removeNodeZ w (path (names ++ [a])))) q = aget bs_eqb (fst w) q) by (destruct (delete_atmost w (path (names ++ [a])) q); congruence).
  set (w1 := removeNodeZ w (path (names ++ [a]))) in *. clearbody w1.
  assert (X2 : fst (snd (callExists w1 (path names))) = fst w1) by (unfold callExists, fault; destruct w1 as [t [|b fs]]; reflexivity).
  destruct (callExists w1 (path names)) as [x w2]. cbn [snd] in X2. destruct x as [b|]; [|injection H as <-; left; congruence].
  assert (K : exists w3, w' = snd (callCreate deny w3 (path (names ++ [a])) true d) /\ atmost names (fst w2) (fst w3)).
  { destruct b; [injection H as <-; exists w2; split; [reflexivity|]; intro; left; reflexivity|]. destruct (createPersistent fuel deny w2 (path names)) as [w3|] eqn:E; [|discriminate H].
    injection H as <-. exists w3. split; [reflexivity|]. apply (cp_atmost deny fuel names _ _ F1 N E). }
  destruct K as (w3 & -> & M). assert (X3 : aget bs_eqb (fst (snd (callCreate deny w3 (path (names ++ [a])) true d))) q = aget bs_eqb (fst w3) q).
  { unfold callCreate, fault. destruct w3 as [t fs]. cbn [fst snd].
    assert (G : forall fs1 : list bool, aget bs_eqb (fst (snd (let (e, t0) := zcreate deny t (path (names ++ [a])) true d in (e, (t0, fs1))))) q = aget bs_eqb t q).
    { intro fs1. pose proof (create_cases deny t (path (names ++ [a])) true d) as CC. destruct (zcreate deny t (path (names ++ [a])) true d) as [e t0]. cbn [fst snd] in *.
      destruct CC as [->|(_ & _ & ->)]; [reflexivity|]. rewrite aget_set. apply bs_eqb_neq in Q. rewrite Q. reflexivity. }
    destruct fs as [|[] fs]; cbn [fst snd]; [apply G|reflexivity|apply G]. }
  rewrite X3. destruct (M q) as [Y|(Y1 & Y2 & Y3)]; [left; congruence|]. right. split; [|auto]. unfold zhas in *. rewrite <- R, <- X2. exact Y1.
Qed.
Lemma denied_forever : forall fuel, createPersistent fuel (fun p => bs_eqb p []) ([], []) (s2b "/motan/g") = None.
Proof.
  induction fuel as [|f IH]; [reflexivity|]. cbn [createPersistent]. replace (callCreate (fun p => bs_eqb p []) ([], []) (s2b "/motan/g") false []) with (ZNoNode, (([] : ztree), ([] : list bool))) by (vm_compute; reflexivity).
  replace (zparent (s2b "/motan/g")) with (s2b "/motan") by (vm_compute; reflexivity). destruct f as [|f]; [reflexivity|].
  replace (createPersistent (S f) (fun p => bs_eqb p []) ([], []) (s2b "/motan")) with (Some (([] : ztree), ([] : list bool))); [exact IH|].
  cbn [createPersistent]. replace (callCreate (fun p => bs_eqb p []) ([], []) (s2b "/motan") false []) with (ZNoAuth, (([] : ztree), ([] : list bool))) by (vm_compute; reflexivity). reflexivity.
Qed.
