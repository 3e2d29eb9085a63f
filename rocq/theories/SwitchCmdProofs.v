(* SwitchCmdProofs.v: proofs for SwitchCmdProps.v. *)
From Coq Require Import Permutation.
From Verif Require Import Base GoStrings UrlModel SwitchCmdModel SwitchCmdSpec CoreProofs FailfastProofs.

Notation get := (aget bs_eqb).
Lemma get_set m k (v : bool) k' : get (aset bs_eqb m k v) k' = if bs_eqb k' k then Some v else get m k'.
Proof. apply (aget_aset bs_eqb bs_eqb_spec). Qed.
Lemma dec_bs (a b : bs) : {a = b} + {a <> b}.
Proof. destruct (bs_eqb a b) eqn:E; [left; apply bs_eqb_spec; exact E|right; intro X; apply bs_eqb_spec in X; congruence]. Qed.
Definition upTo (pieces : list bs) (n : bs) : option bool :=
  fold_left (fun acc piece => match entryOf piece with Some (m, b) => if bs_eqb m n then Some b else acc | None => acc end) pieces None.
Definition base := bs -> option bool.
Record sinv (b : base) (s : swst) : Prop := {
  sv_nodup : NoDup (akeys (sOld s));
  sv_old : forall n v, get (sOld s) n = Some v -> b n = Some v;
  sv_dom : forall n, get (sVals s) n = None <-> b n = None;
  sv_free : forall n, get (sOld s) n = None -> get (sVals s) n = b n }.
Record linv (b : base) (s0 : swst) (pieces : list bs) (s : swst) (new : list (bs * bool)) : Prop := {
  lv_inv : sinv b s;
  lv_vals : forall n, get (sVals s) n = match upTo pieces n with Some v => if b n then Some v else None | None => get (sVals s0) n end;
  lv_new : forall n, get new n = None <-> (upTo pieces n = None \/ b n = None);
  lv_newold : forall n, get new n <> None -> get (sOld s) n <> None }.
Lemma upTo_snoc l p n : upTo (l ++ [p]) n = match entryOf p with Some (m, v) => if bs_eqb m n then Some v else upTo l n | None => upTo l n end.
Proof. unfold upTo. rewrite fold_left_app. reflexivity. Qed.
Lemma loop_inv b s0 pieces : sinv b s0 -> let (s, new) := fold_left applyEntry pieces (s0, []) in linv b s0 pieces s new.
Proof.
  intro I. induction pieces as [|p l IH] using rev_ind.
  - cbn. constructor; [exact I|reflexivity| |].
    + intro n. cbn. split; [left; reflexivity|reflexivity].
    + intros n H. contradiction H; reflexivity.
  - rewrite fold_left_app. destruct (fold_left applyEntry l (s0, [])) as [s new]. cbn [fold_left]. unfold applyEntry.
    destruct IH as [[nd od dm fr] V N NO]. destruct (entryOf p) as [[m v]|] eqn:E.
    2: { constructor; [constructor; assumption| | |exact NO]; intro n; rewrite upTo_snoc, E; [apply V|apply N]. }
    destruct (get (sVals s) m) as [cur|] eqn:G.
    + assert (Bm : b m <> None) by (intro X; apply dm in X; congruence).
      assert (OLD : forall n, get (match get (sOld s) m with Some _ => sOld s | None => aset bs_eqb (sOld s) m cur end) n = if bs_eqb n m then Some (match get (sOld s) m with Some w => w | None => cur end) else get (sOld s) n).
      { intro n. destruct (get (sOld s) m) as [w|] eqn:O.
        - destruct (bs_eqb n m) eqn:Enm; [|reflexivity]. apply bs_eqb_spec in Enm. subst. exact O.
        - apply get_set. }
      constructor; [constructor|..]; cbn [sOld sVals].
      * destruct (get (sOld s) m); [exact nd|apply NoDup_aset; [exact bs_eqb_spec|exact nd]].
      * intros n w. rewrite OLD. destruct (bs_eqb n m) eqn:Enm; [|apply od]. apply bs_eqb_spec in Enm. subst n. intro X. injection X as <-.
        destruct (get (sOld s) m) as [w|] eqn:O; [exact (od m w O)|]. rewrite <- (fr m O). exact G.
      * intro n. rewrite get_set. destruct (bs_eqb n m) eqn:Enm; [|apply dm]. apply bs_eqb_spec in Enm. subst n. split; [intro X; discriminate X|intro X; contradiction].
      * intro n. rewrite OLD, get_set. destruct (bs_eqb n m) eqn:Enm; [intro X; discriminate X|apply fr].
      * intro n. rewrite get_set, upTo_snoc, E. destruct (bs_eqb n m) eqn:Enm.
        -- apply bs_eqb_spec in Enm. subst n. rewrite bs_eqb_rfl. destruct (b m); [reflexivity|contradiction].
        -- rewrite eqb_sym_bs, Enm. apply V.
      * intro n. rewrite get_set, upTo_snoc, E. rewrite (eqb_sym_bs m n). destruct (bs_eqb n m) eqn:Enm; [|apply N]. apply bs_eqb_spec in Enm. subst n.
        split; [intro X; discriminate X|intros [X|X]; [discriminate X|contradiction]].
      * intro n. rewrite get_set, OLD. destruct (bs_eqb n m); [intros _ X; discriminate X|apply NO].
    + assert (Bm : b m = None) by (apply dm; exact G). constructor; [constructor; assumption| | |exact NO]; intro n; rewrite upTo_snoc, E; destruct (bs_eqb m n) eqn:Enm; try apply V; try apply N; apply bs_eqb_spec in Enm; subst n.
      * rewrite Bm. exact G.
      * split; [intro; right; exact Bm|intro; apply N; right; exact Bm].
Qed.
(* the restoring loop: each entry of the map is dealt with once *)
Lemma restore_inv l : NoDup (akeys l) -> forall vals new, let (vals2, new2) := fold_left restoreOne l (vals, new) in
  (forall n, get vals2 n = match get l n with Some v => if get new n then get vals n else Some v | None => get vals n end) /\
  (forall n, get new2 n = match get l n with Some v => if get new n then Some v else None | None => get new n end) /\ (NoDup (akeys new) -> NoDup (akeys new2)).
Proof.
  induction l as [|[k w] l IH]; intros ND vals new; cbn [fold_left].
  - repeat split; try reflexivity. exact (fun x => x).
  - cbn [akeys map fst] in ND. inversion ND as [|? ? NI ND']; subst. unfold restoreOne at 2. cbn [fst snd].
    assert (KN : get l k = None).
    { destruct (get l k) as [v|] eqn:G; [|reflexivity]. exfalso. apply NI. apply (in_map fst) with (x := (k, v)). exact (aget_In bs_eqb bs_eqb_spec _ _ _ G). }
    destruct (get new k) as [x|] eqn:G.
    + specialize (IH ND' vals (aset bs_eqb new k w)). destruct (fold_left restoreOne l (vals, aset bs_eqb new k w)) as [v2 n2]. destruct IH as (A & B & C). split; [|split].
      * intro n. rewrite A. cbn [aget fst]. destruct (bs_eqb n k) eqn:E; [apply bs_eqb_spec in E; subst; rewrite KN, G; reflexivity|]. rewrite get_set, E. reflexivity.
      * intro n. rewrite B. cbn [aget fst]. destruct (bs_eqb n k) eqn:E; [apply bs_eqb_spec in E; subst; rewrite KN, G, get_set, bs_eqb_rfl; reflexivity|]. rewrite get_set, E. reflexivity.
      * intro H. apply C. apply NoDup_aset; [exact bs_eqb_spec|exact H].
    + specialize (IH ND' (aset bs_eqb vals k w) new). destruct (fold_left restoreOne l (aset bs_eqb vals k w, new)) as [v2 n2]. destruct IH as (A & B & C). split; [|split].
      * intro n. rewrite A. cbn [aget fst]. rewrite get_set. destruct (bs_eqb n k) eqn:E; [apply bs_eqb_spec in E; subst; rewrite KN, G; reflexivity|]. reflexivity.
      * intro n. rewrite B. cbn [aget fst]. destruct (bs_eqb n k) eqn:E; [apply bs_eqb_spec in E; subst; rewrite KN, G; reflexivity|]. reflexivity.
      * exact C.
Qed.
Lemma perm_get (l l' : list (bs * bool)) : NoDup (akeys l) -> Permutation l l' -> NoDup (akeys l') /\ forall n, get l' n = get l n.
Proof.
  intros ND P. assert (ND' : NoDup (akeys l')) by (apply (Permutation_NoDup (l := akeys l)); [apply Permutation_map; exact P|exact ND]).
  split; [exact ND'|]. intro n. destruct (get l n) as [v|] eqn:G.
  - apply (In_aget bs_eqb bs_eqb_spec); [exact ND'|]. apply (Permutation_in _ P). exact (aget_In bs_eqb bs_eqb_spec _ _ _ G).
  - destruct (get l' n) as [v|] eqn:G'; [|reflexivity]. exfalso. pose proof (aget_In bs_eqb bs_eqb_spec _ _ _ G') as X. apply (Permutation_in _ (Permutation_sym P)) in X.
    pose proof (In_aget bs_eqb bs_eqb_spec _ _ _ ND X). congruence.
Qed.
Lemma loop_nodup b s0 pieces : NoDup (akeys (snd (fold_left applyEntry pieces (s0, @nil (bs * bool))))) /\ sinv b s0 = sinv b s0.
Proof.
  split; [|reflexivity]. induction pieces as [|p l IH] using rev_ind; [constructor|]. rewrite fold_left_app. destruct (fold_left applyEntry l (s0, [])) as [s new]. cbn [fold_left snd] in *. unfold applyEntry.
  destruct (entryOf p) as [[m v]|]; [|exact IH]. destruct (get (sVals s) m); [|exact IH]. cbn. apply NoDup_aset; [exact bs_eqb_spec|exact IH].
Qed.
Lemma process_inv ord b s cmd : anyOrder ord -> sinv b s -> sinv b (processSwitcher ord s cmd) /\
  forall n, isOpenNow (processSwitcher ord s cmd) n = match commanded cmd n with Some v => if b n then Some v else None | None => b n end.
Proof.
  intros O I. set (pieces := match cmd with Some p => splitOn x2c p | None => [] end).
  assert (E : match cmd with Some p => fold_left applyEntry (splitOn x2c p) (s, []) | None => (s, []) end = fold_left applyEntry pieces (s, [])) by (unfold pieces; destruct cmd; reflexivity).
  assert (CM : forall n, commanded cmd n = upTo pieces n) by (unfold pieces; destruct cmd; reflexivity).
  unfold processSwitcher. rewrite E. clear E. pose proof (loop_inv b s pieces I) as L. pose proof (proj1 (loop_nodup b s pieces)) as NDn. destruct (fold_left applyEntry pieces (s, [])) as [s1 new1]. cbn [snd] in NDn.
  destruct L as [[nd od dm fr] V N NO]. destruct (perm_get (sOld s1) (ord (sOld s1)) nd (O _)) as [nd' G]. pose proof (restore_inv _ nd' (sVals s1) new1) as R.
  destruct (fold_left restoreOne (ord (sOld s1)) (sVals s1, new1)) as [v2 n2]. destruct R as (A & B & C).
  assert (FIN : forall n, get v2 n = match upTo pieces n with Some v => if b n then Some v else None | None => b n end).
  { intro n. rewrite A, G. destruct (get (sOld s1) n) as [w|] eqn:Go.
    - rewrite (od n w Go). destruct (get new1 n) as [x|] eqn:Gn.
      + rewrite V. assert (X : ~ (upTo pieces n = None \/ b n = None)) by (rewrite <- N, Gn; discriminate). rewrite (od n w Go). destruct (upTo pieces n); [reflexivity|exfalso; apply X; left; reflexivity].
      + apply N in Gn. destruct Gn as [Gn|Gn]; [rewrite Gn; reflexivity|rewrite (od n w Go) in Gn; discriminate Gn].
    - rewrite (fr n Go). destruct (upTo pieces n) as [v|] eqn:U; [|reflexivity]. destruct (b n) as [w|] eqn:Bn; [|reflexivity]. exfalso.
      assert (X : get new1 n <> None) by (rewrite N, U, Bn; intros [X|X]; discriminate X). exact (NO n X Go). }
  split; [|intro n; unfold isOpenNow; cbn; rewrite FIN, CM; reflexivity].
  constructor; cbn [sOld sVals].
  - apply C. exact NDn.
  - intros n w. rewrite B, G. destruct (get (sOld s1) n) as [x|] eqn:Go.
    + destruct (get new1 n); [|intro X; discriminate X]. intro X. injection X as <-. exact (od n x Go).
    + intro X. exfalso. apply (NO n); [congruence|exact Go].
  - intro n. rewrite FIN. destruct (upTo pieces n), (b n); split; intro X; try discriminate X; reflexivity.
  - intro n. rewrite B, G, FIN. destruct (get (sOld s1) n) as [x|] eqn:Go.
    + destruct (get new1 n) as [y|] eqn:Gn; [intro X; discriminate X|]. intros _. apply N in Gn. destruct Gn as [Gn|Gn]; rewrite Gn; [reflexivity|]. destruct (upTo pieces n); reflexivity.
    + intro Gn. apply N in Gn. destruct Gn as [Gn|Gn]; rewrite Gn; [reflexivity|]. destruct (upTo pieces n); reflexivity.
Qed.
Lemma registered_snoc os o n : registered (os ++ [o]) n = match o, registered os n with SwReg m v, None => if bs_eqb m n && negb (bs_eqb n []) then Some v else None | _, r => r end.
Proof. unfold registered. rewrite fold_left_app. cbn [fold_left]. destruct o; destruct (fold_left _ os None); reflexivity. Qed.
Lemma sinv_ext b b' s : (forall n, b n = b' n) -> sinv b s -> sinv b' s.
Proof. intros E [a c d e]. constructor; intros; [exact a|rewrite <- E; apply c; assumption|rewrite <- E; apply d|rewrite <- E; apply e; assumption]. Qed.
Lemma run_inv ord os : anyOrder ord -> sinv (registered os) (swcrun ord os).
Proof.
  intro O. unfold swcrun. induction os as [|o l IH] using rev_ind.
  - constructor; cbn; try (intros; discriminate); try reflexivity; try constructor; intro; reflexivity.
  - rewrite fold_left_app. cbn [fold_left]. set (s := fold_left (swcstep ord) l swst0) in *. destruct o as [m v|p].
    + cbn [swcstep]. destruct (bs_eqb m []) eqn:Em.
      { apply (sinv_ext (registered l)); [|exact IH]. intro n. rewrite registered_snoc. destruct (registered l n); [reflexivity|]. apply bs_eqb_spec in Em. subst m.
        destruct (bs_eqb [] n) eqn:E; [|reflexivity]. rewrite eqb_sym_bs, E. reflexivity. }
      assert (NE : forall n, bs_eqb m n && negb (bs_eqb n []) = bs_eqb n m).
      { intro n. rewrite (eqb_sym_bs m n). destruct (bs_eqb n m) eqn:E; [|reflexivity]. apply bs_eqb_spec in E. subst n. rewrite Em. reflexivity. }
      destruct IH as [nd od dm fr]. destruct (get (sVals s) m) as [cur|] eqn:G.
      * apply (sinv_ext (registered l)); [|constructor; assumption]. intro n. rewrite registered_snoc, NE. destruct (registered l n) eqn:R; [reflexivity|].
        destruct (bs_eqb n m) eqn:E; [|reflexivity]. apply bs_eqb_spec in E. subst n. apply dm in R. congruence.
      * assert (Rm : registered l m = None) by (apply dm; exact G).
        assert (RN : forall n, registered (l ++ [SwReg m v]) n = if bs_eqb n m then Some v else registered l n).
        { intro n. rewrite registered_snoc, NE. destruct (bs_eqb n m) eqn:E; [apply bs_eqb_spec in E; subst n; rewrite Rm; reflexivity|]. destruct (registered l n); reflexivity. }
        constructor; cbn [sOld sVals].
        -- exact nd.
        -- intros n w H. rewrite RN. destruct (bs_eqb n m) eqn:E; [|exact (od n w H)]. apply bs_eqb_spec in E. subst n. rewrite (od m w H) in Rm. discriminate Rm.
        -- intro n. rewrite RN, get_set. destruct (bs_eqb n m); [split; intro X; discriminate X|apply dm].
        -- intros n H. rewrite RN, get_set. destruct (bs_eqb n m); [reflexivity|exact (fr n H)].
    + cbn [swcstep]. apply (sinv_ext (registered l)); [intro n; rewrite registered_snoc; reflexivity|]. apply (process_inv ord (registered l) s p O IH).
Qed.
