(* TrcProofs.v *)
From Verif Require Import Base GoStrings UrlModel TrcModel TrcSpec.
From Coq Require Import Permutation.

(* ------------------------------------------------------------ holders *)

Definition wf (max : nat) (g : gst) : Prop :=
  (forall h x, nth_error (g_heap g) h = Some x -> h_size x = length (h_tcs x) /\ h_size x <= S max) /\
  (forall h, g_cur g = Some h -> h < length (g_heap g)) /\
  (forall t p, aget Nat.eqb (g_thr g) t = Some p -> match p with TInit _ => True | THas _ h | TTested _ h => h < length (g_heap g) end) /\
  map fst (g_made g) = seq 0 (length (g_made g)) /\
  Permutation (concat (map h_tcs (g_heap g))) (g_made g).
Lemma nat_eqb_spec a b : Nat.eqb a b = true <-> a = b.
Proof. apply Nat.eqb_eq. Qed.
Lemma list_set_perm {A} (f : A -> list (nat * N)) l h x y tc : nth_error l h = Some x -> f y = f x ++ [tc] ->
  Permutation (concat (map f (list_set l h y))) (concat (map f l) ++ [tc]).
Proof.
  revert h. induction l as [|a l IH]; intros [|h] E F; try discriminate E; cbn [nth_error list_set map concat] in *.
  - injection E as ->. rewrite F, <- !app_assoc. apply Permutation_app_head. apply Permutation_app_comm.
  - rewrite <- app_assoc. apply Permutation_app_head. apply IH; assumption.
Qed.
Lemma locked_wf max g rid h : wf max g -> h < length (g_heap g) -> wf max (locked max g rid h).
Proof.
  intros (W1 & W2 & W3 & W4 & W5) L. unfold locked. destruct (nth_error (g_heap g) h) as [x|] eqn:E; [|repeat split; try assumption; eapply W1; eassumption].
  destruct (W1 _ _ E) as [S1 S2]. destruct (h_size x <=? max) eqn:C; [|repeat split; try assumption; eapply W1; eassumption]. apply Nat.leb_le in C. split; [|split; [|split; [|split]]]; cbn [g_heap g_cur g_thr g_made].
  - intros i y N. rewrite (list_set_nth_error _ _ _ _ L) in N. destruct (Nat.eqb i h); [|exact (W1 _ _ N)]. injection N as <-. cbn [h_size h_tcs]. rewrite app_length. cbn. lia.
  - rewrite list_set_length. exact W2.
  - rewrite list_set_length. exact W3.
  - rewrite map_app, app_length, W4, Nat.add_1_r, seq_S. reflexivity.
  - rewrite (list_set_perm h_tcs _ _ _ (mkHolder (h_tcs x ++ [(length (g_made g), rid)]) (S (h_size x))) (length (g_made g), rid) E eq_refl). apply Permutation_app_tail. exact W5.
Qed.
Lemma setThr_wf max g t p : wf max g -> (forall q, p = Some q -> match q with TInit _ => True | THas _ h | TTested _ h => h < length (g_heap g) end) -> wf max (setThr g t p).
Proof.
  intros (W1 & W2 & W3 & W4 & W5) P. repeat split; try assumption; try (eapply W1; eassumption). cbn [setThr g_thr g_heap]. intros t' p' A. destruct p as [q|].
  - rewrite (aget_aset Nat.eqb nat_eqb_spec) in A. destruct (Nat.eqb t' t); [injection A as <-; exact (P _ eq_refl)|exact (W3 _ _ A)].
  - rewrite (aget_adel Nat.eqb nat_eqb_spec) in A. destruct (Nat.eqb t' t); [discriminate A|exact (W3 _ _ A)].
Qed.
Lemma grow_wf max g : wf max g -> forall once thr dmp dumps r, thr = g_thr g ->
  wf max (mkG (g_heap g ++ [emptyHolder]) (Some (length (g_heap g))) once thr dmp (g_made g) dumps r).
Proof.
  intros (W1 & W2 & W3 & W4 & W5) once thr dmp dumps r ->. split; [|split; [|split; [|split]]]; cbn [g_heap g_cur g_thr g_made].
  - intros i x N. destruct (Nat.lt_ge_cases i (length (g_heap g))) as [L|L].
    + rewrite nth_error_app1 in N by exact L. exact (W1 _ _ N).
    + rewrite nth_error_app2 in N by exact L. destruct (i - length (g_heap g)) as [|[]]; try discriminate N. injection N as <-. cbn. lia.
  - intros h H. injection H as <-. rewrite app_length. cbn. lia.
  - intros t p A. specialize (W3 t p A). rewrite app_length. destruct p; [exact W3|lia|lia].
  - exact W4.
  - rewrite map_app, concat_app. cbn. rewrite app_nil_r. exact W5.
Qed.
Lemma step_wf max g o g' : gstep max g o = Some g' -> wf max g -> wf max g'.
Proof.
  intros E W. pose proof W as (W1 & W2 & W3 & W4 & W5). destruct o as [t rid|t|t|t|d|d|d]; cbn [gstep] in E.
  - destruct (aget Nat.eqb (g_thr g) t); [discriminate E|]. injection E as <-. apply setThr_wf; [|intros q H; injection H as <-; exact I]. destruct (g_once g); [exact W|]. apply grow_wf; [exact W|reflexivity].
  - destruct (aget Nat.eqb (g_thr g) t) as [[rid|rid h|rid h]|] eqn:A; try discriminate E. destruct (g_cur g) as [h|] eqn:C; [|discriminate E]. injection E as <-. apply setThr_wf; [exact W|]. intros q H. injection H as <-. exact (W2 _ eq_refl).
  - destruct (aget Nat.eqb (g_thr g) t) as [[rid|rid h|rid h]|] eqn:A; try discriminate E. destruct (nth_error (g_heap g) h) as [x|]; [|discriminate E]. destruct (h_size x <=? max); injection E as <-.
    + apply setThr_wf; [exact W|]. intros q H. injection H as <-. exact (W3 _ _ A).
    + apply setThr_wf; [|discriminate]. repeat split; try assumption; eapply W1; eassumption.
  - destruct (aget Nat.eqb (g_thr g) t) as [[rid|rid h|rid h]|] eqn:A; try discriminate E. injection E as <-. apply setThr_wf; [|discriminate]. apply locked_wf; [exact W|exact (W3 _ _ A)].
  - destruct (aget Nat.eqb (g_dmp g) d); [discriminate E|]. injection E as <-. repeat split; try assumption; eapply W1; eassumption.
  - destruct (aget Nat.eqb (g_dmp g) d) as [[h|h]|]; try discriminate E. injection E as <-. unfold setDmp. cbn. apply grow_wf; [exact W|reflexivity].
  - destruct (aget Nat.eqb (g_dmp g) d) as [[h|h]|]; try discriminate E. injection E as <-. repeat split; try assumption; eapply W1; eassumption.
Qed.
Lemma wf_init max : wf max ginit.
Proof. repeat split; cbn; try discriminate; try constructor; destruct h; discriminate. Qed.
Lemma runs_wf max os : forall g g', gruns max g os = Some g' -> wf max g -> wf max g'.
Proof.
  induction os as [|o os IH]; intros g g' E W; cbn [gruns] in E; [injection E as <-; exact W|]. destruct (gstep max g o) as [g1|] eqn:S; [|discriminate E]. exact (IH _ _ E (step_wf _ _ _ _ S W)).
Qed.
Lemma tcs_bound max g h : wf max g -> length (tcsOf g h) <= S max.
Proof. intros (W1 & _). unfold tcsOf. destruct h as [h|]; [|cbn; lia]. destruct (nth_error (g_heap g) h) as [x|] eqn:E; [|cbn; lia]. destruct (W1 _ _ E) as [A B]. lia. Qed.
Lemma dumps_bound max os : forall g g', gruns max g os = Some g' -> wf max g -> (forall d, In d (g_dumps g) -> length d <= S max) -> forall d, In d (g_dumps g') -> length d <= S max.
Proof.
  induction os as [|o os IH]; intros g g' E W D; cbn [gruns] in E; [injection E as <-; exact D|]. destruct (gstep max g o) as [g1|] eqn:S; [|discriminate E].
  apply (IH _ _ E (step_wf _ _ _ _ S W)). destruct o as [t rid|t|t|t|d|d|d]; cbn [gstep] in S.
  - destruct (aget Nat.eqb (g_thr g) t); [discriminate S|]. injection S as <-. destruct (g_once g); exact D.
  - destruct (aget Nat.eqb (g_thr g) t) as [[rid|rid h|rid h]|]; try discriminate S. destruct (g_cur g); [|discriminate S]. injection S as <-. exact D.
  - destruct (aget Nat.eqb (g_thr g) t) as [[rid|rid h|rid h]|]; try discriminate S. destruct (nth_error (g_heap g) h) as [x|]; [|discriminate S]. destruct (h_size x <=? max); injection S as <-; exact D.
  - destruct (aget Nat.eqb (g_thr g) t) as [[rid|rid h|rid h]|]; try discriminate S. injection S as <-. unfold locked. destruct (nth_error (g_heap g) h) as [x|]; [|exact D]. destruct (h_size x <=? max); exact D.
  - destruct (aget Nat.eqb (g_dmp g) d); [discriminate S|]. injection S as <-. exact D.
  - destruct (aget Nat.eqb (g_dmp g) d) as [[h|h]|]; try discriminate S. injection S as <-. exact D.
  - destruct (aget Nat.eqb (g_dmp g) d) as [[h|h]|]; try discriminate S. injection S as <-. cbn [setDmp g_dumps]. intros x X. apply in_app_or in X as [X|[<-|[]]]; [exact (D _ X)|]. apply tcs_bound. exact W.
Qed.

(* ------------------------------------------------------------ one dump at a time *)

Definition opts (ds : list (option nat)) : list nat := flat_map (fun o => match o with Some x => [x] | None => [] end) ds.
Definition ahead (g : gst) (ds : list (option nat)) (p : dpc) : Prop :=
  match p with
  | DRead h => forall x, h = Some x -> ~ In x (opts ds) /\ x < length (g_heap g)
  | DSet h => forall x, h = Some x -> ~ In x (opts ds) /\ x < length (g_heap g) /\ g_cur g <> Some x
  end.
Definition dinv (active : option nat) (g : gst) : Prop := exists ds,
  Forall2 (fun h d => exists k, tcsOf g h = d ++ k) ds (g_dumps g) /\ NoDup (opts ds) /\
  (forall x, In x (opts ds) -> g_cur g <> Some x /\ x < length (g_heap g)) /\
  (forall d p, aget Nat.eqb (g_dmp g) d = Some p -> active = Some d /\ ahead g ds p).
(* holders only grow *)
Definition grows (g g' : gst) : Prop := length (g_heap g) <= length (g_heap g') /\ (forall h, h < length (g_heap g) -> exists k, tcsOf g' (Some h) = tcsOf g (Some h) ++ k).
Lemma grows_same g g' : g_heap g' = g_heap g -> grows g g'.
Proof. intro E. split; [rewrite E; lia|]. intros h _. exists []. unfold tcsOf. rewrite E, app_nil_r. reflexivity. Qed.
Lemma grows_new g g' : g_heap g' = g_heap g ++ [emptyHolder] -> grows g g'.
Proof. intro E. split; [rewrite E, app_length; cbn; lia|]. intros h L. exists []. unfold tcsOf. rewrite E, app_nil_r, nth_error_app1 by exact L. reflexivity. Qed.
Lemma grows_locked max g rid h : grows g (locked max g rid h).
Proof.
  unfold locked. destruct (nth_error (g_heap g) h) as [x|] eqn:E; [|apply grows_same; reflexivity]. destruct (h_size x <=? max); [|apply grows_same; reflexivity].
  assert (L : h < length (g_heap g)) by (apply nth_error_Some; rewrite E; discriminate).
  split; cbn [g_heap]; [rewrite list_set_length; lia|]. intros i _. unfold tcsOf. cbn [g_heap]. rewrite (list_set_nth_error _ _ _ _ L). destruct (Nat.eqb i h) eqn:X; [|exists []; rewrite app_nil_r; reflexivity].
  apply Nat.eqb_eq in X. subst i. rewrite E. cbn [h_tcs]. eexists. reflexivity.
Qed.
Lemma f2_grows g g' ds dumps : grows g g' -> (forall x, In x (opts ds) -> x < length (g_heap g)) ->
  Forall2 (fun h d => exists k, tcsOf g h = d ++ k) ds dumps -> Forall2 (fun h d => exists k, tcsOf g' h = d ++ k) ds dumps.
Proof.
  intros [_ G] L F. induction F as [|h d ds dumps (k & E) F IH]; constructor.
  - destruct h as [h|]; [|exists k; exact E]. destruct (G h) as [k' E']; [apply L; cbn; auto|]. exists (k ++ k'). rewrite E', E, <- app_assoc. reflexivity.
  - apply IH. intros x X. apply L. cbn [opts flat_map]. apply in_or_app. right. exact X.
Qed.
Lemma dinv_move active g g' : dinv active g -> grows g g' -> g_dumps g' = g_dumps g -> g_dmp g' = g_dmp g ->
  (g_cur g' = g_cur g \/ g_cur g' = Some (length (g_heap g))) -> dinv active g'.
Proof.
  intros (ds & F & N & C & A) G D M U. exists ds. rewrite D, M. split; [|split; [exact N|split]].
  - apply (f2_grows g); [exact G|intros x X; apply C; exact X|exact F].
  - intros x X. destruct (C x X) as [C1 C2]. destruct G as [G _]. split; [|lia]. destruct U as [-> | ->]; [exact C1|]. intro Y. injection Y as Y. lia.
  - intros d p P. destruct (A d p P) as [A1 A2]. split; [exact A1|]. destruct G as [G _]. destruct p as [h|h]; cbn [ahead] in *; intros x X.
    + destruct (A2 x X) as [B1 B2]. split; [exact B1|lia].
    + destruct (A2 x X) as (B1 & B2 & B3). split; [exact B1|]. split; [lia|]. destruct U as [-> | ->]; [exact B3|]. intro Y. injection Y as Y. lia.
Qed.
Lemma runs_dinv max os : forall active g g', gruns max g os = Some g' -> oneDump active os -> wf max g -> dinv active g -> exists active', dinv active' g'.
Proof.
  induction os as [|o os IH]; intros active g g' E O W D; cbn [gruns] in E; [injection E as <-; exists active; exact D|]. destruct (gstep max g o) as [g1|] eqn:S; [|discriminate E].
  pose proof (step_wf _ _ _ _ S W) as W'. destruct o as [t rid|t|t|t|d|d|d]; cbn [oneDump] in O; cbn [gstep] in S.
  - apply (IH _ _ _ E O W'). destruct (aget Nat.eqb (g_thr g) t); [discriminate S|]. injection S as <-. apply (dinv_move _ g); [exact D| | | |]; unfold setThr; destruct (g_once g); cbn; auto; [apply grows_same; reflexivity|apply grows_new; reflexivity].
  - apply (IH _ _ _ E O W'). destruct (aget Nat.eqb (g_thr g) t) as [[rid|rid h|rid h]|]; try discriminate S. destruct (g_cur g) eqn:C; [|discriminate S]. injection S as <-. apply (dinv_move _ g); [exact D|apply grows_same; reflexivity|reflexivity|reflexivity|left; reflexivity].
  - apply (IH _ _ _ E O W'). destruct (aget Nat.eqb (g_thr g) t) as [[rid|rid h|rid h]|]; try discriminate S. destruct (nth_error (g_heap g) h) as [x|]; [|discriminate S]. destruct (h_size x <=? max); injection S as <-; (apply (dinv_move _ g); [exact D|apply grows_same; reflexivity|reflexivity|reflexivity|left; reflexivity]).
  - apply (IH _ _ _ E O W'). destruct (aget Nat.eqb (g_thr g) t) as [[rid|rid h|rid h]|]; try discriminate S. injection S as <-. apply (dinv_move _ g); [exact D| | | |]; unfold setThr; cbn [g_dumps g_dmp g_cur].
    + destruct (grows_locked max g rid h) as [G1 G2]. split; [exact G1|]. exact G2.
    + unfold locked. destruct (nth_error (g_heap g) h) as [x|]; [|reflexivity]. destruct (h_size x <=? max); reflexivity.
    + unfold locked. destruct (nth_error (g_heap g) h) as [x|]; [|reflexivity]. destruct (h_size x <=? max); reflexivity.
    + left. unfold locked. destruct (nth_error (g_heap g) h) as [x|]; [|reflexivity]. destruct (h_size x <=? max); reflexivity.
  - destruct O as [-> O]. apply (IH _ _ _ E O W'). destruct (aget Nat.eqb (g_dmp g) d); [discriminate S|]. injection S as <-. destruct D as (ds & F & N & C & A). exists ds. cbn [setDmp g_dumps g_dmp g_cur g_heap]. split; [exact F|]. split; [exact N|]. split; [exact C|].
    intros d' p P. rewrite (aget_aset Nat.eqb nat_eqb_spec) in P. destruct (Nat.eqb d' d) eqn:X; [|destruct (A _ _ P) as [Y _]; discriminate Y]. apply Nat.eqb_eq in X. subst d'. injection P as <-. split; [reflexivity|].
    cbn [ahead]. intros x X. split; [intro Y; apply C in Y as [Y _]; contradiction|]. destruct W as (_ & W2 & _). exact (W2 _ X).
  - apply (IH _ _ _ E O W'). destruct (aget Nat.eqb (g_dmp g) d) as [[h|h]|] eqn:P0; try discriminate S. injection S as <-. destruct D as (ds & F & N & C & A). exists ds. cbn [setDmp g_dumps g_dmp g_cur g_heap].
    split; [|split; [exact N|split]].
    + apply (f2_grows g); [apply grows_new; reflexivity|intros x X; apply C; exact X|exact F].
    + intros x X. destruct (C x X) as [C1 C2]. rewrite app_length. split; [|cbn; lia]. intro Y. injection Y as Y. lia.
    + intros d' p P. rewrite (aget_aset Nat.eqb nat_eqb_spec) in P. destruct (Nat.eqb d' d) eqn:X.
      * apply Nat.eqb_eq in X. subst d'. injection P as <-. destruct (A _ _ P0) as [A1 A2]. split; [exact A1|]. cbn [ahead] in *. intros x X. destruct (A2 x X) as [B1 B2]. cbn [setDmp g_heap g_cur]. rewrite app_length. split; [exact B1|]. split; [cbn; lia|]. intro Y. injection Y as Y. lia.
      * destruct (A _ _ P) as [A1 _], (A _ _ P0) as [A2 _]. rewrite A1 in A2. injection A2 as ->. rewrite Nat.eqb_refl in X. discriminate X.
  - destruct O as [-> O]. apply (IH _ _ _ E O W'). destruct (aget Nat.eqb (g_dmp g) d) as [[h|h]|] eqn:P0; try discriminate S. injection S as <-. destruct D as (ds & F & N & C & A). exists (ds ++ [h]). cbn [setDmp g_dumps g_dmp g_cur g_heap].
    destruct (A _ _ P0) as [_ A2]. cbn [ahead] in A2. assert (OE : opts (ds ++ [h]) = opts ds ++ match h with Some x => [x] | None => [] end) by (unfold opts; rewrite flat_map_app; cbn; rewrite app_nil_r; reflexivity). rewrite OE.
    split; [|split; [|split]].
    + apply Forall2_app; [exact F|]. constructor; [|constructor]. exists []. rewrite app_nil_r. reflexivity.
    + destruct h as [x|]; [|rewrite app_nil_r; exact N]. destruct (A2 x eq_refl) as (B1 & _). apply (Permutation_NoDup (Permutation_cons_append _ _)). constructor; assumption.
    + intros x X. apply in_app_or in X as [X|X]; [exact (C _ X)|]. destruct h as [y|]; [|destruct X]. destruct X as [<-|[]]. destruct (A2 y eq_refl) as (_ & B2 & B3). split; assumption.
    + intros d' p P. rewrite (aget_adel Nat.eqb nat_eqb_spec) in P. destruct (Nat.eqb d' d) eqn:X; [discriminate P|]. destruct (A _ _ P) as [Y _]. injection Y as ->. rewrite Nat.eqb_refl in X. discriminate X.
Qed.
Lemma heap_disjoint {A} (f : A -> list (nat * N)) l : NoDup (concat (map f l)) -> forall i j x y e, nth_error l i = Some x -> nth_error l j = Some y -> In e (f x) -> In e (f y) -> i = j.
Proof.
  induction l as [|a l IH]; intros N i j x y e Ei Ej Xi Xj; [destruct i; discriminate Ei|]. cbn [map concat] in N.
  assert (I : forall k z, nth_error l k = Some z -> In e (f z) -> In e (concat (map f l))) by (intros k z E Z; apply in_concat; exists (f z); split; [apply in_map; eapply nth_error_In; exact E|exact Z]).
  assert (Dj : In e (f a) -> ~ In e (concat (map f l))).
  { clear - N. induction (f a) as [|b r IH]; [intros []|]. cbn [app] in N. inversion N as [|? ? N1 N2]; subst. intros [->|X]; [intro Y; apply N1; apply in_or_app; right; exact Y|exact (IH N2 X)]. }
  destruct i as [|i], j as [|j]; cbn in Ei, Ej.
  - reflexivity.
  - injection Ei as ->. exfalso. exact (Dj Xi (I _ _ Ej Xj)).
  - injection Ej as ->. exfalso. exact (Dj Xj (I _ _ Ei Xi)).
  - f_equal. eapply IH; eauto. clear - N. induction (f a) as [|b r IHr]; [exact N|]. cbn [app] in N. inversion N; subst. auto.
Qed.
Lemma nodup_concat_one {A} (f : A -> list (nat * N)) l : NoDup (concat (map f l)) -> forall i x, nth_error l i = Some x -> NoDup (f x).
Proof.
  induction l as [|a l IH]; intros N i x E; [destruct i; discriminate E|]. cbn [map concat] in N. destruct i as [|i]; cbn in E.
  - injection E as ->. clear - N. induction (f x) as [|b r IH]; [constructor|]. cbn [app] in N. inversion N as [|? ? N1 N2]; subst. constructor; [intro X; apply N1; apply in_or_app; left; exact X|exact (IH N2)].
  - eapply IH; [|exact E]. clear - N. induction (f a) as [|b r IHr]; [exact N|]. cbn [app] in N. inversion N; subst. auto.
Qed.
Lemma heap_nodup max g : wf max g -> NoDup (concat (map h_tcs (g_heap g))).
Proof. intros (_ & _ & _ & W4 & W5). apply (Permutation_NoDup (Permutation_sym W5)). apply (NoDup_map_inv fst). rewrite W4. apply seq_NoDup. Qed.
Lemma dumped_once max g active : wf max g -> dinv active g -> NoDup (concat (g_dumps g)) /\ incl (concat (g_dumps g)) (g_made g).
Proof.
  intros W (ds & F & N & _). pose proof (heap_nodup _ _ W) as HN. destruct W as (_ & _ & _ & _ & W5). split.
  - revert N. induction F as [|h d ds dumps (k & E) F IH]; intro N; [constructor|]. cbn [concat].
    assert (N' : NoDup (opts ds)) by (destruct h; [inversion N; assumption|exact N]). specialize (IH N').
    destruct h as [h|]; cbn [tcsOf] in E; [|destruct d; [exact IH|discriminate E]]. destruct (nth_error (g_heap g) h) as [x|] eqn:X; [|destruct d; [exact IH|discriminate E]].
    pose proof (nodup_concat_one h_tcs _ HN _ _ X) as ND. rewrite E in ND.
    assert (DJ : forall e, In e d -> ~ In e (concat dumps)).
    { intros e I1 I2. assert (X1 : In e (h_tcs x)) by (rewrite E; apply in_or_app; left; exact I1). cbn [opts flat_map] in N. inversion N as [|? ? NI _]; subst. apply NI. clear - I2 F HN X X1.
      induction F as [|h' d' ds dumps (k' & E') F IH]; [destruct I2|]. cbn [concat] in I2. cbn [opts flat_map]. apply in_app_or in I2 as [I2|I2]; [|apply in_or_app; right; exact (IH I2)].
      destruct h' as [h'|]; cbn [tcsOf] in E'; [|destruct d'; [destruct I2|discriminate E']]. destruct (nth_error (g_heap g) h') as [y|] eqn:Y; [|destruct d'; [destruct I2|discriminate E']].
      left. apply (heap_disjoint h_tcs _ HN _ _ y x e Y X); [rewrite E'; apply in_or_app; left; exact I2|exact X1]. }
    clear - ND DJ IH. induction d as [|a d IHd]; [exact IH|]. cbn [app] in *. inversion ND as [|? ? N1 N2]; subst. constructor.
    + intro Y. apply in_app_or in Y as [Y|Y]; [apply N1; apply in_or_app; left; exact Y|]. exact (DJ a (or_introl eq_refl) Y).
    + apply IHd; [exact N2|]. intros e X. apply DJ. right. exact X.
  - intros e X. apply in_concat in X as (d & D1 & D2). apply (Permutation_in _ W5). clear - F D1 D2. induction F as [|h d' ds dumps (k & E) F IH]; [destruct D1|]. destruct D1 as [->|D1]; [|exact (IH D1)].
    destruct h as [h|]; cbn [tcsOf] in E; [|destruct d; [destruct D2|discriminate E]]. destruct (nth_error (g_heap g) h) as [x|] eqn:X; [|destruct d; [destruct D2|discriminate E]].
    apply in_concat. exists (h_tcs x). split; [apply in_map; eapply nth_error_In; exact X|]. rewrite E. apply in_or_app. left. exact D2.
Qed.

(* ------------------------------------------------------------ whole calls *)

Definition begun (g : gst) : gst :=
  if g_once g then g else mkG (g_heap g ++ [emptyHolder]) (Some (length (g_heap g))) true (g_thr g) (g_dmp g) (g_made g) (g_dumps g) (g_refused g).
Lemma call_trace max g t rid h x g1 : quiet g -> g_cur (begun g) = Some h -> nth_error (g_heap (begun g)) h = Some x ->
  gruns max g (callTrace t rid) = Some g1 \/ gruns max g (callTraceFull t rid) = Some g1 -> quiet g1 ->
  if h_size x <=? max
  then g1 = mkG (list_set (g_heap (begun g)) h (mkHolder (h_tcs x ++ [(length (g_made g), rid)]) (S (h_size x)))) (Some h) true [] [] (g_made g ++ [(length (g_made g), rid)]) (g_dumps g) (g_refused g)
  else g1 = mkG (g_heap (begun g)) (Some h) true [] [] (g_made g) (g_dumps g) (S (g_refused g)).
Proof.
  intros [Q1 Q2] C X E [Q3 _]. unfold callTrace, callTraceFull in E. cbn [gruns gstep] in E. cbv zeta in E. fold (begun g) in E. rewrite Q1 in E. cbn [aget] in E.
  assert (T : forall p, setThr (begun g) t (Some p) = mkG (g_heap (begun g)) (Some h) true [(t, p)] [] (g_made g) (g_dumps g) (g_refused g)).
  { intro p. unfold setThr. rewrite C. unfold begun. destruct (g_once g) eqn:O; cbn; rewrite Q1, Q2; [rewrite O|]; reflexivity. }
  rewrite T in E. cbn [g_thr aget g_cur] in E. rewrite Nat.eqb_refl in E. unfold setThr in E. cbn [g_heap g_cur g_once g_thr g_dmp g_made g_dumps g_refused aset] in E. rewrite Nat.eqb_refl in E. cbn [aget g_thr g_heap g_cur g_once g_dmp g_made g_dumps g_refused] in E. rewrite Nat.eqb_refl, X in E.
  destruct (h_size x <=? max) eqn:L; cbn [aget aset adel filter fst g_thr g_heap g_cur g_once g_dmp g_made g_dumps g_refused] in E; rewrite ?Nat.eqb_refl in E; cbn [aget aset adel filter fst negb g_thr g_heap g_cur g_once g_dmp g_made g_dumps g_refused] in E.
  - rewrite Nat.eqb_refl in E. destruct E as [E|E]; [|injection E as <-; discriminate Q3]. unfold locked in E. cbn [g_heap] in E. rewrite X, L in E. cbn [aget aset adel filter fst g_thr g_heap g_cur g_once g_dmp g_made g_dumps g_refused] in E. rewrite Nat.eqb_refl in E. injection E as <-. reflexivity.
  - destruct E as [E|E]; [discriminate E|]. injection E as <-. reflexivity.
Qed.
Lemma call_dump max g d g1 : quiet g -> gruns max g (callDump d) = Some g1 ->
  g1 = mkG (g_heap g ++ [emptyHolder]) (Some (length (g_heap g))) (g_once g) [] [] (g_made g) (g_dumps g ++ [tcsOf (mkG (g_heap g ++ [emptyHolder]) None false [] [] [] [] 0) (g_cur g)]) (g_refused g).
Proof.
  intros [Q1 Q2] E. unfold callDump in E. cbn [gruns gstep] in E. unfold setDmp in E.
  repeat (progress (cbn [aget aset adel filter fst negb g_dmp g_heap g_cur g_once g_thr g_made g_dumps g_refused] in E) || rewrite Nat.eqb_refl in E || rewrite Q2 in E).
  injection E as <-. rewrite Q1. reflexivity.
Qed.
Definition jinv (max : nat) (g : gst) : Prop :=
  quiet g /\ concat (g_dumps g) ++ held g = g_made g /\ (g_once g = false -> g_made g = []) /\ (g_once g = true -> g_cur g <> None) /\
  (forall h, g_cur g = Some h -> exists x, nth_error (g_heap g) h = Some x /\ h_size x = length (h_tcs x)).
Lemma step_jinv max g t rid g1 : jinv max g -> gruns max g (callTrace t rid) = Some g1 \/ gruns max g (callTraceFull t rid) = Some g1 -> quiet g1 ->
  jinv max g1 /\ if length (held g) <=? max then g_made g1 = g_made g ++ [(length (g_made g), rid)] /\ g_refused g1 = g_refused g
                 else g_made g1 = g_made g /\ g_refused g1 = S (g_refused g).
Proof.
  intros (Q & E & O1 & O2 & H) R Q1.
  assert (B : exists h x, g_cur (begun g) = Some h /\ nth_error (g_heap (begun g)) h = Some x /\ h_size x = length (h_tcs x) /\ h_tcs x = held g /\ h < length (g_heap (begun g))).
  { unfold begun. destruct (g_once g) eqn:O.
    - destruct (g_cur g) as [h|] eqn:C; [|exfalso; exact (O2 eq_refl eq_refl)]. destruct (H h eq_refl) as (x & X & S1). exists h, x. repeat split; try assumption. { unfold held, tcsOf. rewrite C, X. reflexivity. } apply nth_error_Some. rewrite X. discriminate.
    - rewrite (O1 eq_refl) in E. apply app_eq_nil in E as [_ E]. exists (length (g_heap g)), emptyHolder. cbn [g_cur g_heap]. repeat split; [rewrite nth_error_app2, Nat.sub_diag by lia; reflexivity|symmetry; exact E|rewrite app_length; cbn; lia]. }
  destruct B as (h & x & C & X & S1 & S2 & L). pose proof (call_trace max g t rid h x g1 Q C X R Q1) as P. rewrite S1, S2 in P.
  destruct (length (held g) <=? max); subst g1.
  - split; [|split; reflexivity]. split; [exact Q1|]. split; [|split; [discriminate|split; [discriminate|]]].
    + match goal with |- context [held (mkG ?a ?b ?c ?d ?e ?f ?g ?i)] => change (held (mkG a b c d e f g i)) with (tcsOf (mkG a b c d e f g i) b) end. unfold tcsOf. cbn [g_cur g_heap g_dumps g_made]. rewrite (list_set_nth_error _ _ _ _ L), Nat.eqb_refl. cbn [h_tcs]. rewrite app_assoc, E. reflexivity.
    + cbn [g_cur g_heap]. intros h' Y. injection Y as <-. eexists. split; [rewrite (list_set_nth_error _ _ _ _ L), Nat.eqb_refl; reflexivity|]. cbn [h_size h_tcs]. rewrite app_length. cbn. lia.
  - split; [|split; reflexivity]. split; [exact Q1|]. split; [|split; [discriminate|split; [discriminate|]]].
    + match goal with |- context [held (mkG ?a ?b ?c ?d ?e ?f ?g ?i)] => change (held (mkG a b c d e f g i)) with (tcsOf (mkG a b c d e f g i) b) end. unfold tcsOf. cbn [g_cur g_heap g_dumps g_made]. rewrite X, S2. exact E.
    + cbn [g_cur g_heap]. intros h' Y. injection Y as <-. exists x. split; assumption.
Qed.
Lemma dump_jinv max g d g1 : jinv max g -> gruns max g (callDump d) = Some g1 ->
  jinv max g1 /\ g_dumps g1 = g_dumps g ++ [held g] /\ held g1 = [] /\ g_made g1 = g_made g /\ g_refused g1 = g_refused g.
Proof.
  intros (Q & E & O1 & O2 & H) R. pose proof (call_dump _ _ _ _ Q R) as P.
  assert (T : tcsOf (mkG (g_heap g ++ [emptyHolder]) None false [] [] [] [] 0) (g_cur g) = held g).
  { unfold held, tcsOf. cbn [g_heap]. destruct (g_cur g) as [h|] eqn:C; [|reflexivity]. destruct (H h eq_refl) as (x & X & _). rewrite nth_error_app1; [reflexivity|]. apply nth_error_Some. rewrite X. discriminate. }
  rewrite T in P. subst g1. assert (HD : held (mkG (g_heap g ++ [emptyHolder]) (Some (length (g_heap g))) (g_once g) [] [] (g_made g) (g_dumps g ++ [held g]) (g_refused g)) = []).
  { match goal with |- context [held (mkG ?a ?b ?c ?d ?e ?f ?g ?i)] => change (held (mkG a b c d e f g i)) with (tcsOf (mkG a b c d e f g i) b) end. unfold tcsOf. cbn [g_cur g_heap]. rewrite nth_error_app2, Nat.sub_diag by lia. reflexivity. }
  split; [|repeat split; exact HD]. split; [split; reflexivity|]. rewrite HD. cbn [g_dumps g_made g_once g_cur g_heap]. split; [|split; [exact O1|split; [discriminate|]]].
  - rewrite concat_app, app_nil_r. cbn [concat]. rewrite app_nil_r. exact E.
  - intros h Y. injection Y as <-. exists emptyHolder. split; [rewrite nth_error_app2, Nat.sub_diag by lia; reflexivity|reflexivity].
Qed.
Lemma jinv_init max : jinv max ginit.
Proof. repeat split; cbn; try discriminate. Qed.
Lemma calls_jinv max g cs g' : calls max g cs g' -> jinv max g -> jinv max g' /\ length (g_made g') + g_refused g' = length (g_made g) + g_refused g + tracesAsked cs.
Proof.
  induction 1 as [g|g g1 g2 t rid cs R Q _ IH|g g1 g2 d cs R Q _ IH]; intro J.
  - split; [exact J|]. unfold tracesAsked. cbn. lia.
  - destruct (step_jinv _ _ _ _ _ J R Q) as [J1 M]. destruct (IH J1) as [J2 E]. split; [exact J2|]. unfold tracesAsked in *. cbn [filter length]. rewrite E. destruct (length (held g) <=? max); destruct M as [-> ->]; rewrite ?app_length; cbn [length]; lia.
  - destruct (dump_jinv _ _ _ _ J R) as (J1 & _ & _ & M1 & M2). destruct (IH J1) as [J2 E]. split; [exact J2|]. unfold tracesAsked in *. cbn [filter]. rewrite E, M1, M2. reflexivity.
Qed.

(* ------------------------------------------------------------ durations *)

Lemma req_gen l : forall before last m, Forall someday before -> Forall someday l ->
  (match latest [] before with Some p => last = sp_time p | None => last = 0%Z end) ->
  (forall a, a <> [] -> aget bs_eqb m a = option_map sp_time (latest a before)) ->
  reqDurations last m l = durations before l.
Proof.
  induction l as [|s l IH]; intros before la m FB FL HL HM; [reflexivity|]. inversion FL as [|? ? Fs FL']; subst. cbn [reqDurations durations].
  assert (PL : match latest [] before with Some p => (0 <? la)%Z = true | None => (0 <? la)%Z = false end).
  { destruct (latest [] before) as [p|] eqn:LP; rewrite HL; [|reflexivity]. apply Z.ltb_lt. assert (In p before); [|rewrite Forall_forall in FB; apply FB; assumption].
    clear - LP. induction before as [|b r IH]; [discriminate LP|]. cbn [latest] in LP. destruct (bs_eqb (sp_addr b) []); [injection LP as ->; left; reflexivity|right; exact (IH LP)]. }
  destruct (sp_addr s) as [|c a] eqn:EA; cbn [bs_empty].
  - f_equal.
    + unfold follows. rewrite EA. destruct (latest [] before) as [p|]; rewrite PL; [rewrite HL|]; reflexivity.
    + apply IH; [constructor; assumption|exact FL'| |].
      * cbn [latest]. rewrite EA. reflexivity.
      * intros a N. cbn [latest]. rewrite EA. destruct a; [contradiction|]. cbn [bs_eqb]. apply HM. exact N.
  - assert (N : c :: a <> []) by discriminate. f_equal.
    + rewrite (HM _ N). unfold follows. rewrite EA. destruct (latest (c :: a) before) as [p|]; cbn [option_map]; [reflexivity|]. destruct (latest [] before) as [p|]; rewrite PL; [rewrite HL|]; reflexivity.
    + apply IH; [constructor; assumption|exact FL'| |].
      * cbn [latest]. rewrite EA. cbn [bs_eqb]. exact HL.
      * intros b Nb. rewrite (aget_aset bs_eqb bs_eqb_spec). cbn [latest]. rewrite EA. rewrite (bs_eqb_sym b). destruct (bs_eqb (c :: a) b); [reflexivity|apply HM; exact Nb].
Qed.
Lemma wrap_small z : (-9223372036854775808 <= z < 9223372036854775808)%Z -> wrapI64 z = z.
Proof. intro H. unfold wrapI64. rewrite Z.mod_small by lia. lia. Qed.
Lemma lastTime_cons2 a b l : lastTime (a :: b :: l) = lastTime (b :: l).
Proof. reflexivity. Qed.
Lemma res_sum l : forall p, someday p -> Forall someday l -> sum (resDurations (sp_time p) l) = (lastTime (p :: l) - sp_time p)%Z.
Proof.
  induction l as [|s l IH]; intros p P F; [cbn; unfold lastTime; cbn; lia|]. inversion F as [|? ? Fs F']; subst. cbn [resDurations]. unfold sum. cbn [fold_right]. fold (sum (resDurations (sp_time s) l)).
  rewrite (IH s Fs F'), lastTime_cons2. destruct P as [P1 P2], Fs as [S1 S2]. replace (0 <? sp_time p)%Z with true by (symmetry; apply Z.ltb_lt; lia). rewrite wrap_small by lia. lia.
Qed.
Lemma res_times l : Forall someday l -> sum (resDurations 0 l) = (lastTime l - firstTime l)%Z.
Proof.
  destruct l as [|s l]; intro F; [reflexivity|]. inversion F as [|? ? Fs F']; subst. cbn [resDurations]. unfold sum. cbn [fold_right]. fold (sum (resDurations (sp_time s) l)). rewrite (res_sum l s Fs F'). cbn. unfold firstTime. lia.
Qed.

(* ------------------------------------------------------------ the policy *)

Lemma nested_restore os : nested os -> forall s, m_policy (mruns os s) = m_policy s /\ forall i, ~ In (MBegin i) os -> aget Nat.eqb (m_saved (mruns os s)) i = aget Nat.eqb (m_saved s) i.
Proof.
  induction 1 as [|i l r L IHL R IHR NI]; intro s; [split; [reflexivity|intros; reflexivity]|]. unfold mruns in *. cbn [fold_left]. rewrite fold_left_app. cbn [fold_left].
  set (s1 := mstep s (MBegin i)). destruct (IHL s1) as [_ K]. set (s2 := fold_left mstep l s1) in *. set (s3 := mstep s2 (MEnd i)). destruct (IHR s3) as [P3 K3].
  assert (P : m_policy s3 = m_policy s).
  { unfold s3. cbn [mstep m_policy]. rewrite (K i NI). unfold s1. cbn [mstep m_saved]. rewrite (aget_aset Nat.eqb nat_eqb_spec), Nat.eqb_refl. reflexivity. }
  split; [rewrite P3; exact P|]. intros j NJ. rewrite K3; [|intro X; apply NJ; right; apply in_or_app; right; right; exact X].
  unfold s3. cbn [mstep m_saved]. rewrite K; [|intro X; apply NJ; right; apply in_or_app; left; exact X]. unfold s1. cbn [mstep m_saved]. rewrite (aget_aset Nat.eqb nat_eqb_spec). destruct (Nat.eqb j i) eqn:X; [|reflexivity]. apply Nat.eqb_eq in X. subst j. exfalso. apply NJ. left. reflexivity.
Qed.
Lemma trace_dumps max g t rid g1 : jinv max g -> gruns max g (callTrace t rid) = Some g1 \/ gruns max g (callTraceFull t rid) = Some g1 -> quiet g1 -> g_dumps g1 = g_dumps g.
Proof.
  intros J R Q. assert (K : forall os g0 g2, gruns max g0 os = Some g2 -> Forall (fun o => match o with ODRead _ | ODSet _ | ODRet _ => False | _ => True end) os -> g_dumps g2 = g_dumps g0).
  { clear. induction os as [|o os IH]; intros g0 g2 E F; cbn [gruns] in E; [injection E as <-; reflexivity|]. inversion F as [|? ? Fo F']; subst. destruct (gstep max g0 o) as [g1|] eqn:S; [|discriminate E]. rewrite (IH _ _ E F').
    destruct o as [t rid|t|t|t|d|d|d]; cbn [gstep] in S; try contradiction.
    - destruct (aget Nat.eqb (g_thr g0) t); [discriminate S|]. injection S as <-. destruct (g_once g0); reflexivity.
    - destruct (aget Nat.eqb (g_thr g0) t) as [[rid|rid h|rid h]|]; try discriminate S. destruct (g_cur g0); [|discriminate S]. injection S as <-. reflexivity.
    - destruct (aget Nat.eqb (g_thr g0) t) as [[rid|rid h|rid h]|]; try discriminate S. destruct (nth_error (g_heap g0) h) as [x|]; [|discriminate S]. destruct (h_size x <=? max); injection S as <-; reflexivity.
    - destruct (aget Nat.eqb (g_thr g0) t) as [[rid|rid h|rid h]|]; try discriminate S. injection S as <-. unfold locked. destruct (nth_error (g_heap g0) h) as [x|]; [|reflexivity]. destruct (h_size x <=? max); reflexivity. }
  destruct R as [R|R]; apply (K _ _ _ R); repeat constructor.
Qed.
Lemma res_nth_from l1 : forall last a b l2, Forall someday (l1 ++ a :: b :: l2) ->
  nth_error (resDurations last (l1 ++ a :: b :: l2)) (S (length l1)) = Some (sp_time b - sp_time a)%Z.
Proof.
  induction l1 as [|s l1 IH]; intros la a b l2 F; cbn [app resDurations length nth_error] in *; inversion F as [|? ? Fs F']; subst.
  - inversion F' as [|? ? Fb _]; subst. destruct Fs as [A1 A2], Fb as [B1 B2]. replace (0 <? sp_time a)%Z with true by (symmetry; apply Z.ltb_lt; lia). rewrite wrap_small by lia. reflexivity.
  - apply IH. exact F'.
Qed.
Lemma res_nth l1 a b l2 : Forall someday (l1 ++ a :: b :: l2) -> nth_error (resDurations 0 (l1 ++ a :: b :: l2)) (S (length l1)) = Some (sp_time b - sp_time a)%Z.
Proof. apply res_nth_from. Qed.
Lemma last_someday l : l <> [] -> Forall someday l -> (0 < lastTime l < 9223372036854775808)%Z.
Proof.
  intros N F. destruct (exists_last N) as (l' & x & ->). unfold lastTime. rewrite last_last. apply Forall_app in F as [_ F]. inversion F; subst. assumption.
Qed.
Lemma sums_add req res a b c t : Forall someday req -> Forall someday res -> sums req res = Some (a, b, c, t) ->
  wrapI64 (a + c + b) = t /\ (t = lastTime res - firstTime req)%Z.
Proof.
  intros F G E. destruct req as [|x req]; [discriminate E|]. destruct res as [|y res]; [discriminate E|]. cbn [sums] in E. injection E as <- <- <- <-.
  pose proof (last_someday (x :: req) ltac:(discriminate) F) as L1. pose proof (last_someday (y :: res) ltac:(discriminate) G) as L2. inversion F as [|? ? [X1 X2] _]; subst. inversion G as [|? ? [Y1 Y2] _]; subst. cbn [firstTime].
  rewrite (wrap_small (lastTime (x :: req) - sp_time x)), (wrap_small (sp_time y - lastTime (x :: req))), (wrap_small (lastTime (y :: res) - sp_time y)), (wrap_small (lastTime (y :: res) - sp_time x)) by lia.
  split; [|reflexivity]. rewrite wrap_small by lia. lia.
Qed.
Lemma wanted_spec c get rnd : wanted c get rnd = true <->
  (ct_addr c = [] \/ exists x, get (s2b "host") = ct_addr c ++ x) /\ (ct_group c = [] \/ get (s2b "M_g") = ct_group c) /\
  (ct_path c = [] \/ get (s2b "M_p") = ct_path c) /\ (~ (0 < ct_ratio c < 100)%Z \/ (rnd < ct_ratio c)%Z).
Proof.
  unfold wanted.
  assert (A : negb (bs_empty (ct_addr c)) && negb (hasPrefix (get (s2b "host")) (ct_addr c)) = false <-> (ct_addr c = [] \/ exists x, get (s2b "host") = ct_addr c ++ x)).
  { rewrite <- hasPrefix_spec. destruct (ct_addr c), (hasPrefix (get (s2b "host")) _); cbn; intuition discriminate. }
  assert (B : forall g x, negb (bs_empty x) && negb (bs_eqb g x) = false <-> (x = [] \/ g = x)).
  { intros g x. destruct (bs_eqb g x) eqn:E; [apply bs_eqb_spec in E; subst; rewrite andb_false_r; tauto|]. apply bs_eqb_neq in E. destruct x; cbn; intuition discriminate. }
  assert (R : ((0 <? ct_ratio c) && (ct_ratio c <? 100) && (ct_ratio c <=? rnd))%Z = false <-> (~ (0 < ct_ratio c < 100)%Z \/ (rnd < ct_ratio c)%Z)).
  { rewrite !andb_false_iff, !Z.ltb_ge, Z.leb_gt. lia. }
  pose proof (B (get (s2b "M_g")) (ct_group c)) as BG. pose proof (B (get (s2b "M_p")) (ct_path c)) as BP.
  destruct (negb (bs_empty (ct_addr c)) && negb (hasPrefix (get (s2b "host")) (ct_addr c))); [split; [discriminate|intros (X & _); apply A in X; discriminate X]|].
  destruct (negb (bs_empty (ct_group c)) && negb (bs_eqb (get (s2b "M_g")) (ct_group c))); [split; [discriminate|intros (_ & X & _); apply BG in X; discriminate X]|].
  destruct (negb (bs_empty (ct_path c)) && negb (bs_eqb (get (s2b "M_p")) (ct_path c))); [split; [discriminate|intros (_ & _ & X & _); apply BP in X; discriminate X]|].
  destruct ((0 <? ct_ratio c) && (ct_ratio c <? 100) && (ct_ratio c <=? rnd))%Z; [split; [discriminate|intros (_ & _ & _ & X); apply R in X; discriminate X]|].
  split; [intros _|reflexivity]. split; [apply A; reflexivity|]. split; [apply BG; reflexivity|]. split; [apply BP; reflexivity|apply R; reflexivity].
Qed.
