(* LbProofs5.v: group weights, endpoint weights, consistent hashing *)
From Verif Require Import Base Lists BytesModel BytesProofs Strconv GoStrings LbModel LbSpec LbProofs LbProofs2 LbProofs3.
Ltac Zify.zify_post_hook ::= idtac.
Set Implicit Arguments. Unset Strict Implicit.

(* ------------------------------------------------------------ group weights *)

Definition names (g : bs) (e : bs) : bool := negb (bs_empty e) && bs_eqb (fst (entry_weight e)) g.

Lemma clamp z : (if (z <? 1)%Z then 1%Z else if (100 <? z)%Z then 100%Z else z) = Z.max 1 (Z.min 100 z).
Proof. destruct (Z.ltb_spec z 1); [lia|]. destruct (Z.ltb_spec 100 z); lia. Qed.

Lemma parseEntry_get gw w g : aget bs_eqb (fst (parseEntry gw w)) g = if names g w then Some (snd (entry_weight w)) else aget bs_eqb (fst gw) g.
Proof.
  unfold parseEntry, names, entry_weight, colon. destruct w as [|b w']; [reflexivity|]. cbn [bs_empty negb andb].
  destruct (splitOn x3a (b :: w')) as [|g0 [|v r]] eqn:Es; [exfalso; eapply splitOn_ne; exact Es| |]; cbn [fst snd].
  - rewrite (aget_aset bs_eqb bs_eqb_spec). destruct (bs_eqb g0 g) eqn:E1, (bs_eqb g g0) eqn:E2; try reflexivity.
    + apply bs_eqb_spec in E1. subst. rewrite bs_eqb_refl in E2. discriminate.
    + apply bs_eqb_spec in E2. subst. rewrite bs_eqb_refl in E1. discriminate.
  - rewrite (aget_aset bs_eqb bs_eqb_spec).
    assert (Ev : (match parseInt64 v with (z, NumOk) => if (z <? 1)%Z then 1%Z else if (100 <? z)%Z then 100%Z else z | _ => 1%Z end)
                 = match parseInt64 v with (z, NumOk) => Z.max 1 (Z.min 100 z) | _ => 1%Z end).
    { destruct (parseInt64 v) as [z []]; try reflexivity. apply clamp. }
    rewrite Ev. destruct (bs_eqb g0 g) eqn:E1, (bs_eqb g g0) eqn:E2; try reflexivity.
    + apply bs_eqb_spec in E1. subst. rewrite bs_eqb_refl in E2. discriminate.
    + apply bs_eqb_spec in E2. subst. rewrite bs_eqb_refl in E1. discriminate.
Qed.

Lemma parseEntry_mix gw w : snd (parseEntry gw w) = snd gw && negb (1 <? length (splitOn x3a w)).
Proof.
  unfold parseEntry, colon. destruct w as [|b w']; [cbn; rewrite andb_true_r; reflexivity|].
  destruct (splitOn x3a (b :: w')) as [|g0 [|v r]]; cbn [snd length]; rewrite ?andb_true_r, ?andb_false_r; reflexivity.
Qed.

Lemma parse_fold l : forall g, aget bs_eqb (fst (fold_left parseEntry l ([], true))) g =
  match find (names g) (rev l) with Some e => Some (snd (entry_weight e)) | None => None end.
Proof.
  induction l as [|w l IH] using rev_ind; intro g; [reflexivity|].
  rewrite fold_left_app. cbn [fold_left]. rewrite parseEntry_get, IH, rev_app_distr. cbn [rev app find]. destruct (names g w); reflexivity.
Qed.

Lemma parse_mix l : snd (fold_left parseEntry l ([], true)) = negb (existsb (fun e => 1 <? length (splitOn x3a e)) l).
Proof.
  induction l as [|w l IH] using rev_ind; [reflexivity|].
  rewrite fold_left_app. cbn [fold_left]. rewrite parseEntry_mix, IH, existsb_app. cbn [existsb]. rewrite orb_false_r, negb_orb. reflexivity.
Qed.

Lemma weight_of weight g : Z.to_N (match aget bs_eqb (fst (parseWeights weight)) g with Some z => z | None => 0%Z end) = group_weight weight g.
Proof.
  unfold parseWeights, comma, group_weight. rewrite parse_fold. change (fun e => _ && _) with (names g).
  destruct (find (names g) (rev (splitOn x2c weight))); reflexivity.
Qed.

Lemma selectGroup_run ring : ring <> [] -> forall m index,
  group_run ring index m = map (fun j => nth_error ring (N.to_nat ((index + 1 + N.of_nat j) mod 2 ^ 32 mod N.of_nat (length ring)))) (seq 0 m).
Proof.
  intro Hne. induction m as [|m IH]; intro index; [reflexivity|]. cbn [group_run].
  assert (Es : selectGroup ring index = (((index + 1) mod 2 ^ 32)%N, nth_error ring (N.to_nat ((index + 1) mod 2 ^ 32 mod N.of_nat (length ring)))))
    by (destruct ring; [congruence|reflexivity]).
  rewrite Es. cbn [seq map]. rewrite N.add_0_r. f_equal.
  rewrite IH, <- seq_shift, map_map. apply map_ext. intro j. f_equal. f_equal. f_equal.
  rewrite <- N.add_assoc, N.add_mod_idemp_l by discriminate. f_equal. lia.
Qed.

Lemma group_count (wi : bs -> nat) order g : NoDup order ->
  length (filter (fun x => bs_eqb x g) (concat (map (fun x => repeat x (wi x)) order))) = if existsb (fun x => bs_eqb x g) order then wi g else 0.
Proof.
  induction 1 as [|x r Hx Hr IH]; [reflexivity|]. cbn [map concat existsb]. rewrite filter_app, app_length, filter_repeat_len, IH.
  destruct (bs_eqb x g) eqn:E1; cbn [orb].
  - apply bs_eqb_spec in E1. subst x. destruct (existsb _ r) eqn:Ex; [|lia].
    apply existsb_exists in Ex as (y & Hy & Hye). apply bs_eqb_spec in Hye. subst y. contradiction.
  - reflexivity.
Qed.

Lemma concat_repeat_len {A} (wi : A -> N) order : length (concat (map (fun x => repeat x (N.to_nat (wi x))) order)) = N.to_nat (sumN (map wi order)).
Proof. induction order as [|x r IH]; [reflexivity|]. cbn [map concat]. rewrite app_length, repeat_length, IH, sumN_cons. lia. Qed.

Lemma sumN_perm l l' : Permutation l l' -> sumN l = sumN l'.
Proof. unfold sumN. induction 1; cbn [fold_right]; lia. Qed.

Lemma gcd_zero l : is_gcd 0 l <-> forall w, In w l -> w = 0%N.
Proof.
  split.
  - intros (A & _) w Hw. apply N.divide_0_l, A, Hw.
  - intro H. split; [intros w Hw; rewrite (H w Hw); apply N.divide_refl|]. intros d _. apply N.divide_0_r.
Qed.

Lemma groups_perm {E} (grp : E -> bs) eps o1 o2 : groups_of grp eps o1 -> groups_of grp eps o2 -> Permutation o1 o2.
Proof. intros (N1 & H1) (N2 & H2). apply NoDup_Permutation; auto. intro g. rewrite H1, H2. reflexivity. Qed.

Lemma onRefresh_spec {E} (grp : E -> bs) o1 o2 draws weight eps : groups_of grp eps o1 -> groups_of grp eps o2 ->
  if weighted weight then
    if existsb (fun g => negb (N.eqb (group_weight weight g) 0)) o1 then
      exists g ring, is_gcd g (map (group_weight weight) o1) /\ (0 < g)%N /\
        onRefresh grp o1 o2 draws weight eps = Some (Weighted ring (map (fun g => (g, groupEps grp eps g)) o1) 0) /\
        Permutation ring (concat (map (fun x => repeat x (N.to_nat (group_weight weight x / g))) o2))
    else onRefresh grp o1 o2 draws weight eps = None
  else onRefresh grp o1 o2 draws weight eps = Some (Single eps).
Proof.
  intros G1 G2. unfold onRefresh. destruct weight as [|b w'] eqn:Ew; [reflexivity|]. rewrite <- Ew. clear b w' Ew.
  assert (Em : snd (parseWeights weight) = negb (weighted weight)) by (unfold parseWeights, comma; apply parse_mix).
  pose proof (weight_of weight) as Ewi. destruct (parseWeights weight) as [gws mix]. cbn [fst snd] in *. subst mix.
  destruct (weighted weight); cbn [negb]; [|reflexivity].
  rewrite (map_ext _ _ Ewi).
  destruct (existsb _ o1) eqn:Ex.
  - apply existsb_exists in Ex as (g0 & Hg0 & Hw0). apply negb_true_iff, N.eqb_neq in Hw0.
    assert (Hne : map (group_weight weight) o1 <> []) by (destruct o1; [destruct Hg0|discriminate]).
    destruct (findGcd_ok Hne) as (g & -> & Hg).
    assert (Hgp : g <> 0%N).
    { intros ->. apply gcd_zero with (w := group_weight weight g0) in Hg; [contradiction|]. apply in_map, Hg0. }
    rewrite (proj2 (N.eqb_neq g 0) Hgp). eexists g, _. split; [exact Hg|]. split; [lia|]. split; [reflexivity|].
    rewrite shuffle_perm. apply Permutation_refl'. f_equal. apply map_ext. intro x. rewrite Ewi. reflexivity.
  - destruct o1 as [|g0 r] eqn:Eo; [reflexivity|]. rewrite <- Eo in *.
    assert (Hne : map (group_weight weight) o1 <> []) by (subst; discriminate).
    destruct (findGcd_ok Hne) as (g & -> & Hg).
    assert (g = 0%N) as ->; [|reflexivity].
    eapply is_gcd_unique; [exact Hg|]. apply gcd_zero. intros w Hw. apply in_map_iff in Hw as (x & <- & Hx).
    destruct (N.eq_dec (group_weight weight x) 0) as [|Hn]; [assumption|]. exfalso.
    assert (existsb (fun g => negb (N.eqb (group_weight weight g) 0)) o1 = true); [|congruence].
    apply existsb_exists. exists x. split; [exact Hx|]. apply negb_true_iff, N.eqb_neq, Hn.
Qed.

Lemma existsb_bs x o : existsb (fun y => bs_eqb y x) o = true <-> In x o.
Proof.
  rewrite existsb_exists. split.
  - intros (y & Hy & E). apply bs_eqb_spec in E. subst. exact Hy.
  - intro H. exists x. split; [exact H|apply bs_eqb_refl].
Qed.

Lemma group_exact {E} (grp : E -> bs) o1 o2 draws weight eps ring groups idx : groups_of grp eps o1 -> groups_of grp eps o2 ->
  onRefresh grp o1 o2 draws weight eps = Some (Weighted ring groups idx) ->
  exists g, is_gcd g (map (group_weight weight) o1) /\
  let W := N.to_nat (sumN (map (fun x => (group_weight weight x / g)%N) o1)) in
  forall index k, (index + N.of_nat (k * W) < 2 ^ 32)%N ->
    (forall x, In x o1 -> times_group x (group_run ring index (k * W)) = k * N.to_nat (group_weight weight x / g)) /\
    (forall o, In o (group_run ring index (k * W)) -> exists x, o = Some x /\ In x o1 /\ (0 < group_weight weight x)%N /\
        aget bs_eqb groups x = Some (filter (fun e => bs_eqb (grp e) x) eps)).
Proof.
  intros G1 G2 H. pose proof (onRefresh_spec draws weight G1 G2) as S. rewrite H in S.
  destruct (weighted weight); [|discriminate]. destruct (existsb _ o1) eqn:Ex; [|discriminate].
  destruct S as (g & ring' & Hg & Hgp & Eq & Hp).
  assert (Q : forall a b c a' b' c', Some (@Weighted E a b c) = Some (Weighted a' b' c') -> a = a' /\ b = b').
  { intros. injection H0. auto. }
  apply Q in Eq as (<- & ->). exists g. split; [exact Hg|]. intros W index k Hk.
  set (wi := fun x => (group_weight weight x / g)%N) in *.
  change (Permutation ring (concat (map (fun x => repeat x (N.to_nat (wi x))) o2))) in Hp.
  assert (Lr : length ring = W).
  { rewrite (Permutation_length Hp). unfold W. rewrite (concat_repeat_len wi o2). f_equal. apply sumN_perm, Permutation_map, (groups_perm G2 G1). }
  apply existsb_exists in Ex as (g0 & Hg0 & Hw0). apply negb_true_iff, N.eqb_neq in Hw0.
  assert (Hin0 : In (group_weight weight g0) (map (group_weight weight) o1)) by (apply in_map, Hg0).
  destruct (@gcd_div_pos g _ _ Hg Hin0) as (_ & _ & Hpos); [lia|].
  assert (Hring : forall x, In x ring -> In x o1 /\ (0 < group_weight weight x)%N).
  { intros x Hx. apply (Permutation_in _ Hp) in Hx. apply in_concat in Hx as (l & Hl & Hx). apply in_map_iff in Hl as (y & <- & Hy).
    assert (x = y) by (eapply repeat_spec, Hx). subst y. split; [apply (Permutation_in _ (groups_perm G2 G1)), Hy|].
    destruct (N.eq_dec (group_weight weight x) 0) as [E0|]; [|lia]. unfold wi in Hx. rewrite E0, N.div_0_l in Hx by lia. destruct Hx. }
  assert (Hn : 0 < length ring).
  { destruct ring as [|y r] eqn:Er; [|cbn; lia]. exfalso. apply Permutation_nil in Hp.
    assert (Hc : In g0 (concat (map (fun x => repeat x (N.to_nat (wi x))) o2))).
    { apply in_concat. exists (repeat g0 (N.to_nat (wi g0))). split; [apply in_map_iff; exists g0; split; [reflexivity|apply (Permutation_in _ (groups_perm G1 G2)), Hg0]|].
      assert (0 < N.to_nat (wi g0)) as L by (unfold wi; lia). destruct (N.to_nat (wi g0)); [lia|left; reflexivity]. }
    rewrite Hp in Hc. destruct Hc. }
  assert (Hne : ring <> []) by (intros ->; cbn in Hn; lia).
  rewrite selectGroup_run by exact Hne. split.
  - intros x Hx. unfold times_group. rewrite filter_map_length.
    set (f := fun p => match nth_error ring p with Some y => bs_eqb y x | None => false end).
    rewrite (filter_ext_len (g := fun j => f (N.to_nat ((index + 1 + N.of_nat j) mod N.of_nat (length ring))))).
    + rewrite <- Lr. rewrite (rounds_count f Hn). unfold f. rewrite filter_seq_nth, (filter_perm_len _ Hp).
      rewrite (group_count (fun x => N.to_nat (wi x)) x (proj1 G2)).
      rewrite (proj2 (existsb_bs x o2)) by (apply (Permutation_in _ (groups_perm G1 G2)), Hx). reflexivity.
    + intros j Hj. apply in_seq in Hj. rewrite (N.mod_small (index + 1 + N.of_nat j)) by lia. reflexivity.
  - intros o Ho. apply in_map_iff in Ho as (j & <- & _).
    set (p := N.to_nat _). assert (Lp : p < length ring) by (apply rr_in_range, Hn).
    destruct (nth_error ring p) as [x|] eqn:En; [|apply nth_error_None in En; lia].
    destruct (Hring x (nth_error_In _ _ En)) as (Hx1 & Hx2). exists x. split; [reflexivity|]. split; [exact Hx1|]. split; [exact Hx2|].
    clear - Hx1. induction o1 as [|y r IH]; [destruct Hx1|]. cbn [map aget]. destruct (bs_eqb x y) eqn:E1.
    + apply bs_eqb_spec in E1. subst. reflexivity.
    + destruct Hx1 as [->|Hx1]; [rewrite bs_eqb_refl in E1; discriminate|]. apply IH, Hx1.
Qed.

(* ------------------------------------------------------------ endpoint weights *)

Lemma adjust_bounds w d : (1 <= d <= 500)%Z -> (1 <= adjustWeight w d <= 500)%Z.
Proof.
  intro H. unfold adjustWeight. destruct w; [exact H|]. destruct (parseInt64 (b :: w)) as [z []]; try exact H.
  destruct (Z.ltb_spec z 1); [lia|]. destruct (Z.ltb_spec 500 z); lia.
Qed.

Lemma adjust_0 w : (0 <= adjustWeight w 0 <= 500)%Z.
Proof.
  unfold adjustWeight. destruct w; [lia|]. destruct (parseInt64 (b :: w)) as [z []]; try lia.
  destruct (Z.ltb_spec z 1); [lia|]. destruct (Z.ltb_spec 500 z); lia.
Qed.

(* ------------------------------------------------------------ consistent hashing *)

Definition ch_inv {E R L} (H : hashlib E R L) (s : chState E R L) : Prop :=
  match cRing s with
  | None => True
  | Some r => exists part replica load, h_new H (cEps s) part replica load = Some r
  end.

Lemma buildRetry_new {E R L} (H : hashlib E R L) k eps part replica load r load' :
  buildRetry H k eps part replica load = Some (r, load') -> h_new H eps part replica load' = Some r.
Proof.
  revert load. induction k as [|k IH]; intros load HB; [discriminate|]. cbn [buildRetry] in HB.
  destruct (h_new H eps part replica load) eqn:En; [injection HB as <- <-; exact En|eapply IH, HB].
Qed.

Lemma chRefresh_inv {E R L} (H : hashlib E R L) p l r s eps : ch_inv H s -> ch_inv H (chRefresh H p l r s eps).
Proof.
  intro HI. unfold chRefresh. destruct eps as [|e [|e' r']]; [|exact I|];
  match goal with |- context [buildRetry ?a ?b ?c ?d ?e ?f] => destruct (buildRetry a b c d e f) as [[ring load']|] eqn:EB end.
  - apply buildRetry_new in EB. cbn. eauto.
  - exact HI.
  - apply buildRetry_new in EB. cbn. eauto.
  - exact HI.
Qed.

Lemma ch_after_inv {E R L} (H : hashlib E R L) p l r hist : ch_inv H (ch_after H p l r hist).
Proof.
  unfold ch_after. assert (G : ch_inv H (@ch_fresh E R L)) by exact I. revert G. generalize (@ch_fresh E R L).
  induction hist as [|eps hist IH]; intros s G; [exact G|]. cbn [fold_left]. apply IH, chRefresh_inv, G.
Qed.

Lemma ch_single {E R L} (H : hashlib E R L) av r1 r2 (s : chState E R L) key e : cEps s = [e] -> chSelect H av r1 r2 s key = PEp 0 e.
Proof. intro Hs. unfold chSelect. rewrite Hs. reflexivity. Qed.

Lemma ch_multi {E R L} (H : hashlib E R L) av r1 r2 (s : chState E R L) key : length (cEps s) <> 1 ->
  chSelect H av r1 r2 s key =
  match key with
  | [] => selectOneAtRandom av r1 r2 (cEps s)
  | _ => match cRing s with
         | None => PPanic
         | Some r => match h_locate H r key with
                     | None => PPanic
                     | Some e => if av 0 e then PEp 0 e else selectOneAtRandom (fun t => av (S t)) r1 r2 (cEps s)
                     end
         end
  end.
Proof. intro Hs. unfold chSelect. destruct (cEps s) as [|e [|e' r]]; [reflexivity|cbn in Hs; lia|reflexivity]. Qed.

Lemma sound_ch {E} av (eps : list E) p : sound_pick av eps p -> ch_pick_ok av eps p.
Proof. destruct p; cbn; auto. intros (A & B). split; [eapply nth_error_In, A|exact B]. Qed.

Lemma ch_shift {E} av (eps : list E) p : ch_pick_ok (fun t => av (S t)) eps p -> ch_pick_ok av eps p.
Proof.
  destruct p as [i e| |]; cbn; auto.
  - intros (A & t & B). eauto.
  - intros A e He. destruct (A e He) as (t & Ht). eauto.
Qed.

Lemma ch_sound {E R L} (H : hashlib E R L) p l r hist av r1 r2 key : locates_members H ->
  let s := ch_after H p l r hist in
  length (cEps s) <> 1 -> (key <> [] -> cRing s <> None) -> ch_pick_ok av (cEps s) (chSelect H av r1 r2 s key).
Proof.
  intros HL s Hlen Hring. rewrite ch_multi by exact Hlen. pose proof (ch_after_inv H p l r hist : ch_inv H s) as HI. unfold ch_inv in HI.
  destruct key as [|b k]; [apply sound_ch, random_sound|].
  destruct (cRing s) as [ring|]; [|exfalso; apply Hring; [discriminate|reflexivity]].
  destruct HI as (part & replica & load & HN). destruct (HL _ _ _ _ _ (b :: k) HN) as (e & -> & Hin).
  destruct (av 0 e) eqn:Ea; [cbn; eauto|]. apply ch_shift, sound_ch, random_sound.
Qed.

Lemma ch_stable {E R L} (H : hashlib E R L) p l r hist key : locates_members H ->
  let s := ch_after H p l r hist in
  length (cEps s) <> 1 -> cRing s <> None -> key <> [] ->
  exists e, In e (cEps s) /\ forall av r1 r2, av 0 e = true -> exists i, chSelect H av r1 r2 s key = PEp i e.
Proof.
  intros HL s Hlen Hring Hkey. pose proof (ch_after_inv H p l r hist : ch_inv H s) as HI. unfold ch_inv in HI.
  destruct (cRing s) as [ring|] eqn:Er; [|congruence].
  destruct HI as (part & replica & load & HN). destruct (HL _ _ _ _ _ key HN) as (e & He & Hin).
  exists e. split; [exact Hin|]. intros av r1 r2 Ha. exists 0. rewrite ch_multi by exact Hlen. rewrite Er, He, Ha. destruct key; [congruence|reflexivity].
Qed.

(* a successful refresh installs the list *)
Lemma ch_installs {E R L} (H : hashlib E R L) p l r hist eps :
  (forall eps part replica load, eps <> [] -> exists ring, h_new H eps part replica load = Some ring) -> eps <> [] ->
  let s := ch_after H p l r (hist ++ [eps]) in cEps s = eps /\ (length eps <> 1 -> cRing s <> None).
Proof.
  intros HT Hne s. unfold s, ch_after. rewrite fold_left_app. cbn [fold_left]. generalize (fold_left (chRefresh H p l r) hist ch_fresh). intro st.
  unfold chRefresh. destruct eps as [|e [|e' r']] eqn:Ee; [congruence|split; [reflexivity|intro C; cbn in C; lia]|]. rewrite <- Ee in *.
  match goal with |- context [buildRetry ?a ?b ?c ?d ?e ?f] => assert (EB : exists x, buildRetry a b c d e f = Some x) end.
  { cbn [buildRetry]. match goal with |- context [h_new H eps ?a ?b ?c] => destruct (HT eps a b c) as (ring & ->); [subst; discriminate|] end. eauto. }
  destruct EB as ([ring load'] & ->). cbn. split; [reflexivity|discriminate].
Qed.

Definition holder_ok {E} (h : holder E) : Prop := (1 <= hStatic h <= 500)%Z /\ (0 <= hDyn h <= 500)%Z.
Lemma weight_step_ok {E} same static (hs : list (holder E)) o : Forall holder_ok hs -> Forall holder_ok (weight_step same static hs o).
Proof.
  intro H. destruct o as [eps dyn|i meta]; cbn [weight_step].
  - unfold refreshHolders. apply Forall_forall. intros h Hh. apply in_map_iff in Hh as (e & <- & _).
    destruct (find _ hs) as [h|] eqn:Ef.
    + apply find_some in Ef as (Hin & _). rewrite Forall_forall in H. apply H, Hin.
    + split; cbn; [apply adjust_bounds; unfold defaultEpWeight; lia|apply adjust_0].
  - destruct (nth_error hs i) as [h|] eqn:En; [|exact H]. rewrite Forall_forall in *. intros x Hx.
    apply In_nth_error in Hx as (q & Hq). rewrite nth_error_upd in Hq. destruct ((i =? q) && _).
    + injection Hq as <-. split; cbn; [apply (H h (nth_error_In _ _ En))|apply adjust_0].
    + apply H. eapply nth_error_In, Hq.
Qed.
Lemma weights_bounded {E} same static (ops : list (weight_op E)) h : In h (weights_after same static ops) -> (1 <= getWeight h <= 500)%Z.
Proof.
  intro Hh. assert (G : Forall holder_ok (weights_after same static ops)).
  { unfold weights_after. assert (G0 : Forall (@holder_ok E) []) by constructor. revert G0. generalize (@nil (holder E)).
    clear Hh. induction ops as [|o r IH]; intros hs G0; [exact G0|]. cbn [fold_left]. apply IH, weight_step_ok, G0. }
  rewrite Forall_forall in G. destruct (G h Hh) as (A & B). unfold getWeight. destruct (Z.ltb_spec 0 (hDyn h)); lia.
Qed.
Lemma weight_fresh {E} same static (dyn : E -> bs) eps e w : In e eps ->
  In e (map hEp (refreshHolders same static (fun x => dynamicWeight (dyn x)) [] eps)) /\
  (parseInt64 (static e) = (w, NumOk) -> static e <> [] -> dyn e = [] ->
   forall h, In h (refreshHolders same static (fun x => dynamicWeight (dyn x)) [] eps) -> hEp h = e -> getWeight h = Z.max 1 (Z.min 500 w)).
Proof.
  intro He. unfold refreshHolders. cbn [find]. split.
  - rewrite map_map. cbn. rewrite map_id. exact He.
  - intros Hp Hne Hd h Hh Heq. apply in_map_iff in Hh as (x & <- & _). cbn in Heq. subst x. unfold getWeight. cbn [hDyn hStatic].
    rewrite Hd. cbn [dynamicWeight adjustWeight]. cbn. unfold adjustWeight. rewrite Hp. destruct (static e); [congruence|].
    destruct (Z.ltb_spec w 1); [lia|]. destruct (Z.ltb_spec 500 w); lia.
Qed.

(* ---- the number of partitions *)
Definition part_ok {E R L} (H : hashlib E R L) (s : chState E R L) : Prop :=
  forall ring, cRing s = Some ring -> 2 * length (cEps s) <= cPart s /\ exists rep l, h_new H (cEps s) (cPart s) rep l = Some ring.
Lemma part_refresh {E R L} (H : hashlib E R L) p l r s eps : part_ok H s -> part_ok H (chRefresh H p l r s eps).
Proof.
  intros Hs. unfold chRefresh.
  assert (G : forall part load replica, 2 * length eps <= part ->
    part_ok H (match buildRetry H 21 eps part replica load with
               | None => mkCh (cEps s) (cRing s) (cPart s) (Some load) (Some replica)
               | Some (r, load') => mkCh eps (Some r) part (Some load') (Some replica)
               end)).
  { intros part load replica Hp. destruct (buildRetry H 21 eps part replica load) as [[rg l']|] eqn:Eb.
    - intros ring Er. injection Er as <-. cbn [cEps cPart]. split; [exact Hp|]. eexists. eexists. apply buildRetry_new in Eb. exact Eb.
    - exact Hs. }
  set (part0 := if cPart s =? 0 then p else cPart s).
  assert (Hp : 2 * length eps <= (if part0 <? length eps * 2 then length eps * 5 + 271 else part0)).
  { destruct (Nat.ltb_spec part0 (length eps * 2)); lia. }
  destruct eps as [|e [|e' t]]; [apply G; exact Hp| |apply G; exact Hp].
  intros ring Er. discriminate.
Qed.
Lemma part_after {E R L} (H : hashlib E R L) p l r hist : part_ok H (ch_after H p l r hist).
Proof.
  unfold ch_after. assert (G : forall s, part_ok H s -> part_ok H (fold_left (chRefresh H p l r) hist s)).
  { induction hist as [|eps hist IH]; intros s Hs; [exact Hs|]. cbn [fold_left]. apply IH, part_refresh, Hs. }
  apply G. intros ring Er. discriminate.
Qed.
Lemma part_kept {E R L} (H : hashlib E R L) p l r hist eps :
  cPart (ch_after H p l r hist) <> 0 -> 2 * length eps <= cPart (ch_after H p l r hist) ->
  cPart (ch_after H p l r (hist ++ [eps])) = cPart (ch_after H p l r hist).
Proof.
  unfold ch_after. rewrite fold_left_app. cbn [fold_left]. set (s := fold_left _ hist _). intros H0 H1. unfold chRefresh.
  assert (E0 : (if cPart s =? 0 then p else cPart s) = cPart s) by (destruct (Nat.eqb_spec (cPart s) 0); [contradiction|reflexivity]).
  rewrite E0. assert (E1 : (cPart s <? length eps * 2) = false) by (apply Nat.ltb_ge; lia). rewrite E1.
  destruct eps as [|e [|e' t]]; [destruct (buildRetry _ _ _ _ _ _) as [[? ?]|]; reflexivity|reflexivity|
                                 destruct (buildRetry _ _ _ _ _ _) as [[? ?]|]; reflexivity].
Qed.
