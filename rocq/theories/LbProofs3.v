(* LbProofs3.v: the weighted round robin selectors *)
From Verif Require Import Base Lists BytesModel BytesProofs Strconv GoStrings LbModel LbSpec LbProofs LbProofs2.
Ltac Zify.zify_post_hook ::= idtac.
Set Implicit Arguments. Unset Strict Implicit.

(* ------------------------------------------------------------ the int64 counter *)

Lemma addInt64_spec v d : int64 (addInt64 v d) /\ exists q, (addInt64 v d = v + d + q * 2 ^ 64)%Z.
Proof.
  unfold addInt64, toSigned, toUnsigned, int64. change (2 ^ Z.of_N 64)%Z with (2 ^ 64)%Z.
  pose proof (Z.div_mod (v + d) (2 ^ 64) ltac:(lia)) as D. pose proof (Z.mod_pos_bound (v + d) (2 ^ 64) ltac:(lia)) as B.
  set (u := ((v + d) mod 2 ^ 64)%Z) in *. rewrite Z2N.id by lia.
  change (2 ^ (64 - 1))%N with 9223372036854775808%N. change (2 ^ 64)%Z with 18446744073709551616%Z in *. change (2 ^ 63)%Z with 9223372036854775808%Z.
  destruct (N.ltb_spec (Z.to_N u) 9223372036854775808) as [L|L]; (split; [lia|]).
  - exists (- ((v + d) / 18446744073709551616))%Z. lia.
  - exists (- ((v + d) / 18446744073709551616) - 1)%Z. lia.
Qed.

Lemma nonneg_mod z : int64 z -> getNonNegative z = (z mod 2 ^ 63)%Z.
Proof.
  intro H. unfold int64 in H. unfold getNonNegative. destruct (Z.ltb_spec 0 z).
  - rewrite Z.mod_small by lia. reflexivity.
  - rewrite Z.land_comm. change 0x7fffffffffffffff%Z with (Z.ones 63). apply Z.land_ones. lia.
Qed.

Lemma addInt64_mod v d : (addInt64 v d mod 2 ^ 63 = (v + d) mod 2 ^ 63)%Z.
Proof.
  destruct (addInt64_spec v d) as (_ & q & ->). change (2 ^ 64)%Z with (2 * 2 ^ 63)%Z.
  rewrite Z.mul_assoc. apply Z.mod_add. lia.
Qed.

Lemma nonneg_add v d : getNonNegative (addInt64 v d) = ((v + d) mod 2 ^ 63)%Z.
Proof. rewrite nonneg_mod by apply addInt64_spec. apply addInt64_mod. Qed.

(* positions after j+1 increments *)
Lemma zmod_N x n : (0 <= x)%Z -> 0 < n -> zmod x n = N.to_nat (Z.to_N x mod N.of_nat n).
Proof.
  intros H Hn. unfold zmod. rewrite <- Z_N_nat. f_equal. rewrite Z2N.inj_mod by lia. f_equal. rewrite <- nat_N_Z. apply N2Z.id.
Qed.

Lemma zmod_lt x n : 0 < n -> zmod x n < n.
Proof. intro H. unfold zmod. pose proof (Z.mod_pos_bound x (Z.of_nat n) ltac:(lia)). lia. Qed.

(* a run of a selector whose j-th pick only depends on the counter *)
Lemma counter_positions s m n : 0 < n -> (s mod 2 ^ 63 + Z.of_nat m < 2 ^ 63)%Z -> forall j, j < m ->
  zmod ((s + 1 + Z.of_nat j) mod 2 ^ 63) n = N.to_nat ((Z.to_N (s mod 2 ^ 63 + 1) + N.of_nat j) mod N.of_nat n).
Proof.
  intros Hn Hs j Hj. pose proof (Z.mod_pos_bound s (2 ^ 63) ltac:(lia)).
  replace ((s + 1 + Z.of_nat j) mod 2 ^ 63)%Z with (s mod 2 ^ 63 + 1 + Z.of_nat j)%Z.
  - rewrite zmod_N by lia. f_equal. f_equal. lia.
  - replace (s + 1 + Z.of_nat j)%Z with (s + (1 + Z.of_nat j))%Z by lia. rewrite <- Z.add_mod_idemp_l by lia. rewrite (Z.mod_small (s mod 2 ^ 63 + (1 + Z.of_nat j))) by lia. lia.
Qed.

(* ------------------------------------------------------------ the round robin selector *)

Lemma rrsel_step {E} a (hs : list E) idx : hs <> [] ->
  wrrSelect a (SelRR hs idx) =
  (SelRR hs (addInt64 idx 1),
   match nth_error hs (zmod ((idx + 1) mod 2 ^ 63) (length hs)) with
   | None => PPanic
   | Some e => if a_av1 a 0 e then PEp (zmod ((idx + 1) mod 2 ^ 63) (length hs)) e
               else scanFrom (fun t => a_av1 a (S t)) hs (intn (a_r a) (length hs)) 0 (length hs)
   end).
Proof. intro H. unfold wrrSelect, rrDoSelect. rewrite nonneg_add. destruct hs; [congruence|reflexivity]. Qed.

Lemma zmod_counter v j n : zmod ((addInt64 v 1 + 1 + j) mod 2 ^ 63) n = zmod ((v + 1 + (1 + j)) mod 2 ^ 63) n.
Proof.
  f_equal. rewrite <- Z.add_assoc, <- Z.add_mod_idemp_l, addInt64_mod, Z.add_mod_idemp_l by lia.
  replace (v + 1 + (1 + j))%Z with (v + 1 + (1 + j))%Z by lia. reflexivity.
Qed.

Lemma rrsel_run {E} (hs : list E) : hs <> [] -> forall m rs idx,
  wrr_run (up_answers rs) (SelRR hs idx) m =
  map (fun j => pick_at hs (zmod ((idx + 1 + Z.of_nat j) mod 2 ^ 63) (length hs))) (seq 0 m).
Proof.
  intro Hne. induction m as [|m IH]; intros rs idx; [reflexivity|]. cbn [wrr_run]. rewrite rrsel_step by exact Hne.
  cbn [seq map]. f_equal.
  - unfold pick_at. rewrite Z.add_0_r. reflexivity.
  - change (fun j => up_answers rs (S j)) with (@up_answers E (fun j => rs (S j))). rewrite IH, <- seq_shift, map_map.
    apply map_ext. intro j. f_equal. rewrite zmod_counter. do 2 f_equal. lia.
Qed.

Lemma rrsel_exact {E} (hs : list E) rs s k : hs <> [] -> (s mod 2 ^ 63 + Z.of_nat (k * length hs) < 2 ^ 63)%Z ->
  Forall (picked_from hs) (wrr_run (up_answers rs) (SelRR hs s) (k * length hs)) /\
  forall i, i < length hs -> times i (wrr_run (up_answers rs) (SelRR hs s) (k * length hs)) = k.
Proof.
  intros Hne Hs. assert (Hn := ne_len Hne). rewrite rrsel_run by exact Hne. split.
  - apply Forall_forall. intros p Hp. apply in_map_iff in Hp as (j & <- & _). apply picked_pick_at, zmod_lt, Hn.
  - intros i Hi. rewrite times_pick_at by (intros; apply zmod_lt, Hn).
    rewrite (filter_ext_len (g := fun j => N.to_nat ((Z.to_N (s mod 2 ^ 63 + 1) + N.of_nat j) mod N.of_nat (length hs)) =? i)).
    + rewrite (rounds_count (fun p => p =? i) Hn). rewrite filter_seq_eq by exact Hi. lia.
    + intros j Hj. apply in_seq in Hj. rewrite (counter_positions Hn Hs) by lia. reflexivity.
Qed.

(* ------------------------------------------------------------ gcd *)

Lemma basegcd_ok f : forall n m, (N.to_nat m < f)%nat -> basegcd_ (S f) n m = Some (N.gcd n m).
Proof.
  induction f as [|f IH]; intros n m H; [lia|].
  change (basegcd_ (S (S f)) n m) with (if (N.eqb n 0 || N.eqb m 0)%bool then Some (m + n)%N else basegcd_ (S f) m (n mod m)).
  destruct (N.eqb_spec n 0) as [->|Hn]; cbn [orb].
  { rewrite N.gcd_0_l, N.add_0_r. reflexivity. }
  destruct (N.eqb_spec m 0) as [->|Hm].
  { rewrite N.gcd_0_r. reflexivity. }
  pose proof (N.mod_lt n m Hm).
  rewrite IH by lia. rewrite N.gcd_comm, N.gcd_mod by exact Hm. rewrite N.gcd_comm. reflexivity.
Qed.

Lemma findGcd_ok v : v <> [] -> exists g, findGcd v = Some g /\ is_gcd g v.
Proof.
  destruct v as [|x r]; [congruence|]. intros _. cbn [findGcd].
  assert (G : forall r g0 l, is_gcd g0 l -> exists g,
    fold_left (fun g y => match g with None => None | Some g => basegcd g y end) r (Some g0) = Some g /\ is_gcd g (l ++ r)).
  { induction r0 as [|y r0 IH]; intros g0 l Hg; cbn [fold_left].
    - exists g0. rewrite app_nil_r. auto.
    - unfold basegcd. rewrite basegcd_ok by lia.
      destruct (IH (N.gcd g0 y) (l ++ [y])) as (g & H1 & H2).
      + destruct Hg as (A & B). split.
        * intros w Hw. apply in_app_or in Hw as [Hw|[<-|[]]].
          -- eapply N.divide_trans; [apply N.gcd_divide_l|apply A, Hw].
          -- apply N.gcd_divide_r.
        * intros d Hd. apply N.gcd_greatest; [apply B; intros w Hw; apply Hd, in_or_app; left; exact Hw|].
          apply Hd, in_or_app. right. left. reflexivity.
      + exists g. split; [exact H1|]. rewrite <- app_assoc in H2. exact H2. }
  destruct (G r x [x]) as (g & H1 & H2).
  - split; [intros w [<-|[]]; apply N.divide_refl|]. intros d Hd. apply Hd. left. reflexivity.
  - exists g. auto.
Qed.

Lemma gcd_div_pos g l w : is_gcd g l -> In w l -> (0 < w)%N -> (0 < g)%N /\ (w = g * (w / g))%N /\ (0 < w / g)%N.
Proof.
  intros (A & _) Hin Hw. destruct (A w Hin) as (q & E). assert (g <> 0)%N by nia.
  assert (w / g = q)%N as -> by (rewrite E; apply N.div_mul; assumption). nia.
Qed.

Lemma is_gcd_unique g g' l : is_gcd g l -> is_gcd g' l -> g = g'.
Proof. intros (A & B) (A' & B'). apply N.divide_antisym; [apply B', A|apply B, A']. Qed.

(* ------------------------------------------------------------ the ring *)

Lemma n2b_small i : i < 256 -> N.to_nat (b2n (n2b (N.of_nat i))) = i.
Proof. intro H. rewrite b2n_n2b, N.mod_small by lia. lia. Qed.

Definition ringFrom (s : nat) (ws : list N) : list byte :=
  concat (map (fun iw => repeat (n2b (N.of_nat (fst iw))) (N.to_nat (snd iw))) (combine (seq s (length ws)) ws)).

Lemma ringFrom_cons s w ws : ringFrom s (w :: ws) = repeat (n2b (N.of_nat s)) (N.to_nat w) ++ ringFrom (S s) ws.
Proof. reflexivity. Qed.

Lemma filter_repeat_len {A} (f : A -> bool) x n : length (filter f (repeat x n)) = if f x then n else 0.
Proof. induction n; cbn; [destruct (f x); reflexivity|]. destruct (f x); cbn; lia. Qed.

Lemma ringFrom_count ws : forall s i, s + length ws <= 256 ->
  length (filter (fun b => N.to_nat (b2n b) =? i) (ringFrom s ws)) = if s <=? i then N.to_nat (nth (i - s) ws 0%N) else 0.
Proof.
  induction ws as [|w ws IH]; intros s i H.
  - cbn. destruct (s <=? i); [|reflexivity]. destruct (i - s); reflexivity.
  - rewrite ringFrom_cons, filter_app, app_length, filter_repeat_len, IH by (cbn in H; lia).
    cbn [length] in H. rewrite n2b_small by lia. destruct (Nat.eqb_spec s i) as [->|Hne].
    + rewrite (proj2 (Nat.leb_le i i)), (proj2 (Nat.leb_gt (S i) i)) by lia. rewrite Nat.sub_diag. cbn. lia.
    + destruct (Nat.leb_spec s i), (Nat.leb_spec (S s) i); try lia.
      replace (i - s) with (S (i - S s)) by lia. reflexivity.
Qed.

Lemma ringFrom_range ws : forall s, s + length ws <= 256 -> forall b, In b (ringFrom s ws) -> N.to_nat (b2n b) < s + length ws.
Proof.
  induction ws as [|w ws IH]; intros s H b Hb; [destruct Hb|]. rewrite ringFrom_cons in Hb. cbn [length] in *.
  apply in_app_or in Hb as [Hb|Hb].
  - apply repeat_spec in Hb as ->. rewrite n2b_small by lia. lia.
  - specialize (IH (S s) ltac:(lia) b Hb). lia.
Qed.

Lemma sumN_cons w ws : sumN (w :: ws) = (w + sumN ws)%N.
Proof. reflexivity. Qed.

Lemma ringFrom_length ws : forall s, length (ringFrom s ws) = N.to_nat (sumN ws).
Proof.
  induction ws as [|w ws IH]; intro s; [reflexivity|]. rewrite ringFrom_cons, app_length, repeat_length, IH, sumN_cons. lia.
Qed.

Lemma ringBytes_from ws : ringBytes ws = ringFrom 0 ws.
Proof. reflexivity. Qed.

(* the ring of an installed selector *)
Definition ring_ok {E} (hs : list E) (ring : list byte) : Prop :=
  ring <> [] /\ (forall b, In b ring -> N.to_nat (b2n b) < length hs) /\
  forall i, i < length hs -> exists b, In b ring /\ N.to_nat (b2n b) = i.

Lemma ringsel_step {E} a (hs : list E) ring idx : ring <> [] ->
  wrrSelect a (SelRing hs ring idx) =
  (SelRing hs ring (addInt64 idx 1),
   match nth_error ring (zmod ((idx + 1) mod 2 ^ 63) (length ring)) with
   | None => PPanic
   | Some b =>
       match nth_error hs (N.to_nat (b2n b)) with
       | None => PPanic
       | Some e => if a_av1 a 0 e then PEp (N.to_nat (b2n b)) e
                   else ringScan (fun t => a_av1 a (S t)) hs ring (intn (a_r a) (length ring)) 0 (length ring)
       end
   end).
Proof. intro H. unfold wrrSelect, ringDoSelect. rewrite nonneg_add. destruct ring; [congruence|reflexivity]. Qed.

Definition ring_at {E} (hs : list E) (ring : list byte) (p : nat) : pick E :=
  match nth_error ring p with Some b => pick_at hs (N.to_nat (b2n b)) | None => PPanic end.

Lemma ringsel_run {E} (hs : list E) ring : ring <> [] -> forall m rs idx,
  wrr_run (up_answers rs) (SelRing hs ring idx) m =
  map (fun j => ring_at hs ring (zmod ((idx + 1 + Z.of_nat j) mod 2 ^ 63) (length ring))) (seq 0 m).
Proof.
  intro Hne. induction m as [|m IH]; intros rs idx; [reflexivity|]. cbn [wrr_run]. rewrite ringsel_step by exact Hne.
  cbn [seq map]. f_equal.
  - unfold ring_at, pick_at. rewrite Z.add_0_r. reflexivity.
  - change (fun j => up_answers rs (S j)) with (@up_answers E (fun j => rs (S j))). rewrite IH, <- seq_shift, map_map.
    apply map_ext. intro j. f_equal. rewrite zmod_counter. do 2 f_equal. lia.
Qed.

Lemma ringsel_exact {E} (hs : list E) ring rs s k : ring <> [] -> (forall b, In b ring -> N.to_nat (b2n b) < length hs) ->
  (s mod 2 ^ 63 + Z.of_nat (k * length ring) < 2 ^ 63)%Z ->
  Forall (picked_from hs) (wrr_run (up_answers rs) (SelRing hs ring s) (k * length ring)) /\
  forall i, times i (wrr_run (up_answers rs) (SelRing hs ring s) (k * length ring)) = k * length (filter (fun b => N.to_nat (b2n b) =? i) ring).
Proof.
  intros Hne Hr Hs. assert (Hn := ne_len Hne). rewrite ringsel_run by exact Hne. split.
  - apply Forall_forall. intros p Hp. apply in_map_iff in Hp as (j & <- & _). unfold ring_at.
    destruct (nth_error ring _) as [b|] eqn:Eb.
    + apply picked_pick_at, Hr. eapply nth_error_In, Eb.
    + apply nth_error_None in Eb. pose proof (zmod_lt ((s + 1 + Z.of_nat j) mod 2 ^ 63) Hn). lia.
  - intro i. unfold times. rewrite filter_map_length.
    set (f := fun p => match nth_error ring p with Some b => N.to_nat (b2n b) =? i | None => false end).
    rewrite (filter_ext_len (g := fun j => f (N.to_nat ((Z.to_N (s mod 2 ^ 63 + 1) + N.of_nat j) mod N.of_nat (length ring))))).
    + rewrite (rounds_count f Hn). unfold f. rewrite filter_seq_nth. reflexivity.
    + intros j Hj. apply in_seq in Hj. rewrite (counter_positions Hn Hs) by lia.
      unfold f, ring_at. destruct (nth_error ring _) as [b|] eqn:Eb; [|reflexivity].
      unfold pick_at. destruct (nth_error hs _) eqn:Eh; [reflexivity|]. apply nth_error_None in Eh.
      assert (N.to_nat (b2n b) < length hs) by (eapply Hr, nth_error_In, Eb). lia.
Qed.

(* ------------------------------------------------------------ which selector *)

Lemma sumN_div_map g l : (g = 1)%N -> map (fun w => (w / g)%N) l = l.
Proof. intros ->. rewrite <- (map_id l) at 2. apply map_ext. intro. apply N.div_1_r. Qed.

Lemma allSame_spec w ws : allSame (w :: ws) = true -> forall x, In x (w :: ws) -> x = w.
Proof.
  cbn [allSame]. rewrite forallb_forall. intros H x [<-|Hx]; [reflexivity|]. symmetry. apply N.eqb_eq, H, Hx.
Qed.

Lemma notify_ring {E} draws cur (hs : list (E * N)) eps ring idx :
  (forall e w, In (e, w) hs -> (0 < w)%N) -> notifyWeightChange draws cur hs = Some (SelRing eps ring idx) ->
  eps = map fst hs /\ exists g, is_gcd g (map snd hs) /\ length hs <= 256 /\ (sumN (map (fun w => w / g) (map snd hs)) <= 5120)%N /\
    Permutation ring (ringBytes (map (fun w => (w / g)%N) (map snd hs))).
Proof.
  intros Hpos H. unfold notifyWeightChange in H. destruct (allSame (map snd hs)) eqn:Es.
  { destruct cur as [[]|]; discriminate. }
  assert (Hne : map snd hs <> []) by (destruct hs; [discriminate|discriminate]).
  destruct (findGcd_ok Hne) as (g & Hg & Hgcd). rewrite Hg in H.
  assert (Hgp : (0 < g)%N).
  { destruct hs as [|(e, w) r]; [destruct Hne; reflexivity|]. destruct (@gcd_div_pos g _ w Hgcd) as (P & _); [left; reflexivity|eapply Hpos; left; reflexivity|exact P]. }
  assert (Ews : (if (1 <? g)%N then map (fun w => (w / g)%N) (map snd hs) else map snd hs) = map (fun w => (w / g)%N) (map snd hs)).
  { destruct (N.ltb_spec 1 g); [reflexivity|]. symmetry. apply sumN_div_map. lia. }
  rewrite Ews in H. destruct (_ && _) eqn:Eb; [|discriminate]. apply andb_true_iff in Eb as (E1 & E2).
  apply Nat.leb_le in E1. apply N.leb_le in E2. unfold wrMaxEpSize, wrMaxTotalWeight in *. rewrite !map_length in E1.
  assert (Q : forall a b c a' b' c', Some (@SelRing E a b c) = Some (SelRing a' b' c') -> a = a' /\ b = b').
  { intros. injection H0. auto. }
  apply Q in H as (<- & <-). split; [reflexivity|]. exists g. split; [exact Hgcd|]. split; [exact E1|]. split; [exact E2|]. apply shuffle_perm.
Qed.

Lemma notify_rr {E} draws cur (hs : list (E * N)) eps idx : notifyWeightChange draws cur hs = Some (SelRR eps idx) ->
  eps = map fst hs /\ allSame (map snd hs) = true.
Proof.
  intro H. unfold notifyWeightChange in H. destruct (allSame (map snd hs)) eqn:Es.
  - destruct cur as [[]|]; injection H as <- <-; auto.
  - destruct (findGcd (map snd hs)); [|discriminate]. destruct (_ && _); discriminate.
Qed.

Lemma is_gcd_same w ws : (forall x, In x (w :: ws) -> x = w) -> is_gcd w (w :: ws).
Proof. intro H. split; [intros x Hx; rewrite (H x Hx); apply N.divide_refl|]. intros d Hd. apply Hd. left. reflexivity. Qed.

Lemma sumN_ones l : (forall x, In x l -> x = 1%N) -> N.to_nat (sumN l) = length l.
Proof.
  induction l as [|x r IH]; intro H; [reflexivity|]. rewrite sumN_cons. cbn [length].
  rewrite (H x) by (left; reflexivity). rewrite N2Nat.inj_add, IH; [reflexivity|]. intros; apply H; right; assumption.
Qed.


Lemma wrr_exact {E} draws cur (hs : list (E * N)) sel : hs <> [] -> (forall e w, In (e, w) hs -> (0 < w)%N) ->
  notifyWeightChange draws cur hs = Some sel -> is_window sel = false ->
  exists g, is_gcd g (map snd hs) /\
  let W := N.to_nat (sumN (map (fun w => (w / g)%N) (map snd hs))) in
  forall rs s k, (s mod 2 ^ 63 + Z.of_nat (k * W) < 2 ^ 63)%Z ->
  Forall (picked_from (map fst hs)) (wrr_run (up_answers rs) (with_counter sel s) (k * W)) /\
  forall i e w, nth_error hs i = Some (e, w) -> times i (wrr_run (up_answers rs) (with_counter sel s) (k * W)) = k * N.to_nat (w / g).
Proof.
  intros Hne Hpos H Hw. destruct sel as [eps idx|eps ring idx|]; [| |discriminate].
  - apply notify_rr in H as (-> & Hs). destruct hs as [|(e0, w0) r] eqn:Eh; [congruence|]. rewrite <- Eh in *.
    assert (Ew : map snd hs = w0 :: map snd r) by (subst; reflexivity).
    rewrite Ew in *. pose proof (allSame_spec Hs) as Hall. exists w0. split; [apply is_gcd_same, Hall|]. intro W.
    assert (Hp0 : (0 < w0)%N) by (apply (Hpos e0); subst; left; reflexivity).
    assert (EW : W = length (map fst hs)).
    { unfold W. rewrite sumN_ones.
      - rewrite map_length, <- Ew, !map_length. reflexivity.
      - intros x Hx. apply in_map_iff in Hx as (y & <- & Hy). rewrite (Hall y Hy). apply N.div_same. lia. }
    intros rs s k Hk. cbn [with_counter]. rewrite EW in *.
    assert (Hne' : map fst hs <> []) by (destruct hs; [congruence|discriminate]).
    destruct (rrsel_exact rs Hne' Hk) as (A & B). split; [exact A|]. intros i e w Hi. rewrite B.
    + assert (w = w0) as -> by (apply Hall; rewrite <- Ew; apply in_map_iff; exists (e, w); split; [reflexivity|eapply nth_error_In, Hi]).
      rewrite N.div_same by lia. lia.
    + rewrite map_length. apply nth_error_Some. congruence.
  - destruct (notify_ring Hpos H) as (-> & g & Hg & Hl & Hs & Hp). exists g. split; [exact Hg|]. intro W.
    set (ws := map (fun w => (w / g)%N) (map snd hs)) in *.
    assert (Lw : length ws = length hs) by (unfold ws; rewrite !map_length; reflexivity).
    assert (Lr : length ring = W) by (rewrite (Permutation_length Hp), ringBytes_from, ringFrom_length; reflexivity).
    assert (HW : 0 < W).
    { destruct hs as [|(e0, w0) r] eqn:Eh; [congruence|].
      destruct (@gcd_div_pos g _ w0 Hg) as (_ & _ & P); [left; reflexivity|eapply Hpos; left; reflexivity|].
      unfold W, ws. cbn [map snd]. rewrite sumN_cons. lia. }
    assert (Hrn : ring <> []) by (intros ->; cbn in Lr; lia).
    assert (Hrange : forall b, In b ring -> N.to_nat (b2n b) < length (map fst hs)).
    { intros b Hb. apply (Permutation_in _ Hp) in Hb. rewrite ringBytes_from in Hb. apply ringFrom_range in Hb; [|lia]. rewrite map_length. lia. }
    intros rs s k Hk. cbn [with_counter]. rewrite <- Lr in Hk |- *. destruct (ringsel_exact rs Hrn Hrange Hk) as (A & B). split; [exact A|].
    intros i e w Hi. rewrite B. f_equal. rewrite (filter_perm_len _ Hp), ringBytes_from, ringFrom_count by lia.
    cbn [Nat.leb]. rewrite Nat.sub_0_r. f_equal. unfold ws. apply nth_error_nth. rewrite !nth_error_map, Hi. reflexivity.
Qed.

(* ------------------------------------------------------------ soundness of the weighted selectors under any availability *)

Lemma ringScan_spec {E} av (hs : list E) ring start k : ring <> [] -> (forall b, In b ring -> N.to_nat (b2n b) < length hs) -> forall idx,
  match ringScan av hs ring start idx k with
  | PEp i e => nth_error hs i = Some e /\ exists t, av t e = true
  | PNil => forall j, idx <= j < idx + k -> exists b e, nth_error ring ((start + j) mod length ring) = Some b /\ nth_error hs (N.to_nat (b2n b)) = Some e /\ av j e = false
  | PPanic => False
  end.
Proof.
  intros Hne Hr. induction k as [|k IH]; intro idx; cbn [ringScan]; [intros; lia|].
  destruct (nth_mod (start + idx) Hne) as (b & Hb). rewrite Hb.
  assert (Lb : N.to_nat (b2n b) < length hs) by (eapply Hr, nth_error_In, Hb).
  destruct (nth_error hs (N.to_nat (b2n b))) as [e|] eqn:Ee; [|apply nth_error_None in Ee; lia].
  destruct (av idx e) eqn:Ea; [split; eauto|]. specialize (IH (S idx)).
  destruct (ringScan av hs ring start (S idx) k) as [i e'| |]; [exact IH| |exact IH].
  intros j Hj. destruct (Nat.eq_dec j idx) as [->|]; [eauto|]. apply IH. lia.
Qed.

Lemma rrsel_sound {E} a (hs : list E) idx : hs <> [] -> sound_pick (a_av1 a) hs (snd (wrrSelect a (SelRR hs idx))).
Proof.
  intro Hne. assert (Hn := ne_len Hne). rewrite rrsel_step by exact Hne. cbn [snd].
  pose proof (zmod_lt ((idx + 1) mod 2 ^ 63) Hn) as L. set (i := zmod _ _) in *.
  destruct (nth_error hs i) as [e|] eqn:Ee; [|apply nth_error_None in Ee; lia].
  destruct (a_av1 a 0 e) eqn:Ea; [cbn; eauto|]. apply sound_shift, scan_sound, Hne.
Qed.

Lemma ringsel_sound {E} a (hs : list E) ring idx : ring_ok hs ring -> sound_pick (a_av1 a) hs (snd (wrrSelect a (SelRing hs ring idx))).
Proof.
  intros (Hne & Hr & Hc). assert (Hn := ne_len Hne). rewrite ringsel_step by exact Hne. cbn [snd].
  pose proof (zmod_lt ((idx + 1) mod 2 ^ 63) Hn) as L. set (p := zmod _ _) in *.
  destruct (nth_error ring p) as [b|] eqn:Eb; [|apply nth_error_None in Eb; lia].
  assert (Lb : N.to_nat (b2n b) < length hs) by (eapply Hr, nth_error_In, Eb).
  destruct (nth_error hs (N.to_nat (b2n b))) as [e|] eqn:Ee; [|apply nth_error_None in Ee; lia].
  destruct (a_av1 a 0 e) eqn:Ea; [cbn; eauto|]. apply sound_shift.
  pose proof (@ringScan_spec E (fun t => a_av1 a (S t)) hs ring (intn (a_r a) (length ring)) (length ring) Hne Hr 0) as S.
  destruct (ringScan _ hs ring _ 0 (length ring)) as [i e'| |]; cbn [sound_pick]; [exact S| |exact S].
  intros x Hx. apply In_nth_error in Hx as (q & Hq). assert (Lq : q < length hs) by (apply nth_error_Some; congruence).
  destruct (Hc q Lq) as (c & Hc1 & Hc2). apply In_nth_error in Hc1 as (p' & Hp').
  assert (Lp' : p' < length ring) by (apply nth_error_Some; congruence).
  destruct (@covers (length ring) (intn (a_r a) (length ring)) p' Lp') as (j & Hj & Hm).
  destruct (S j ltac:(lia)) as (b' & e' & H1 & H2 & H3). rewrite Hm, Hp' in H1. injection H1 as <-. rewrite Hc2, Hq in H2. injection H2 as <-. eauto.
Qed.
