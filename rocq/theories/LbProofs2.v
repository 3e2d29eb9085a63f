(* LbProofs2.v: fairness of the counter based selectors *)
From Verif Require Import Base Lists BytesModel BytesProofs Strconv GoStrings LbModel LbSpec LbProofs.
Ltac Zify.zify_post_hook ::= idtac.
Set Implicit Arguments. Unset Strict Implicit.

Lemma filter_map_length {A B} (g : B -> bool) (f : A -> B) l : length (filter g (map f l)) = length (filter (fun x => g (f x)) l).
Proof. induction l as [|x r IH]; [reflexivity|]. cbn [map filter]. destruct (g (f x)); cbn [length]; lia. Qed.

Lemma filter_ext_len {A} (f g : A -> bool) l : (forall x, In x l -> f x = g x) -> length (filter f l) = length (filter g l).
Proof.
  intro H. induction l as [|x r IH]; [reflexivity|]. cbn [filter]. rewrite (H x) by (left; reflexivity).
  assert (length (filter f r) = length (filter g r)) by (apply IH; intros; apply H; right; assumption).
  destruct (g x); cbn [length]; lia.
Qed.

Lemma filter_perm_len {A} (f : A -> bool) l l' : Permutation l l' -> length (filter f l) = length (filter f l').
Proof. induction 1; cbn [filter]; try congruence; [destruct (f x)|destruct (f x), (f y)]; cbn [length]; congruence. Qed.

Lemma seq_app_shift a n m : seq a (n + m) = seq a n ++ map (fun j => n + j) (seq a m).
Proof.
  rewrite seq_app. f_equal. revert a. induction m as [|m IH]; intro a; [reflexivity|]. cbn [seq map]. f_equal; [lia|].
  rewrite <- IH. reflexivity.
Qed.

(* over k rounds every position is visited k times *)
Lemma rounds_count n (f : nat -> bool) : 0 < n -> forall k a,
  length (filter (fun j => f (N.to_nat ((a + N.of_nat j) mod N.of_nat n))) (seq 0 (k * n))) = k * length (filter f (seq 0 n)).
Proof.
  intro Hn. induction k as [|k IH]; intro a; [reflexivity|].
  change (S k * n) with (n + k * n). rewrite seq_app_shift, filter_app, app_length, filter_map_length.
  rewrite (filter_ext_len (f := fun j => f (N.to_nat ((a + N.of_nat (n + j)) mod N.of_nat n))) (g := fun j => f (N.to_nat ((a + N.of_nat n + N.of_nat j) mod N.of_nat n)))) by (intros j _; replace (a + N.of_nat (n + j))%N with (a + N.of_nat n + N.of_nat j)%N by lia; reflexivity).
  rewrite IH. rewrite <- (filter_map_length f (fun j => N.to_nat ((a + N.of_nat j) mod N.of_nat n))).
  rewrite (filter_perm_len f (positions_perm a Hn)). lia.
Qed.

Lemma filter_seq_nth {A} (g : A -> bool) l :
  length (filter (fun p => match nth_error l p with Some x => g x | None => false end) (seq 0 (length l))) = length (filter g l).
Proof.
  induction l as [|x r IH]; [reflexivity|]. cbn [length seq filter nth_error]. rewrite <- seq_shift.
  destruct (g x); cbn [length]; rewrite filter_map_length; cbn [nth_error]; rewrite IH; reflexivity.
Qed.

Lemma filter_seq_eq i n : i < n -> length (filter (fun p => p =? i) (seq 0 n)) = 1.
Proof.
  intro H. replace n with (i + (1 + (n - i - 1))) by lia. rewrite seq_app_shift, filter_app, app_length, filter_map_length. cbn [plus seq filter].
  rewrite (proj2 (Nat.eqb_eq (i + 0) i)) by lia. cbn [length].
  assert (G : forall (f : nat -> bool) l, (forall x, In x l -> f x = false) -> length (filter f l) = 0).
  { intros f l HH. induction l as [|x r IH]; [reflexivity|]. cbn [filter]. rewrite HH by (left; reflexivity). apply IH. intros; apply HH; right; assumption. }
  rewrite G, G; [reflexivity| |]; intros x Hx; apply in_seq in Hx; apply Nat.eqb_neq; lia.
Qed.

(* ------------------------------------------------------------ round robin *)

Definition pick_at {E} (eps : list E) (i : nat) : pick E := match nth_error eps i with Some e => PEp i e | None => PPanic end.

Lemma times_pick_at {E} i (eps : list E) (g : nat -> nat) l : (forall j, In j l -> g j < length eps) ->
  times i (map (fun j => pick_at eps (g j)) l) = length (filter (fun j => g j =? i) l).
Proof.
  intro H. unfold times. rewrite filter_map_length. apply filter_ext_len. intros j Hj. unfold pick_at.
  destruct (nth_error eps (g j)) eqn:E1; [reflexivity|]. apply nth_error_None in E1. specialize (H j Hj). lia.
Qed.

Lemma picked_pick_at {E} (eps : list E) i : i < length eps -> picked_from eps (pick_at eps i).
Proof.
  intro H. unfold pick_at. destruct (nth_error eps i) as [e|] eqn:E1; [exists i, e; auto|]. apply nth_error_None in E1. lia.
Qed.

Lemma rr_step {E} av r1 r2 index (eps : list E) : eps <> [] ->
  roundrobinSelect av r1 r2 index eps =
  (((index + 1) mod 2 ^ 32)%N,
   match nth_error eps (N.to_nat ((index + 1) mod 2 ^ 32 mod N.of_nat (length eps))) with
   | None => PPanic
   | Some e => if av 0 e then PEp (N.to_nat ((index + 1) mod 2 ^ 32 mod N.of_nat (length eps))) e
               else selectOneAtRandom (fun t => av (S t)) r1 r2 eps
   end).
Proof. destruct eps; [congruence|reflexivity]. Qed.

Lemma rr_run_up {E} (eps : list E) : eps <> [] -> forall m rs index,
  rr_run all_up rs index eps m =
  map (fun j => pick_at eps (N.to_nat ((index + 1 + N.of_nat j) mod 2 ^ 32 mod N.of_nat (length eps)))) (seq 0 m).
Proof.
  intro Hne. induction m as [|m IH]; intros rs index; [reflexivity|]. cbn [rr_run].
  rewrite rr_step by exact Hne.
  cbn [seq map]. rewrite N.add_0_r. f_equal.
  change (fun j => all_up (S j)) with (@all_up E). rewrite IH, <- seq_shift, map_map. apply map_ext. intro j.
    do 2 f_equal. f_equal. rewrite <- N.add_assoc, N.add_mod_idemp_l by discriminate. f_equal. lia.
Qed.

Lemma rr_in_range (x : N) n : 0 < n -> N.to_nat (x mod N.of_nat n) < n.
Proof. intro H. pose proof (N.mod_lt x (N.of_nat n) ltac:(lia)). lia. Qed.

Lemma rr_picks_ok {E} (eps : list E) rs index m : eps <> [] -> Forall (picked_from eps) (rr_run all_up rs index eps m).
Proof.
  intro Hne. rewrite rr_run_up by exact Hne. apply Forall_forall. intros p Hp. apply in_map_iff in Hp as (j & <- & _).
  apply picked_pick_at, rr_in_range. destruct eps; [congruence|cbn; lia].
Qed.

Lemma ne_len {A} (l : list A) : l <> [] -> 0 < length l.
Proof. destruct l; [congruence|cbn; lia]. Qed.

Lemma rr_exact {E} (eps : list E) rs index k : eps <> [] -> (index + N.of_nat (k * length eps) < 2 ^ 32)%N ->
  forall i, i < length eps -> times i (rr_run all_up rs index eps (k * length eps)) = k.
Proof.
  intros Hne Hw i Hi. assert (Hn := ne_len Hne). rewrite rr_run_up by exact Hne.
  rewrite times_pick_at by (intros; apply rr_in_range, Hn).
  rewrite (filter_ext_len (g := fun j => N.to_nat ((index + 1 + N.of_nat j) mod N.of_nat (length eps)) =? i)).
  - rewrite (rounds_count (fun p => p =? i) Hn). rewrite filter_seq_eq by exact Hi. lia.
  - intros j Hj. apply in_seq in Hj. f_equal. f_equal. f_equal. apply N.mod_small. lia.
Qed.

Lemma cnt_filter n i a m : 0 < n -> length (filter (fun j => N.to_nat ((a + N.of_nat j) mod N.of_nat n) =? i) (seq 0 m)) = cnt (N.of_nat n) (N.of_nat i) a m.
Proof.
  intro H. apply filter_ext_len. intros j _. destruct (Nat.eqb_spec (N.to_nat ((a + N.of_nat j) mod N.of_nat n)) i), (N.eqb_spec ((a + N.of_nat j) mod N.of_nat n) (N.of_nat i)); lia.
Qed.

Lemma rr_near {E} (eps : list E) rs index k : eps <> [] -> (index < 2 ^ 32)%N -> (N.of_nat (k * length eps) <= 2 ^ 32)%N ->
  forall i, i < length eps -> k <= times i (rr_run all_up rs index eps (k * length eps)) + 1 /\ times i (rr_run all_up rs index eps (k * length eps)) <= k + 1.
Proof.
  intros Hne Hi0 Hw i Hi. assert (Hn := ne_len Hne). rewrite rr_run_up by exact Hne.
  rewrite times_pick_at by (intros; apply rr_in_range, Hn).
  set (n := length eps) in *. set (m := k * n) in *.
  set (w := Nat.min m (N.to_nat (2 ^ 32 - (index + 1)))).
  replace m with (w + (m - w)) by lia. rewrite seq_app_shift, filter_app, app_length, filter_map_length.
  rewrite (filter_ext_len (g := fun j => N.to_nat ((index + 1 + N.of_nat j) mod N.of_nat n) =? i) (l := seq 0 w)).
  2:{ intros j Hj. apply in_seq in Hj. f_equal. f_equal. f_equal. apply N.mod_small. lia. }
  rewrite (filter_ext_len (g := fun j => N.to_nat ((0 + N.of_nat j) mod N.of_nat n) =? i) (l := seq 0 (m - w))).
  2:{ intros j Hj. apply in_seq in Hj. f_equal. f_equal. f_equal.
      replace (index + 1 + N.of_nat (w + j))%N with (N.of_nat j + 1 * 2 ^ 32)%N by lia. rewrite N.mod_add by discriminate. rewrite N.add_0_l. apply N.mod_small. lia. }
  rewrite !cnt_filter by exact Hn.
  assert (Hii : (N.of_nat i < N.of_nat n)%N) by lia.
  pose proof (cnt_bounds (index + 1)%N w Hii) as B1. pose proof (cnt_bounds 0%N (m - w) Hii) as B2.
  assert (Hw' : w <= m) by lia. assert (Hn0 : n <> 0) by lia.
  destruct (Nat.eq_dec (w mod n) 0) as [Z|NZ].
  - assert (E1 : w = (w / n) * n) by (rewrite Nat.mul_comm; apply Nat.div_exact; assumption).
    assert (E2 : m - w = (k - w / n) * n) by (unfold m in *; nia).
    rewrite E2. rewrite E1 at 1 3. rewrite !cnt_full by exact Hii.
    assert (w / n <= k) by (apply Nat.div_le_upper_bound; unfold m in *; lia). lia.
  - assert (E1 : w / n + (m - w) / n + 1 = k).
    { pose proof (Nat.div_mod w n Hn0). pose proof (Nat.mod_upper_bound w n Hn0).
      pose proof (Nat.div_mod (m - w) n Hn0). pose proof (Nat.mod_upper_bound (m - w) n Hn0). unfold m in *. nia. }
    lia.
Qed.

(* ------------------------------------------------------------ the int64 counter *)

