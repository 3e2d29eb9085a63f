(* LbProofs.v: proofs about LbModel.v *)
From Verif Require Import Base Lists BytesModel BytesProofs Strconv GoStrings LbModel LbSpec.
Ltac Zify.zify_post_hook ::= idtac.
Set Implicit Arguments. Unset Strict Implicit.

(* ------------------------------------------------------------ request ids *)

Lemma land_smask n : N.land n sMask = (n mod 2 ^ 20)%N.
Proof. change sMask with (N.ones 20). apply N.land_ones. Qed.

Lemma id_low clock o : (N.land (snd (generateRequestID clock o)) sMask = ((o + 1) mod 2 ^ 64) mod 2 ^ 20)%N.
Proof.
  unfold generateRequestID. cbn [snd]. rewrite N.land_lor_distr_l, <- !N.land_assoc.
  change (N.land pMask sMask) with 0%N. rewrite N.land_0_r, N.lor_0_l.
  change (N.land sMask sMask) with sMask. apply land_smask.
Qed.

Lemma request_ids_low clocks o k j id : nth_error (request_ids clocks o k) j = Some id ->
  N.land id sMask = ((o + 1 + N.of_nat j) mod 2 ^ 20)%N.
Proof.
  revert clocks o j. induction k as [|k IH]; intros clocks o j H; [destruct j; discriminate|].
  cbn [request_ids] in H. destruct (generateRequestID (clocks 0) o) as [o' id0] eqn:E.
  assert (P : forall x, ((x mod 2 ^ 64) mod 2 ^ 20 = x mod 2 ^ 20)%N).
  { intro x. pose proof (N.div_mod x (2 ^ 64) ltac:(discriminate)) as D. rewrite D at 2.
    replace (2 ^ 64 * (x / 2 ^ 64) + x mod 2 ^ 64)%N with (x mod 2 ^ 64 + (2 ^ 44 * (x / 2 ^ 64)) * 2 ^ 20)%N by lia.
    rewrite N.mod_add by discriminate. reflexivity. }
  destruct j as [|j]; cbn [nth_error] in H.
  - injection H as <-. pose proof (id_low (clocks 0) o) as L. rewrite E in L. cbn [snd] in L. rewrite L, P. f_equal. lia.
  - apply IH in H. rewrite H. unfold generateRequestID in E. injection E as <- _.
    rewrite <- N.add_assoc, <- N.add_mod_idemp_l, P, N.add_mod_idemp_l by discriminate. f_equal. lia.
Qed.

Lemma request_ids_length clocks o k : length (request_ids clocks o k) = k.
Proof.
  revert clocks o. induction k as [|k IH]; intros; [reflexivity|]. cbn [request_ids].
  destruct (generateRequestID (clocks 0) o). cbn [length]. f_equal. apply IH.
Qed.

Lemma ids_distinct clocks o k : (N.of_nat k <= 2 ^ 20)%N -> NoDup (request_ids clocks o k).
Proof.
  intro Hk. apply NoDup_nth_error. intros i j Hi Hij. rewrite request_ids_length in Hi.
  destruct (nth_error (request_ids clocks o k) i) as [a|] eqn:Ei; [|apply nth_error_None in Ei; rewrite request_ids_length in Ei; lia].
  symmetry in Hij. assert (Hj : j < k).
  { assert (nth_error (request_ids clocks o k) j <> None) by congruence. apply nth_error_Some in H. rewrite request_ids_length in H. exact H. }
  apply request_ids_low in Ei, Hij. rewrite Ei in Hij. change (2 ^ 20)%N with 1048576%N in *.
  pose proof (N.div_mod (o + 1 + N.of_nat i) 1048576 ltac:(lia)). pose proof (N.div_mod (o + 1 + N.of_nat j) 1048576 ltac:(lia)).
  nia.
Qed.

(* ------------------------------------------------------------ shuffles *)

Lemma swap_perm {A} (l : list A) a b : Permutation (swap l a b) l.
Proof.
  unfold swap. destruct (nth_error l a) as [x|] eqn:Ea; [|reflexivity].
  destruct (nth_error l b) as [y|] eqn:Eb; [|reflexivity].
  destruct (Nat.eq_dec a b) as [->|Hab].
  { rewrite Ea in Eb. injection Eb as <-. assert (U : upd l b x = l) by (apply upd_id, Ea). rewrite U, U. reflexivity. }
  assert (La : a < length l) by (apply nth_error_Some; congruence).
  assert (Lb : b < length l) by (apply nth_error_Some; congruence).
  assert (Hl : length (upd (upd l a y) b x) = length l) by (rewrite !upd_length; reflexivity).
  symmetry. apply Permutation_nth_error. split; [symmetry; exact Hl|].
  exists (fun i => if i =? a then b else if i =? b then a else i). split.
  - intros i j. destruct (Nat.eqb_spec i a), (Nat.eqb_spec j a), (Nat.eqb_spec i b), (Nat.eqb_spec j b); lia.
  - intro i. rewrite !nth_error_upd, upd_length. rewrite (proj2 (Nat.ltb_lt a _) La), (proj2 (Nat.ltb_lt b _) Lb), !andb_true_r.
    destruct (Nat.eqb_spec b i).
    + subst i. destruct (Nat.eqb_spec b a); [congruence|]. rewrite Nat.eqb_refl. congruence.
    + destruct (Nat.eqb_spec a i).
      * subst i. rewrite Nat.eqb_refl. congruence.
      * destruct (Nat.eqb_spec i a); [congruence|]. destruct (Nat.eqb_spec i b); [congruence|]. reflexivity.
Qed.

Lemma shuffle_perm {A} draws (l : list A) : Permutation (shuffle draws l) l.
Proof.
  unfold shuffle. remember (N.of_nat (length l)) as n eqn:En. remember (seq 0 (length l)) as s eqn:Es. clear En Es.
  assert (G : forall s (m : list A), Permutation m l ->
    Permutation (fold_left (fun l' i => swap l' (N.to_nat (fst (draws i) mod n)) (N.to_nat (snd (draws i) mod n))) s m) l).
  { clear s. induction s as [|i s IH]; intros m Hm; [exact Hm|]. cbn [fold_left]. apply IH.
    rewrite swap_perm. exact Hm. }
  apply G. reflexivity.
Qed.

(* ------------------------------------------------------------ scanning *)

Lemma intn_lt r n : 0 < n -> intn r n < n.
Proof. intro H. unfold intn. pose proof (N.mod_lt r (N.of_nat n) ltac:(lia)). lia. Qed.

Lemma nth_mod {E} (eps : list E) i : eps <> [] -> exists e, nth_error eps (i mod length eps) = Some e.
Proof.
  intro H. assert (L : i mod length eps < length eps) by (apply Nat.mod_upper_bound; destruct eps; [congruence|discriminate]).
  destruct (nth_error eps (i mod length eps)) eqn:E1; [eauto|]. apply nth_error_None in E1. lia.
Qed.

(* what a scan has established: everything looked at before the hit said no *)
Lemma scanFrom_spec {E} av (eps : list E) start k : eps <> [] -> forall idx,
  match scanFrom av eps start idx k with
  | PEp i e => exists j, idx <= j < idx + k /\ i = (start + j) mod length eps /\ nth_error eps i = Some e /\ av j e = true
  | PNil => forall j, idx <= j < idx + k -> exists e, nth_error eps ((start + j) mod length eps) = Some e /\ av j e = false
  | PPanic => False
  end.
Proof.
  intros Hne. induction k as [|k IH]; intro idx; cbn [scanFrom]; [intros; lia|].
  destruct (nth_mod (start + idx) Hne) as (e & He). rewrite He. destruct (av idx e) eqn:Ea.
  - exists idx. repeat split; auto; lia.
  - specialize (IH (S idx)). destruct (scanFrom av eps start (S idx) k) as [i e'| |].
    + destruct IH as (j & H1 & H2 & H3 & H4). exists j. repeat split; auto; lia.
    + intros j Hj. destruct (Nat.eq_dec j idx) as [->|]; [eauto|]. apply IH. lia.
    + exact IH.
Qed.

(* every position is visited within n steps *)
Lemma covers n start p : p < n -> exists j, j < n /\ (start + j) mod n = p.
Proof.
  intro H. destruct (Nat.le_gt_cases (start mod n) p).
  - exists (p - start mod n). split; [lia|]. rewrite Nat.add_mod by lia.
    rewrite <- (Nat.mod_small (p - start mod n) n) at 1 by lia.
    rewrite <- (Nat.mod_small p n) at 2 by lia. rewrite Nat.mod_mod by lia. f_equal.
    rewrite (Nat.mod_small (p - start mod n)) by lia. lia.
  - pose proof (Nat.mod_upper_bound start n ltac:(lia)). exists (n + p - start mod n). split; [lia|].
    rewrite Nat.add_mod by lia. rewrite (Nat.mod_small (n + p - start mod n)) by lia.
    replace (start mod n + (n + p - start mod n)) with (p + 1 * n) by lia. rewrite Nat.mod_add by lia. apply Nat.mod_small, H.
Qed.

Lemma scan_sound {E} av (eps : list E) start : eps <> [] -> sound_pick av eps (scanFrom av eps start 0 (length eps)).
Proof.
  intro Hne. pose proof (@scanFrom_spec E av eps start (length eps) Hne 0) as S.
  destruct (scanFrom av eps start 0 (length eps)) as [i e| |]; cbn [sound_pick].
  - destruct S as (j & _ & _ & H3 & H4). eauto.
  - intros e Hin. apply In_nth_error in Hin as (p & Hp).
    assert (Lp : p < length eps) by (apply nth_error_Some; congruence).
    destruct (@covers (length eps) start p Lp) as (j & Hj & Hm). destruct (S j ltac:(lia)) as (e' & H1 & H2).
    rewrite Hm, Hp in H1. injection H1 as <-. eauto.
  - exact S.
Qed.

Lemma sound_shift {E} av (eps : list E) p : sound_pick (fun t => av (S t)) eps p -> sound_pick av eps p.
Proof.
  destruct p as [i e| |]; cbn [sound_pick].
  - intros (H & t & Ht). eauto.
  - intros H e Hin. destruct (H e Hin) as (t & Ht). eauto.
  - auto.
Qed.

Lemma random_sound {E} av r1 r2 (eps : list E) : sound_pick av eps (selectOneAtRandom av r1 r2 eps).
Proof.
  destruct eps as [|e0 r] eqn:Ee; [intros e []|]. rewrite <- Ee. assert (Hne : eps <> []) by (subst; discriminate).
  replace (selectOneAtRandom av r1 r2 eps) with
    (match nth_error eps (intn r1 (length eps)) with
     | None => PPanic
     | Some e => if av 0 e then PEp (intn r1 (length eps)) e
                 else scanFrom (fun t => av (S t)) eps (intn r2 (length eps)) 0 (length eps) end) by (subst; reflexivity).
  assert (L : intn r1 (length eps) < length eps) by (apply intn_lt; subst; cbn; lia).
  destruct (nth_error eps (intn r1 (length eps))) as [e|] eqn:E1; [|apply nth_error_None in E1; lia].
  destruct (av 0 e) eqn:Ea; [cbn; eauto|]. apply sound_shift, scan_sound, Hne.
Qed.

Lemma rr_sound {E} av r1 r2 index (eps : list E) : sound_pick av eps (snd (roundrobinSelect av r1 r2 index eps)).
Proof.
  destruct eps as [|e0 r] eqn:Ee; [intros e []|]. rewrite <- Ee. assert (Hne : eps <> []) by (subst; discriminate).
  set (i := N.to_nat ((index + 1) mod 2 ^ 32 mod N.of_nat (length eps))).
  replace (snd (roundrobinSelect av r1 r2 index eps)) with
    (match nth_error eps i with
     | None => PPanic
     | Some e => if av 0 e then PEp i e else selectOneAtRandom (fun t => av (S t)) r1 r2 eps end) by (subst; reflexivity).
  assert (L : i < length eps).
  { unfold i. pose proof (N.mod_lt ((index + 1) mod 2 ^ 32) (N.of_nat (length eps))). assert (length eps <> 0) by (subst; discriminate). lia. }
  destruct (nth_error eps i) as [e|] eqn:E1; [|apply nth_error_None in E1; lia].
  destruct (av 0 e) eqn:Ea; [cbn; eauto|]. apply sound_shift, random_sound.
Qed.

(* SelectArrayFromIndex *)

Lemma arrayLoop_total {E} av (eps : list E) from : eps <> [] -> forall k idx acc,
  exists l, arrayLoop av eps from idx k acc = Some l /\
    (length acc <= 3 -> length l <= 3) /\
    (forall e, In e l -> In e acc \/ (In e eps /\ exists t, av t e = true)) /\
    (length l < 3 -> forall j, idx <= j < idx + k -> forall e, nth_error eps ((from + j) mod length eps) = Some e -> In e l \/ av j e = false) /\
    (forall e, In e acc -> In e l).
Proof.
  intro Hne. induction k as [|k IH]; intros idx acc; cbn [arrayLoop].
  - exists acc. repeat split; auto; intros; lia.
  - destruct (Nat.ltb_spec (length acc) MaxSelectArraySize) as [Hl|Hl].
    + destruct (nth_mod (from + idx) Hne) as (e & He). rewrite He.
      destruct (IH (S idx) (if av idx e then acc ++ [e] else acc)) as (l & H1 & H2 & H3 & H4 & H5).
      exists l. split; [exact H1|]. unfold MaxSelectArraySize in Hl. split; [|split; [|split]].
      * intro H. apply H2. destruct (av idx e); [rewrite app_length; cbn; lia|exact H].
      * intros x Hx. destruct (H3 x Hx) as [Ha|Ha]; [|right; exact Ha].
        destruct (av idx e) eqn:Ea; [|left; exact Ha]. apply in_app_or in Ha as [Ha|[<-|[]]]; [left; exact Ha|].
        right. split; [eapply nth_error_In; exact He|eauto].
      * intros Hlt j Hj x Hx. destruct (Nat.eq_dec j idx) as [->|].
        -- rewrite He in Hx. injection Hx as <-. destruct (av idx e) eqn:Ea; [|right; reflexivity].
           left. apply H5. apply in_or_app. right. left. reflexivity.
        -- apply H4; [exact Hlt|lia|exact Hx].
      * intros x Hx. apply H5. destruct (av idx e); [apply in_or_app; left|]; exact Hx.
    + exists acc. unfold MaxSelectArraySize in Hl. repeat split; auto; intros; lia.
Qed.

Lemma array_from {E} av (eps : list E) from : eps <> [] ->
  exists l, selectArrayFromIndex av eps from = Some l /\ length l <= 3 /\
    (forall e, In e l -> In e eps /\ exists t, av t e = true) /\
    (length l < 3 -> forall e, In e eps -> (forall t, av t e = true) -> In e l).
Proof.
  intro Hne. destruct (@arrayLoop_total E av eps from Hne (length eps) 0 []) as (l & H1 & H2 & H3 & H4 & _).
  exists l. split; [exact H1|]. split; [apply H2; cbn; lia|]. split.
  - intros e He. destruct (H3 e He) as [[]|H]. exact H.
  - intros Hl e Hin Hav. apply In_nth_error in Hin as (p & Hp).
    assert (Lp : p < length eps) by (apply nth_error_Some; congruence).
    destruct (@covers (length eps) from p Lp) as (j & Hj & Hm).
    destruct (H4 Hl j ltac:(lia) e) as [H|H]; [rewrite Hm; exact Hp|exact H|]. rewrite Hav in H. discriminate.
Qed.

(* with constant availability: the first three available ones from the index on, wrapping around *)
Lemma rotate_nth {E} (eps : list E) from j : from < length eps -> j < length eps ->
  nth_error (skipn from eps ++ firstn from eps) j = nth_error eps ((from + j) mod length eps).
Proof.
  intros Hf Hj. destruct (Nat.lt_ge_cases (from + j) (length eps)) as [H|H].
  - rewrite nth_error_app1 by (rewrite skipn_length; lia). rewrite Nat.mod_small by exact H. apply nth_error_skipn'.
  - rewrite nth_error_app2 by (rewrite skipn_length; lia). rewrite skipn_length.
    replace ((from + j) mod length eps) with (from + j - length eps).
    + replace (j - (length eps - from)) with (from + j - length eps) by lia. apply nth_error_firstn'. lia.
    + replace (from + j) with (from + j - length eps + 1 * length eps) at 2 by lia.
      rewrite Nat.mod_add by lia. symmetry. apply Nat.mod_small. lia.
Qed.

Lemma skipn_cons {A} (l : list A) i x : nth_error l i = Some x -> skipn i l = x :: skipn (S i) l.
Proof. revert i. induction l as [|y r IH]; intros [|i] H; cbn in *; try discriminate; [congruence|apply IH, H]. Qed.

Lemma arrayLoop_const {E} (up : E -> bool) (eps : list E) from : from < length eps -> forall k idx acc,
  idx + k = length eps -> length acc <= 3 ->
  arrayLoop (fun _ => up) eps from idx k acc =
  Some (acc ++ firstn (3 - length acc) (filter up (skipn idx (skipn from eps ++ firstn from eps)))).
Proof.
  intros Hf. assert (Hne : eps <> []) by (destruct eps; [cbn in Hf; lia|discriminate]).
  induction k as [|k IH]; intros idx acc Hi Ha; cbn [arrayLoop].
  - rewrite skipn_all2 by (rewrite app_length, skipn_length, firstn_length; lia). cbn [filter]. rewrite firstn_nil, app_nil_r. reflexivity.
  - unfold MaxSelectArraySize. destruct (Nat.ltb_spec (length acc) 3) as [Hl|Hl].
    + destruct (nth_mod (from + idx) Hne) as (e & He). rewrite He.
      rewrite (@skipn_cons _ _ idx e) by (rewrite rotate_nth by lia; exact He).
      cbn [filter]. destruct (up e).
      * rewrite IH by (rewrite ?app_length; cbn; lia). rewrite app_length. cbn [length].
        replace (3 - length acc) with (S (3 - (length acc + 1))) by lia. cbn [firstn]. rewrite <- app_assoc. reflexivity.
      * rewrite IH by lia. reflexivity.
    + replace (3 - length acc) with 0 by lia. rewrite firstn_O, app_nil_r. reflexivity.
Qed.

Lemma array_const {E} (up : E -> bool) (eps : list E) from : from < length eps ->
  selectArrayFromIndex (fun _ => up) eps from = Some (firstn 3 (filter up (skipn from eps ++ firstn from eps))).
Proof. intro H. unfold selectArrayFromIndex. rewrite arrayLoop_const by (cbn; lia). reflexivity. Qed.

(* SelectArray of the random and round robin load balancers *)
Lemma array_after_sound {E} av (eps : list E) p : sound_pick av eps p -> forall av',
  exists l, arrayAfter p av' eps = Some l /\ length l <= 3 /\
    (forall e, In e l -> In e eps /\ exists t, av' t e = true) /\
    (l = [] -> forall e, In e eps -> (exists t, av t e = false) \/ (exists t, av' t e = false)).
Proof.
  intros HS av'. destruct p as [i e0| |]; cbn [arrayAfter sound_pick] in *.
  - destruct HS as (Hi & _). assert (Hne : eps <> []) by (destruct eps; [destruct i; discriminate|discriminate]).
    assert (Li : i < length eps) by (apply nth_error_Some; congruence).
    destruct (@arrayLoop_total E av' eps i Hne (length eps) 0 []) as (l & H1 & H2 & H3 & H4 & _).
    exists l. split; [exact H1|]. split; [apply H2; cbn; lia|]. split.
    + intros e He. destruct (H3 e He) as [[]|H]; exact H.
    + intros -> e Hin. right. apply In_nth_error in Hin as (q & Hq).
      assert (Lq : q < length eps) by (apply nth_error_Some; congruence).
      destruct (@covers (length eps) i q Lq) as (j & Hj & Hm).
      destruct (H4 ltac:(cbn; lia) j ltac:(lia) e) as [[]|H]; [rewrite Hm; exact Hq|]. exists j. exact H.
  - exists []. split; [reflexivity|]. split; [cbn; lia|]. split; [intros e []|]. intros _ e He. left. apply HS, He.
  - destruct HS.
Qed.

(* ------------------------------------------------------------ counting over a counter *)

(* how many y < x have y mod n = i *)
Definition F (n i x : N) : N := ((x + (n - 1 - i)) / n)%N.

Lemma F_step n i x : (i < n)%N -> F n i (x + 1) = (F n i x + if N.eqb (x mod n) i then 1 else 0)%N.
Proof.
  intro H. unfold F. pose proof (N.div_mod x n ltac:(lia)) as D. pose proof (N.mod_lt x n ltac:(lia)) as R.
  set (q := (x / n)%N) in *. set (r := (x mod n)%N) in *.
  assert (Q1 : forall d, (d < n)%N -> ((n * q + r + d) / n = q + if (r + d <? n)%N then 0 else 1)%N).
  { intros d Hd. destruct (N.ltb_spec (r + d) n).
    - rewrite N.add_0_r. symmetry. apply (N.div_unique _ _ _ (r + d)); lia.
    - symmetry. apply (N.div_unique _ _ _ (r + d - n)); nia. }
  rewrite D.
  replace (n * q + r + 1 + (n - 1 - i))%N with (n * q + r + (n - i))%N by lia.
  rewrite (Q1 (n - 1 - i)%N) by lia.
  destruct (N.eqb_spec r i) as [->|Hne].
  - destruct (N.ltb_spec (i + (n - 1 - i)) n); [|lia]. symmetry. apply (N.div_unique _ _ _ 0%N); nia.
  - destruct (N.eq_dec i 0) as [->|Hi].
    + rewrite N.sub_0_r. replace (n * q + r + n)%N with (n * (q + 1) + r)%N by nia.
      destruct (N.ltb_spec (r + (n - 1 - 0)) n); [lia|]. rewrite N.add_0_r. symmetry. apply (N.div_unique _ _ _ r); nia.
    + rewrite Q1 by lia. destruct (N.ltb_spec (r + (n - i)) n), (N.ltb_spec (r + (n - 1 - i)) n); lia.
Qed.

(* how many of the m values a, a+1, ..., a+m-1 have residue i *)
Definition cnt (n i a : N) (m : nat) : nat := length (filter (fun j => N.eqb ((a + N.of_nat j) mod n) i) (seq 0 m)).

Lemma F_mono n i x y : (0 < n)%N -> (x <= y)%N -> (F n i x <= F n i y)%N.
Proof. intros H H1. unfold F. apply N.div_le_mono; lia. Qed.

Lemma cnt_F n i a m : (i < n)%N -> (N.of_nat (cnt n i a m) = F n i (a + N.of_nat m) - F n i a)%N.
Proof.
  intro H. unfold cnt. induction m as [|m IH].
  - cbn. rewrite N.add_0_r. lia.
  - rewrite seq_S, filter_app, app_length. cbn [filter plus].
    replace (a + N.of_nat (S m))%N with (a + N.of_nat m + 1)%N by lia. rewrite F_step by exact H.
    assert (M : (F n i a <= F n i (a + N.of_nat m))%N) by (apply F_mono; lia).
    destruct (N.eqb ((a + N.of_nat m) mod n) i); cbn [length]; lia.
Qed.

Lemma F_add n i x k : (0 < n)%N -> F n i (x + k * n) = (F n i x + k)%N.
Proof. intro H. unfold F. replace (x + k * n + (n - 1 - i))%N with (x + (n - 1 - i) + k * n)%N by lia. apply N.div_add. lia. Qed.

Lemma cnt_full n i a k : (i < N.of_nat n)%N -> cnt (N.of_nat n) i a (k * n) = k.
Proof.
  intro H. apply Nat2N.inj. rewrite cnt_F by exact H. rewrite Nat2N.inj_mul, F_add by lia. lia.
Qed.

Lemma cnt_bounds n i a m : (i < N.of_nat n)%N -> m / n <= cnt (N.of_nat n) i a m <= m / n + 1.
Proof.
  intro H. pose proof (cnt_F a m H) as C. assert (Hn : n <> 0) by lia.
  pose proof (Nat.div_mod m n Hn). pose proof (Nat.mod_upper_bound m n Hn).
  assert (L : (F (N.of_nat n) i (a + N.of_nat (m / n) * N.of_nat n) <= F (N.of_nat n) i (a + N.of_nat m))%N) by (apply F_mono; nia).
  assert (U : (F (N.of_nat n) i (a + N.of_nat m) <= F (N.of_nat n) i (a + N.of_nat (m / n + 1) * N.of_nat n))%N) by (apply F_mono; nia).
  rewrite F_add in L, U by lia. revert C L U. clear.
  generalize (F (N.of_nat n) i (a + N.of_nat m)) (F (N.of_nat n) i a) (cnt (N.of_nat n) i a m) (m / n). intros. lia.
Qed.

(* a permutation of the positions *)
Lemma positions_perm n a : 0 < n -> Permutation (map (fun j => N.to_nat ((a + N.of_nat j) mod N.of_nat n)) (seq 0 n)) (seq 0 n).
Proof.
  intro Hn. apply NoDup_Permutation_bis.
  - apply NoDup_map_in; [|apply seq_NoDup]. intros x y Hx Hy E. apply in_seq in Hx, Hy.
    pose proof (N.div_mod (a + N.of_nat x) (N.of_nat n) ltac:(lia)). pose proof (N.div_mod (a + N.of_nat y) (N.of_nat n) ltac:(lia)).
    assert (((a + N.of_nat x) mod N.of_nat n = (a + N.of_nat y) mod N.of_nat n)%N) as E' by (apply N2Nat.inj, E).
    rewrite E' in H. revert H H0. generalize ((a + N.of_nat x) / N.of_nat n)%N ((a + N.of_nat y) / N.of_nat n)%N. intros q1 q2 H H0.
    destruct (N.lt_trichotomy q1 q2) as [L|[L|L]]; nia.
  - rewrite map_length, seq_length. lia.
  - intros x Hx. apply in_map_iff in Hx as (j & <- & _). apply in_seq. pose proof (N.mod_lt (a + N.of_nat j) (N.of_nat n) ltac:(lia)). lia.
Qed.
