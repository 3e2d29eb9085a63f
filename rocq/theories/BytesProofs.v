(* BytesProofs.v: lemmas about BytesModel. *)
From Verif Require Import Base BytesModel BytesSpec.

Ltac Zify.zify_post_hook ::= Z.div_mod_to_equations.
Local Arguments N.add : simpl never.
Local Arguments N.mul : simpl never.
Local Arguments N.div : simpl never.
Local Arguments N.modulo : simpl never.

(* ------------------------------------------------------------ copyAt and grow *)

Lemma copyAt_fit dst pos src :
  pos + length src <= length dst ->
  copyAt dst pos src = firstn pos dst ++ src ++ skipn (pos + length src) dst.
Proof.
  intro H. unfold copyAt. f_equal. f_equal. apply firstn_all2. lia.
Qed.

Lemma copyAt_length dst pos src :
  pos + length src <= length dst -> length (copyAt dst pos src) = length dst.
Proof.
  intro H. rewrite copyAt_fit by exact H.
  rewrite !app_length, firstn_length, skipn_length. lia.
Qed.

Lemma copyAt_prefix dst pos src :
  pos + length src <= length dst ->
  firstn (pos + length src) (copyAt dst pos src) = firstn pos dst ++ src.
Proof.
  intro H. rewrite copyAt_fit by exact H.
  rewrite app_assoc.
  assert (Hl : pos + length src = length (firstn pos dst ++ src)).
  { rewrite app_length, firstn_length. lia. }
  rewrite Hl at 1. apply firstn_app_exact.
Qed.

Lemma zeros_length n : length (zeros n) = n.
Proof. apply repeat_length. Qed.

Lemma grow_length b n : buf_ok b -> length (bbuf (grow b n)) = 2 * length (bbuf b) + n.
Proof.
  unfold buf_ok. intro H. unfold grow. cbn [bbuf].
  rewrite copyAt_length; rewrite ?zeros_length, ?firstn_length; lia.
Qed.

Lemma grow_content b n : buf_ok b -> firstn (bwpos b) (bbuf (grow b n)) = firstn (bwpos b) (bbuf b).
Proof.
  unfold buf_ok. intro H. unfold grow. cbn [bbuf].
  assert (Hl : length (firstn (bwpos b) (bbuf b)) = bwpos b) by (rewrite firstn_length; lia).
  set (p := firstn (bwpos b) (bbuf b)) in *.
  rewrite <- Hl at 1.
  change (length p) with (0 + length p).
  rewrite copyAt_prefix by (rewrite zeros_length, Hl; lia). reflexivity.
Qed.

Lemma grow_ok b n : buf_ok b -> buf_ok (grow b n).
Proof. intro H. unfold buf_ok. rewrite grow_length by exact H. cbn. unfold buf_ok in H. lia. Qed.

(* generic write step shared by WriteByte/Write/WriteUint *)
Definition put (b : buffer) (l : nat) (f : order -> list byte) : buffer :=
  let b1 := if length (bbuf b) <? bwpos b + l then grow b l else b in
  mkBuf (copyAt (bbuf b1) (bwpos b1) (f (border b1))) (brpos b1) (bwpos b1 + l) (border b1).

Lemma put_spec b l f :
  buf_ok b -> length (f (border b)) = l ->
  bytesOf (put b l f) = bytesOf b ++ f (border b) /\ buf_ok (put b l f)
  /\ border (put b l f) = border b /\ brpos (put b l f) = brpos b
  /\ bwpos (put b l f) = bwpos b + l.
Proof.
  intros Hok Hl. subst l. set (l := length (f (border b))). unfold put, bytesOf.
  destruct (Nat.ltb_spec (length (bbuf b)) (bwpos b + l)) as [Hlt|Hge].
  - cbn [bbuf brpos bwpos border].
    replace (bwpos (grow b l)) with (bwpos b) by reflexivity.
    replace (border (grow b l)) with (border b) by reflexivity.
    assert (Hfit : bwpos b + length (f (border b)) <= length (bbuf (grow b l))).
    { rewrite grow_length by exact Hok. unfold buf_ok in Hok. fold l. lia. }
    repeat split; auto.
    + unfold l at 1. rewrite copyAt_prefix by exact Hfit. rewrite grow_content by exact Hok. reflexivity.
    + unfold buf_ok. cbn [bbuf bwpos]. rewrite copyAt_length by exact Hfit. lia.
  - cbn [bbuf brpos bwpos border].
    assert (Hfit : bwpos b + length (f (border b)) <= length (bbuf b)) by lia.
    repeat split; auto.
    + unfold l. rewrite copyAt_prefix by exact Hfit. reflexivity.
    + unfold buf_ok. cbn [bbuf bwpos]. rewrite copyAt_length by exact Hfit. lia.
Qed.

(* if the data fit, everything behind the write position is kept *)
Lemma put_nogrow b l f :
  bwpos b + l <= length (bbuf b) -> length (f (border b)) = l ->
  put b l f = mkBuf (firstn (bwpos b) (bbuf b) ++ f (border b) ++ skipn (bwpos b + l) (bbuf b))
                    (brpos b) (bwpos b + l) (border b).
Proof.
  intros H Hl. unfold put. destruct (Nat.ltb_spec (length (bbuf b)) (bwpos b + l)) as [Hlt|_]; [lia|].
  cbn zeta. rewrite copyAt_fit by lia. rewrite Hl. reflexivity.
Qed.

Lemma write_put b p : write b p = put b (length p) (fun _ => p).
Proof. reflexivity. Qed.
Lemma writeByte_put b c : writeByte b c = put b 1 (fun _ => [c]).
Proof. reflexivity. Qed.
Lemma writeUint_put k b u : writeUint k b u = put b k (fun o => putUint o k u).
Proof. reflexivity. Qed.

Lemma write_spec b p :
  buf_ok b ->
  bytesOf (write b p) = bytesOf b ++ p /\ buf_ok (write b p) /\ border (write b p) = border b
  /\ brpos (write b p) = brpos b /\ bwpos (write b p) = bwpos b + length p.
Proof. intro H. rewrite write_put. apply put_spec; [exact H | reflexivity]. Qed.

Lemma writeByte_spec b c :
  buf_ok b ->
  bytesOf (writeByte b c) = bytesOf b ++ [c] /\ buf_ok (writeByte b c) /\ border (writeByte b c) = border b
  /\ brpos (writeByte b c) = brpos b /\ bwpos (writeByte b c) = bwpos b + 1.
Proof. intro H. rewrite writeByte_put. apply put_spec; [exact H | reflexivity]. Qed.

Lemma leBytes_length k n : length (leBytes k n) = k.
Proof. revert n; induction k as [|k IH]; intro n; cbn [leBytes length]; [reflexivity|]. rewrite IH. reflexivity. Qed.

Lemma putUint_length o k n : length (putUint o k n) = k.
Proof. destruct o; cbn; rewrite ?rev_length; apply leBytes_length. Qed.

Lemma writeUint_spec k b u :
  buf_ok b ->
  bytesOf (writeUint k b u) = bytesOf b ++ putUint (border b) k u /\ buf_ok (writeUint k b u)
  /\ border (writeUint k b u) = border b /\ brpos (writeUint k b u) = brpos b
  /\ bwpos (writeUint k b u) = bwpos b + k.
Proof. intro H. rewrite writeUint_put. apply (put_spec b k (fun o => putUint o k u)); [exact H | apply putUint_length]. Qed.

Lemma bytesOf_length b : buf_ok b -> length (bytesOf b) = bwpos b.
Proof. unfold buf_ok, bytesOf. intro H. rewrite firstn_length. lia. Qed.

(* ------------------------------------------------------------ fixed width encodings *)

Lemma leBytes_nth k n : leBytes k n = map (fun i => n2b (n / 256 ^ N.of_nat i)) (seq 0 k).
Proof.
  revert n; induction k as [|k IH]; intro n; cbn [leBytes seq map]; [reflexivity|].
  f_equal.
  - change (N.of_nat 0) with 0%N. rewrite N.pow_0_r, N.div_1_r. reflexivity.
  - rewrite IH, <- seq_shift, map_map. apply map_ext. intro i.
    f_equal. rewrite Nat2N.inj_succ, N.pow_succ_r', N.div_div; [reflexivity|lia|].
    apply N.pow_nonzero. lia.
Qed.

Lemma rev_map_seq {A} (f : nat -> A) k :
  rev (map f (seq 0 k)) = map (fun i => f (k - 1 - i)) (seq 0 k).
Proof.
  apply nth_ext with (d := f 0) (d' := f 0).
  - rewrite rev_length, !map_length. reflexivity.
  - intros i Hi. rewrite rev_length, map_length, seq_length in Hi.
    rewrite rev_nth by (rewrite map_length, seq_length; exact Hi).
    rewrite map_length, seq_length.
    rewrite map_nth, seq_nth by lia.
    set (g := fun j => f (k - 1 - j)).
    transitivity (nth i (map g (seq 0 k)) (g 0)).
    + rewrite map_nth, seq_nth by exact Hi. unfold g. f_equal. lia.
    + apply nth_indep. rewrite map_length, seq_length. exact Hi.
Qed.

Lemma putUint_spec o k n : putUint o k n = spec_uint o k n.
Proof.
  destruct o; unfold putUint, spec_uint; rewrite leBytes_nth; [|reflexivity].
  apply rev_map_seq.
Qed.

Lemma leVal_leBytes k n : (n < 256 ^ N.of_nat k)%N -> leVal (leBytes k n) = n.
Proof.
  revert n; induction k as [|k IH]; intros n Hn; cbn [leBytes leVal].
  - change (N.of_nat 0) with 0%N in Hn. rewrite N.pow_0_r in Hn. lia.
  - rewrite Nat2N.inj_succ, N.pow_succ_r' in Hn.
    rewrite b2n_n2b, IH by (apply N.div_lt_upper_bound; lia).
    pose proof (N.div_mod n 256). lia.
Qed.

Lemma getUint_putUint o k n : (n < 256 ^ N.of_nat k)%N -> getUint o (putUint o k n) = n.
Proof.
  intro H. destruct o; cbn [putUint getUint]; rewrite ?rev_involutive; apply leVal_leBytes, H.
Qed.

Lemma leVal_lt l : (leVal l < 256 ^ N.of_nat (length l))%N.
Proof.
  induction l as [|x l IH]; cbn [leVal length].
  - change (N.of_nat 0) with 0%N. rewrite N.pow_0_r. lia.
  - rewrite Nat2N.inj_succ, N.pow_succ_r'. pose proof (b2n_lt x). lia.
Qed.

Lemma getUint_lt o l : (getUint o l < 256 ^ N.of_nat (length l))%N.
Proof.
  destruct o; cbn [getUint]; [rewrite <- (rev_length l)|]; apply leVal_lt.
Qed.

(* ------------------------------------------------------------ varint *)

Lemma varint_byte u : (128 <= u)%N -> n2b (N.lor (N.land u 127) 128) = n2b (128 + u mod 128).
Proof.
  intros _. f_equal.
  change 127%N with (N.ones 7). rewrite N.land_ones. change (2 ^ 7)%N with 128%N.
  assert (H : (u mod 128 < 128)%N) by (apply N.mod_lt; lia).
  rewrite N.add_comm. change 128%N with (2 ^ 7)%N at 2 4.
  generalize dependent (u mod 128)%N. intros r H.
  symmetry. rewrite N.add_nocarry_lxor.
  - apply N.lxor_lor. apply N.bits_inj_0. intro i. rewrite N.land_spec, N.pow2_bits_eqb.
    destruct (N.eqb_spec 7 i) as [<-|_]; [|apply andb_false_r].
    rewrite andb_true_r. apply N.bits_above_log2.
    destruct (N.eq_dec r 0) as [->|Hr]; [cbn; lia|]. apply N.log2_lt_pow2; [lia|exact H].
  - apply N.bits_inj_0. intro i. rewrite N.land_spec, N.pow2_bits_eqb.
    destruct (N.eqb_spec 7 i) as [<-|_]; [|apply andb_false_r].
    rewrite andb_true_r. apply N.bits_above_log2.
    destruct (N.eq_dec r 0) as [->|Hr]; [cbn; lia|]. apply N.log2_lt_pow2; [lia|exact H].
Qed.

Lemma writeVarintLoop_spec fuel b u :
  buf_ok b -> (u < 2 ^ (7 * N.of_nat fuel))%N -> (0 < fuel) ->
  exists b', writeVarintLoop fuel b u = Some b' /\ bytesOf b' = bytesOf b ++ spec_leb fuel u
             /\ buf_ok b' /\ border b' = border b /\ brpos b' = brpos b.
Proof.
  revert b u; induction fuel as [|f IH]; intros b u Hok Hu Hf; [lia|].
  cbn [writeVarintLoop spec_leb].
  destruct (N.ltb_spec u 128) as [Hs|Hb].
  - destruct (writeByte_spec b (n2b u) Hok) as (H1 & H2 & H3 & H4 & _).
    exists (writeByte b (n2b u)). auto.
  - rewrite varint_byte by exact Hb.
    destruct (writeByte_spec b (n2b (128 + u mod 128)) Hok) as (H1 & H2 & H3 & H4 & _).
    rewrite N.shiftr_div_pow2. change (2 ^ 7)%N with 128%N.
    assert (Hu' : (u / 128 < 2 ^ (7 * N.of_nat f))%N).
    { apply N.div_lt_upper_bound; [lia|].
      replace (7 * N.of_nat (S f))%N with (7 + 7 * N.of_nat f)%N in Hu by lia.
      rewrite N.pow_add_r in Hu. exact Hu. }
    assert (Hf' : 0 < f).
    { destruct f; [|lia]. cbn in Hu'. change (7 * N.of_nat 0)%N with 0%N in Hu'.
      change (2 ^ 0)%N with 1%N in Hu'.
      assert (128 / 128 <= u / 128)%N by (apply N.div_le_mono; lia).
      change (128 / 128)%N with 1%N in H. lia. }
    destruct (IH (writeByte b (n2b (128 + u mod 128))) (u / 128)%N H2 Hu' Hf') as (b' & E & E1 & E2 & E3 & E4).
    exists b'. rewrite E, E1, H1, <- app_assoc. repeat split; auto; congruence.
Qed.

Lemma pow64_le_70 : (2 ^ 64 <= 2 ^ (7 * N.of_nat 10))%N.
Proof. vm_compute. discriminate. Qed.

Lemma writeVarint_spec b u :
  buf_ok b -> (u < 2 ^ 64)%N ->
  exists b', writeVarint b u = Some b' /\ bytesOf b' = bytesOf b ++ spec_varint u
             /\ buf_ok b' /\ border b' = border b /\ brpos b' = brpos b.
Proof.
  intros Hok Hu. apply writeVarintLoop_spec; [exact Hok | | lia].
  eapply N.lt_le_trans; [exact Hu | apply pow64_le_70].
Qed.

(* ------------------------------------------------------------ zigzag *)

Lemma lxor_ones_compl n k : (n < 2 ^ k)%N -> N.lxor n (N.ones k) = (2 ^ k - 1 - n)%N.
Proof.
  intro H.
  assert (E : N.lxor n (N.ones k) = N.ldiff (N.ones k) n).
  { apply N.bits_inj. intro i. rewrite N.lxor_spec, N.ldiff_spec.
    destruct (N.ltb_spec i k) as [Hi|Hi].
    - rewrite N.ones_spec_low by exact Hi. destruct (N.testbit n i); reflexivity.
    - rewrite N.ones_spec_high by exact Hi.
      destruct (N.eq_dec n 0) as [->|Hn]; [rewrite N.bits_0; reflexivity|].
      rewrite N.bits_above_log2; [reflexivity|].
      apply N.lt_le_trans with k; [apply N.log2_lt_pow2; [lia|exact H]|exact Hi]. }
  rewrite E.
  assert (Hsub : N.ldiff n (N.ones k) = 0%N).
  { destruct (N.eq_dec n 0) as [->|Hn]; [apply N.ldiff_0_l|].
    apply N.ldiff_ones_r_low, N.log2_lt_pow2; [lia|exact H]. }
  rewrite <- N.sub_nocarry_ldiff by exact Hsub.
  rewrite N.ones_equiv. lia.
Qed.

Lemma toUnsigned_neg1 bits : (0 < bits)%N -> toUnsigned bits (-1) = N.ones bits.
Proof.
  intro Hb. unfold toUnsigned.
  assert (Hp : (1 < 2 ^ Z.of_N bits)%Z).
  { replace 1%Z with (2 ^ 0)%Z by reflexivity. apply Z.pow_lt_mono_r; lia. }
  replace (-1 mod 2 ^ Z.of_N bits)%Z with (2 ^ Z.of_N bits - 1)%Z.
  - rewrite N.ones_equiv. apply N2Z.inj. rewrite Z2N.id by lia.
    rewrite N2Z.inj_pred_max, N2Z.inj_pow. cbn [Z.of_N]. lia.
  - symmetry. rewrite <- (Z.mod_small (2 ^ Z.of_N bits - 1) (2 ^ Z.of_N bits)) by lia.
    replace (2 ^ Z.of_N bits - 1)%Z with (-1 + 1 * 2 ^ Z.of_N bits)%Z at 1 by lia.
    rewrite Z.mod_add by lia. reflexivity.
Qed.

Lemma toUnsigned_0 bits : toUnsigned bits 0 = 0%N.
Proof. unfold toUnsigned. rewrite Z.mod_0_l; [reflexivity|]. apply Z.pow_nonzero; lia. Qed.

(* generic zigzag over a width *)
Definition zigzagW (bits u : N) : N :=
  N.lxor (N.shiftl u 1 mod 2 ^ bits)
         (toUnsigned bits (Z.shiftr (toSigned bits u) (Z.of_N bits - 1))).

Lemma pow_half_Z bits : (0 < bits)%N -> (2 ^ Z.of_N bits = 2 * 2 ^ (Z.of_N bits - 1))%Z.
Proof.
  intro H. replace (Z.of_N bits) with (1 + (Z.of_N bits - 1))%Z at 1 by lia.
  rewrite Z.pow_add_r by lia. reflexivity.
Qed.

Lemma pow_N_Z k : Z.of_N (2 ^ k) = (2 ^ Z.of_N k)%Z.
Proof. rewrite N2Z.inj_pow. reflexivity. Qed.

Lemma zigzagW_spec bits z :
  (0 < bits)%N -> (- 2 ^ (Z.of_N bits - 1) <= z < 2 ^ (Z.of_N bits - 1))%Z ->
  zigzagW bits (toUnsigned bits z) = spec_zigzag z.
Proof.
  intros Hb Hz.
  pose proof (pow_half_Z bits Hb) as Hh.
  assert (Hp : (0 < 2 ^ (Z.of_N bits - 1))%Z) by (apply Z.pow_pos_nonneg; lia).
  assert (HpN : Z.of_N (2 ^ (bits - 1)) = (2 ^ (Z.of_N bits - 1))%Z).
  { rewrite pow_N_Z. f_equal. lia. }
  assert (HqN : Z.of_N (2 ^ bits) = (2 ^ Z.of_N bits)%Z) by apply pow_N_Z.
  unfold zigzagW, spec_zigzag.
  set (P := (2 ^ (Z.of_N bits - 1))%Z) in *.
  destruct (Z.leb_spec 0 z) as [H0|H0].
  - assert (Hu : toUnsigned bits z = Z.to_N z).
    { unfold toUnsigned. rewrite Z.mod_small by lia. reflexivity. }
    rewrite Hu. unfold toSigned.
    destruct (N.ltb_spec (Z.to_N z) (2 ^ (bits - 1))) as [_|Hc]; [|lia].
    rewrite Z2N.id by lia.
    rewrite Z.shiftr_div_pow2 by lia. fold P. rewrite Z.div_small by lia.
    rewrite toUnsigned_0, N.lxor_0_r, N.shiftl_mul_pow2.
    change (2 ^ 1)%N with 2%N. rewrite N.mod_small by lia. lia.
  - assert (Hu : toUnsigned bits z = Z.to_N (z + 2 ^ Z.of_N bits)).
    { unfold toUnsigned. f_equal. symmetry.
      rewrite <- (Z.mod_small (z + 2 ^ Z.of_N bits) (2 ^ Z.of_N bits)) by lia.
      rewrite <- Z.add_mod_idemp_r by lia. rewrite Z.mod_same by lia. rewrite Z.add_0_r. reflexivity. }
    rewrite Hu. unfold toSigned.
    destruct (N.ltb_spec (Z.to_N (z + 2 ^ Z.of_N bits)) (2 ^ (bits - 1))) as [Hc|_]; [lia|].
    rewrite Z2N.id by lia.
    replace (z + 2 ^ Z.of_N bits - 2 ^ Z.of_N bits)%Z with z by lia.
    rewrite Z.shiftr_div_pow2 by lia. fold P.
    assert (Hd : (z / P = -1)%Z).
    { symmetry. apply (Z.div_unique z P (-1) (z + P)); lia. }
    rewrite Hd, toUnsigned_neg1 by exact Hb.
    rewrite N.shiftl_mul_pow2. change (2 ^ 1)%N with 2%N.
    assert (Hm : ((Z.to_N (z + 2 ^ Z.of_N bits) * 2) mod 2 ^ bits = Z.to_N (2 * z + 2 ^ Z.of_N bits))%N).
    { apply N2Z.inj. rewrite N2Z.inj_mod, N2Z.inj_mul, HqN by lia.
      rewrite !Z2N.id by lia. change (Z.of_N 2) with 2%Z.
      symmetry. apply (Z.mod_unique _ _ 1); [left; lia|lia]. }
    rewrite Hm. rewrite lxor_ones_compl by lia. lia.
Qed.

Lemma zigzag32_spec z :
  (- 2 ^ 31 <= z < 2 ^ 31)%Z -> zigzag32 (toUnsigned 32 z) = spec_zigzag z.
Proof. intro H. apply (zigzagW_spec 32 z); [lia|exact H]. Qed.
Lemma zigzag64_spec z :
  (- 2 ^ 63 <= z < 2 ^ 63)%Z -> zigzag64 (toUnsigned 64 z) = spec_zigzag z.
Proof. intro H. apply (zigzagW_spec 64 z); [lia|exact H]. Qed.

Lemma spec_zigzag_lt bits z :
  (0 < bits)%N -> (- 2 ^ (Z.of_N bits - 1) <= z < 2 ^ (Z.of_N bits - 1))%Z ->
  (spec_zigzag z < 2 ^ bits)%N.
Proof.
  intros Hb Hz. pose proof (pow_half_Z bits Hb) as Hh. pose proof (pow_N_Z bits) as HN.
  unfold spec_zigzag. destruct (Z.leb_spec 0 z); lia.
Qed.

Definition unzigzagW (bits x : N) : N :=
  N.lxor (N.shiftr x 1) (toUnsigned bits (- Z.of_N (N.land x 1))).

Lemma unzigzagW_spec bits z :
  (0 < bits)%N -> (- 2 ^ (Z.of_N bits - 1) <= z < 2 ^ (Z.of_N bits - 1))%Z ->
  unzigzagW bits (spec_zigzag z) = toUnsigned bits z.
Proof.
  intros Hb Hz.
  pose proof (pow_half_Z bits Hb) as Hh. pose proof (pow_N_Z bits) as HN.
  assert (Hp : (0 < 2 ^ (Z.of_N bits - 1))%Z) by (apply Z.pow_pos_nonneg; lia).
  unfold unzigzagW, spec_zigzag. change 1%N with (N.ones 1) at 2. rewrite N.land_ones.
  change (2 ^ 1)%N with 2%N. rewrite N.shiftr_div_pow2. change (2 ^ 1)%N with 2%N.
  set (P := (2 ^ (Z.of_N bits - 1))%Z) in *.
  destruct (Z.leb_spec 0 z) as [H0|H0].
  - replace (Z.to_N (2 * z) mod 2)%N with 0%N by lia.
    change (- Z.of_N 0)%Z with 0%Z. rewrite toUnsigned_0, N.lxor_0_r.
    unfold toUnsigned. rewrite Z.mod_small by lia. lia.
  - replace (Z.to_N (-2 * z - 1) mod 2)%N with 1%N by lia.
    change (- Z.of_N 1)%Z with (-1)%Z. rewrite toUnsigned_neg1 by exact Hb.
    replace (Z.to_N (-2 * z - 1) / 2)%N with (Z.to_N (- z - 1)) by lia.
    rewrite lxor_ones_compl by lia.
    unfold toUnsigned.
    replace (z mod 2 ^ Z.of_N bits)%Z with (z + 2 ^ Z.of_N bits)%Z; [lia|].
    rewrite <- (Z.mod_small (z + 2 ^ Z.of_N bits) (2 ^ Z.of_N bits)) by lia.
    rewrite <- Z.add_mod_idemp_r by lia. rewrite Z.mod_same by lia. rewrite Z.add_0_r. reflexivity.
Qed.

Lemma unzigzag64_spec z :
  (- 2 ^ 63 <= z < 2 ^ 63)%Z -> unzigzag64 (spec_zigzag z) = toUnsigned 64 z.
Proof. intro H. apply (unzigzagW_spec 64 z); [lia|exact H]. Qed.
Lemma unzigzag32_spec z :
  (- 2 ^ 31 <= z < 2 ^ 31)%Z -> unzigzag32 (spec_zigzag z) = toUnsigned 32 z.
Proof.
  intro H. unfold unzigzag32.
  assert (Hl : (spec_zigzag z < 2 ^ 32)%N) by (apply spec_zigzag_lt; [lia|exact H]).
  rewrite N.mod_small by exact Hl. apply (unzigzagW_spec 32 z); [lia|exact H].
Qed.

Lemma toSigned_toUnsigned bits z :
  (0 < bits)%N -> (- 2 ^ (Z.of_N bits - 1) <= z < 2 ^ (Z.of_N bits - 1))%Z ->
  toSigned bits (toUnsigned bits z) = z.
Proof.
  intros Hb Hz.
  pose proof (pow_half_Z bits Hb) as Hh.
  assert (Hp : (0 < 2 ^ (Z.of_N bits - 1))%Z) by (apply Z.pow_pos_nonneg; lia).
  assert (HpN : Z.of_N (2 ^ (bits - 1)) = (2 ^ (Z.of_N bits - 1))%Z).
  { rewrite pow_N_Z. f_equal. lia. }
  unfold toSigned, toUnsigned.
  destruct (Z.leb_spec 0 z) as [H0|H0].
  - rewrite Z.mod_small by lia.
    destruct (N.ltb_spec (Z.to_N z) (2 ^ (bits - 1))); lia.
  - replace (z mod 2 ^ Z.of_N bits)%Z with (z + 2 ^ Z.of_N bits)%Z.
    + destruct (N.ltb_spec (Z.to_N (z + 2 ^ Z.of_N bits)) (2 ^ (bits - 1))); lia.
    + rewrite <- (Z.mod_small (z + 2 ^ Z.of_N bits) (2 ^ Z.of_N bits)) by lia.
      rewrite <- Z.add_mod_idemp_r by lia. rewrite Z.mod_same by lia. rewrite Z.add_0_r. reflexivity.
Qed.

(* ------------------------------------------------------------ C01: any sequence of writes *)

Lemma runWop_spec b w :
  buf_ok b -> wop_ok w ->
  exists b', runWop b w = Some b' /\ bytesOf b' = bytesOf b ++ spec_wop (border b) w
             /\ buf_ok b' /\ border b' = border b /\ brpos b' = brpos b.
Proof.
  intros Hok Hw. destruct w as [c|s|p|n|n|n|n|z|z]; cbn [runWop spec_wop]; cbn [wop_ok] in Hw.
  - destruct (writeByte_spec b c Hok) as (A1 & A2 & A3 & A4 & _). eexists; eauto.
  - destruct (write_spec b s Hok) as (A1 & A2 & A3 & A4 & _). eexists; eauto.
  - destruct (write_spec b p Hok) as (A1 & A2 & A3 & A4 & _). eexists; eauto.
  - destruct (writeUint_spec 2 b n Hok) as (A1 & A2 & A3 & A4 & _). rewrite putUint_spec in A1. eexists; eauto.
  - destruct (writeUint_spec 4 b n Hok) as (A1 & A2 & A3 & A4 & _). rewrite putUint_spec in A1. eexists; eauto.
  - destruct (writeUint_spec 8 b n Hok) as (A1 & A2 & A3 & A4 & _). rewrite putUint_spec in A1. eexists; eauto.
  - destruct (writeVarint_spec b n Hok Hw) as (b' & A0 & A1 & A2 & A3 & A4). eexists; eauto.
  - unfold writeZigzag32. rewrite zigzag32_spec by exact Hw.
    assert (Hl : (spec_zigzag z < 2 ^ 64)%N).
    { eapply N.lt_trans; [apply (spec_zigzag_lt 32 z); [lia|exact Hw]|]. reflexivity. }
    destruct (writeVarint_spec b _ Hok Hl) as (b' & A0 & A1 & A2 & A3 & A4). eexists; eauto.
  - unfold writeZigzag64. rewrite zigzag64_spec by exact Hw.
    assert (Hl : (spec_zigzag z < 2 ^ 64)%N) by (apply (spec_zigzag_lt 64 z); [lia|exact Hw]).
    destruct (writeVarint_spec b _ Hok Hl) as (b' & A0 & A1 & A2 & A3 & A4). eexists; eauto.
Qed.

Lemma runWops_spec ws : forall b,
  buf_ok b -> Forall wop_ok ws ->
  exists b', runWops b ws = Some b'
             /\ bytesOf b' = bytesOf b ++ concat (map (spec_wop (border b)) ws)
             /\ buf_ok b' /\ border b' = border b /\ brpos b' = brpos b.
Proof.
  induction ws as [|w ws IH]; intros b Hok Hws; cbn [runWops map concat].
  - exists b. rewrite app_nil_r. auto.
  - inversion Hws as [|? ? Hw Hws']; subst.
    destruct (runWop_spec b w Hok Hw) as (b1 & E & E1 & E2 & E3 & E4).
    rewrite E. destruct (IH b1 E2 Hws') as (b2 & F & F1 & F2 & F3 & F4).
    exists b2. rewrite F, F1, E1, E3, app_assoc. repeat split; auto; congruence.
Qed.

Lemma newBuf_ok n o : buf_ok (newBuf n o).
Proof. unfold buf_ok. cbn. lia. Qed.

Lemma createBuf_ok d o : buf_ok (createBuf d o).
Proof. unfold buf_ok. cbn. lia. Qed.

Lemma bytesOf_new n o : bytesOf (newBuf n o) = [].
Proof. reflexivity. Qed.

Lemma bytesOf_create d o : bytesOf (createBuf d o) = d.
Proof. unfold bytesOf, createBuf. cbn. apply firstn_all. Qed.

Lemma writes_concat initsize o ws :
  Forall wop_ok ws ->
  exists b', runWops (newBuf initsize o) ws = Some b'
             /\ bytesOf b' = concat (map (spec_wop o) ws).
Proof.
  intro H. destruct (runWops_spec ws (newBuf initsize o) (newBuf_ok _ _) H) as (b' & E & E1 & _).
  exists b'. split; [exact E|]. rewrite E1. reflexivity.
Qed.

(* SetWPos keeps what is before it, and back-patching keeps what is behind it *)
Lemma setWPos_spec b pos :
  buf_ok b -> buf_ok (setWPos b pos) /\ border (setWPos b pos) = border b
  /\ brpos (setWPos b pos) = brpos b /\ bwpos (setWPos b pos) = pos
  /\ forall n, n <= pos -> n <= bwpos b -> firstn n (bbuf (setWPos b pos)) = firstn n (bbuf b).
Proof.
  intro Hok. unfold setWPos, buf_ok.
  destruct (Nat.ltb_spec (length (bbuf b)) pos) as [Hlt|Hge]; cbn [bbuf bwpos brpos border].
  - rewrite grow_length by exact Hok. repeat split; try lia; auto.
    intros n Hn Hn2.
    assert (E := grow_content b (pos - length (bbuf b)) Hok).
    apply (f_equal (firstn n)) in E. rewrite !firstn_firstn in E.
    replace (Nat.min n (bwpos b)) with n in E by lia. exact E.
  - repeat split; try lia; auto.
Qed.

Lemma backpatch b pos (v : N) k :
  buf_ok b -> pos + k <= bwpos b ->
  let b' := setWPos (writeUint k (setWPos b pos) v) (bwpos b) in
  bytesOf b' = firstn pos (bytesOf b) ++ putUint (border b) k v ++ skipn (pos + k) (bytesOf b)
  /\ buf_ok b' /\ border b' = border b /\ brpos b' = brpos b /\ bwpos b' = bwpos b.
Proof.
  intros Hok Hp. cbn zeta. pose proof Hok as Hok'. unfold buf_ok in Hok'.
  assert (E1 : setWPos b pos = mkBuf (bbuf b) (brpos b) pos (border b)).
  { unfold setWPos. destruct (Nat.ltb_spec (length (bbuf b)) pos); [lia|]. destruct b; reflexivity. }
  rewrite E1, writeUint_put.
  rewrite (put_nogrow _ k (fun o => putUint o k v)); cbn [bbuf brpos bwpos border]; [|lia|apply putUint_length].
  set (buf' := firstn pos (bbuf b) ++ putUint (border b) k v ++ skipn (pos + k) (bbuf b)).
  assert (Hlen : length buf' = length (bbuf b)).
  { unfold buf'. rewrite !app_length, firstn_length, skipn_length, putUint_length. lia. }
  unfold setWPos. cbn [bbuf bwpos brpos border].
  rewrite Hlen. destruct (Nat.ltb_spec (length (bbuf b)) (bwpos b)) as [Hlt|_]; [lia|].
  cbn [bbuf bwpos brpos border]. unfold bytesOf, buf_ok. cbn [bbuf bwpos].
  repeat split; auto; [|lia].
  unfold buf'. rewrite firstn_app, firstn_length.
  replace (Nat.min pos (length (bbuf b))) with pos by lia.
  rewrite firstn_firstn. replace (Nat.min (bwpos b) pos) with pos by lia.
  rewrite firstn_firstn. replace (Nat.min pos (bwpos b)) with pos by lia. f_equal.
  rewrite firstn_app, putUint_length.
  rewrite (firstn_all2 (n := bwpos b - pos)) by (rewrite putUint_length; lia). f_equal.
  rewrite firstn_skipn_comm. f_equal. f_equal. lia.
Qed.

(* ------------------------------------------------------------ reading *)

(* a buffer created from data whose read position is at [length pre] *)
Definition atPos (pre rest : list byte) (o : order) : buffer :=
  mkBuf (pre ++ rest) (length pre) (length (pre ++ rest)) o.

Lemma atPos_skip pre rest o : skipn (brpos (atPos pre rest o)) (bbuf (atPos pre rest o)) = rest.
Proof. cbn. apply skipn_app_exact. Qed.

Lemma advance_atPos pre mid rest o :
  advance (atPos pre (mid ++ rest) o) (length mid) = atPos (pre ++ mid) rest o.
Proof.
  unfold advance, setRPos, atPos. cbn [bbuf brpos bwpos border].
  rewrite <- !app_assoc, (app_length pre mid). reflexivity.
Qed.

Lemma remainLt_atPos pre rest o n : remainLt (atPos pre rest o) n = (length rest <? n).
Proof.
  unfold remainLt, atPos. cbn [bwpos brpos]. rewrite app_length.
  destruct (Nat.ltb_spec (length pre + length rest) (length pre + n)); destruct (Nat.ltb_spec (length rest) n); lia.
Qed.

Lemma readUint_short k pre rest o :
  length rest < k -> readUint k (atPos pre rest o) = (RErr ErrNotEnough, atPos pre rest o).
Proof. intro H. unfold readUint. rewrite remainLt_atPos. destruct (Nat.ltb_spec (length rest) k); [reflexivity|lia]. Qed.

Lemma readUint_app k pre mid rest o :
  length mid = k ->
  readUint k (atPos pre (mid ++ rest) o) = (ROk (getUint o mid), atPos (pre ++ mid) rest o).
Proof.
  intro H. unfold readUint. rewrite remainLt_atPos, app_length.
  destruct (Nat.ltb_spec (length mid + length rest) k) as [Hl|_]; [lia|].
  rewrite atPos_skip. subst k. rewrite firstn_app_exact, advance_atPos. reflexivity.
Qed.

Lemma readUint_putUint k pre n rest o :
  (n < 256 ^ N.of_nat k)%N ->
  readUint k (atPos pre (putUint o k n ++ rest) o) = (ROk n, atPos (pre ++ putUint o k n) rest o).
Proof.
  intro H. rewrite readUint_app by apply putUint_length. rewrite getUint_putUint by exact H. reflexivity.
Qed.

Lemma next_app n pre mid rest o :
  length mid = n -> next (atPos pre (mid ++ rest) o) n = (ROk mid, atPos (pre ++ mid) rest o).
Proof.
  intro H. unfold next. rewrite remainLt_atPos, app_length.
  destruct (Nat.ltb_spec (length mid + length rest) n) as [Hl|_]; [lia|].
  rewrite atPos_skip. subst n. rewrite firstn_app_exact, advance_atPos. reflexivity.
Qed.

Lemma next_short n pre rest o :
  length rest < n -> next (atPos pre rest o) n = (RErr ErrNotEnough, atPos pre rest o).
Proof. intro H. unfold next. rewrite remainLt_atPos. destruct (Nat.ltb_spec (length rest) n); [reflexivity|lia]. Qed.

Lemma readByte_cons pre c rest o :
  readByte (atPos pre (c :: rest) o) = (ROk c, atPos (pre ++ [c]) rest o).
Proof.
  unfold readByte, atPos. cbn [bbuf brpos].
  rewrite nth_error_app2 by lia. rewrite Nat.sub_diag. cbn [nth_error].
  f_equal. apply (advance_atPos pre [c] rest o).
Qed.

Lemma readByte_nil pre o : readByte (atPos pre [] o) = (RErr ErrEOF, atPos pre [] o).
Proof.
  unfold readByte, atPos. cbn [bbuf brpos]. rewrite app_nil_r.
  replace (nth_error pre (length pre)) with (@None byte); [reflexivity|].
  symmetry. apply nth_error_None. lia.
Qed.

Lemma land128_low b : (b < 128)%N -> N.land b 128 = 0%N.
Proof.
  intro H. change 128%N with (2 ^ 7)%N in *. apply N.bits_inj_0. intro i.
  rewrite N.land_spec, N.pow2_bits_eqb.
  destruct (N.eqb_spec 7 i) as [<-|_]; [|apply andb_false_r]. rewrite andb_true_r.
  destruct (N.eq_dec b 0) as [->|Hb]; [reflexivity|].
  apply N.bits_above_log2, N.log2_lt_pow2; [lia|exact H].
Qed.

(* finite facts about the 256 byte values *)
Definition all_bytes_N : list N := map N.of_nat (seq 0 256).
Lemma all_bytes_complete n : (n < 256)%N -> In n all_bytes_N.
Proof.
  intro H. unfold all_bytes_N. apply in_map_iff. exists (N.to_nat n). split; [lia|].
  apply in_seq. lia.
Qed.

Lemma cont_bit n : (n < 256)%N ->
  N.eqb (N.land n 128) 128 = (128 <=? n)%N /\ N.land n 127 = (n mod 128)%N.
Proof.
  intro H.
  assert (S : forallb (fun m => Bool.eqb (N.eqb (N.land m 128) 128) (128 <=? m)%N
                                && N.eqb (N.land m 127) (m mod 128)) all_bytes_N = true)
    by (vm_compute; reflexivity).
  rewrite forallb_forall in S. specialize (S n (all_bytes_complete n H)).
  apply andb_true_iff in S as [S1 S2]. apply eqb_prop in S1. apply N.eqb_eq in S2. auto.
Qed.

Lemma lor_shift_add x d off : (x < 2 ^ off)%N -> N.lor x (N.shiftl d off) = (x + d * 2 ^ off)%N.
Proof.
  intro H. rewrite N.shiftl_mul_pow2.
  rewrite N.add_nocarry_lxor.
  - symmetry. apply N.lxor_lor.
    apply N.bits_inj_0. intro i. rewrite N.land_spec.
    destruct (N.ltb_spec i off) as [Hi|Hi].
    + rewrite N.mul_pow2_bits_low by exact Hi. apply andb_false_r.
    + replace (N.testbit x i) with false; [reflexivity|]. symmetry.
      destruct (N.eq_dec x 0) as [->|Hx]; [apply N.bits_0|].
      apply N.bits_above_log2. apply N.lt_le_trans with off; [apply N.log2_lt_pow2; [lia|exact H]|exact Hi].
  - apply N.bits_inj_0. intro i. rewrite N.land_spec.
    destruct (N.ltb_spec i off) as [Hi|Hi].
    + rewrite N.mul_pow2_bits_low by exact Hi. apply andb_false_r.
    + replace (N.testbit x i) with false; [reflexivity|]. symmetry.
      destruct (N.eq_dec x 0) as [->|Hx]; [apply N.bits_0|].
      apply N.bits_above_log2. apply N.lt_le_trans with off; [apply N.log2_lt_pow2; [lia|exact H]|exact Hi].
Qed.

Lemma spec_leb_S d n : spec_leb (S d) n =
  if (n <? 128)%N then [n2b n] else n2b (128 + n mod 128) :: spec_leb d (n / 128).
Proof. reflexivity. Qed.

(* reading back digits: x already holds the bits below off *)
Lemma readVarintLoop_leb d : forall off x n pre rest o,
  (x < 2 ^ off)%N -> (x + n * 2 ^ off < 2 ^ 64)%N -> (n < 2 ^ (7 * N.of_nat d))%N -> 0 < d ->
  readVarintLoop d off x (atPos pre (spec_leb d n ++ rest) o)
  = (ROk (x + n * 2 ^ off)%N, atPos (pre ++ spec_leb d n) rest o).
Proof.
  induction d as [|d IH]; intros off x n pre rest o Hx Hlim Hn Hd; [lia|].
  rewrite spec_leb_S. cbn [readVarintLoop].
  assert (Hpow : (0 < 2 ^ off)%N) by (apply N.neq_0_lt_0, N.pow_nonzero; lia).
  destruct (N.ltb_spec n 128) as [Hs|Hb].
  - cbn [app]. rewrite readByte_cons.
    assert (Hb8 : b2n (n2b n) = n) by (apply b2n_n2b_small; lia).
    rewrite Hb8. destruct (cont_bit n) as [C1 _]; [lia|]. rewrite C1.
    destruct (N.leb_spec 128 n) as [Hc|_]; [lia|]. cbn [negb].
    f_equal. f_equal. rewrite N.mod_small.
    + apply lor_shift_add, Hx.
    + rewrite N.shiftl_mul_pow2. change two64 with (2 ^ 64)%N. nia.
  - cbn [app]. rewrite readByte_cons.
    assert (Hm : (n mod 128 < 128)%N) by (apply N.mod_lt; lia).
    assert (Hb8 : b2n (n2b (128 + n mod 128)) = (128 + n mod 128)%N) by (apply b2n_n2b_small; lia).
    rewrite Hb8. destruct (cont_bit (128 + n mod 128)) as [C1 C2]; [lia|]. rewrite C1, C2.
    destruct (N.leb_spec 128 (128 + n mod 128)) as [_|Hc]; [|lia]. cbn [negb].
    replace ((128 + n mod 128) mod 128)%N with (n mod 128)%N.
    2:{ rewrite <- N.add_mod_idemp_l by lia. rewrite N.mod_same by lia.
        rewrite N.add_0_l, N.mod_mod by lia. reflexivity. }
    assert (Hdiv : n = (128 * (n / 128) + n mod 128)%N) by (apply N.div_mod; lia).
    assert (Hd' : 0 < d).
    { destruct d; [|lia]. change (7 * N.of_nat 1)%N with 7%N in Hn. change (2 ^ 7)%N with 128%N in Hn. lia. }
    rewrite (N.mod_small (N.shiftl _ _)) by (rewrite N.shiftl_mul_pow2; change two64 with (2 ^ 64)%N; nia).
    rewrite lor_shift_add by exact Hx.
    assert (Hp7 : (2 ^ (off + 7) = 2 ^ off * 128)%N) by (rewrite N.pow_add_r; reflexivity).
    rewrite IH.
    + f_equal; [f_equal; rewrite Hp7; nia|]. rewrite <- app_assoc. reflexivity.
    + rewrite Hp7. nia.
    + rewrite Hp7. nia.
    + apply N.div_lt_upper_bound; [lia|].
      replace (7 * N.of_nat (S d))%N with (7 + 7 * N.of_nat d)%N in Hn by lia.
      rewrite N.pow_add_r in Hn. exact Hn.
    + exact Hd'.
Qed.

Lemma readVarint_spec n pre rest o :
  (n < 2 ^ 64)%N ->
  readVarint (atPos pre (spec_varint n ++ rest) o) = (ROk n, atPos (pre ++ spec_varint n) rest o).
Proof.
  intro H. unfold readVarint, spec_varint. rewrite readVarintLoop_leb.
  - rewrite N.pow_0_r, N.mul_1_r, N.add_0_l. reflexivity.
  - cbn. lia.
  - rewrite N.pow_0_r. lia.
  - eapply N.lt_le_trans; [exact H|apply pow64_le_70].
  - lia.
Qed.

Lemma readZigzag32_spec z pre rest o :
  (- 2 ^ 31 <= z < 2 ^ 31)%Z ->
  readZigzag32 (atPos pre (spec_varint (spec_zigzag z) ++ rest) o)
  = (ROk (toUnsigned 32 z), atPos (pre ++ spec_varint (spec_zigzag z)) rest o).
Proof.
  intro H. unfold readZigzag32. rewrite readVarint_spec.
  - rewrite unzigzag32_spec by exact H. reflexivity.
  - eapply N.lt_trans; [apply (spec_zigzag_lt 32 z); [lia|exact H]|]. reflexivity.
Qed.

Lemma readZigzag64_spec z pre rest o :
  (- 2 ^ 63 <= z < 2 ^ 63)%Z ->
  readZigzag64 (atPos pre (spec_varint (spec_zigzag z) ++ rest) o)
  = (ROk (toUnsigned 64 z), atPos (pre ++ spec_varint (spec_zigzag z)) rest o).
Proof.
  intro H. unfold readZigzag64. rewrite readVarint_spec.
  - rewrite unzigzag64_spec by exact H. reflexivity.
  - apply (spec_zigzag_lt 64 z); [lia|exact H].
Qed.

Lemma spec_leb_length_pos d n : 0 < d -> 0 < length (spec_leb d n).
Proof. destruct d; [lia|]. intros _. cbn [spec_leb]. destruct (n <? 128)%N; cbn; lia. Qed.

Lemma readFull_app n pre mid rest o :
  length mid = n -> readFull (atPos pre (mid ++ rest) o) n = (ROk mid, atPos (pre ++ mid) rest o).
Proof.
  intro H. unfold readFull. rewrite remainLt_atPos, app_length.
  destruct (Nat.ltb_spec (length mid + length rest) n) as [Hl|_]; [lia|].
  rewrite atPos_skip. subst n. cbn zeta. rewrite firstn_app_exact.
  destruct (Nat.ltb_spec (length mid) (length mid)) as [Hl|_]; [lia|].
  rewrite advance_atPos. reflexivity.
Qed.

Lemma readFull_short n pre rest o :
  length rest < n -> readFull (atPos pre rest o) n = (RErr ErrNotEnough, atPos pre rest o).
Proof. intro H. unfold readFull. rewrite remainLt_atPos. destruct (Nat.ltb_spec (length rest) n); [reflexivity|lia]. Qed.

Lemma atPos_create pre rest o : setRPos (createBuf (pre ++ rest) o) (length pre) = atPos pre rest o.
Proof. reflexivity. Qed.

Lemma atPos_setRPos pre mid rest o :
  atPos (pre ++ mid) rest o = setRPos (atPos pre (mid ++ rest) o) (length (pre ++ mid)).
Proof. unfold atPos, setRPos. cbn. rewrite <- !app_assoc. reflexivity. Qed.

Lemma spec_reads_back pre w rest o :
  wop_ok w ->
  reads_back w (atPos pre (spec_wop o w ++ rest) o) (length (pre ++ spec_wop o w)).
Proof.
  intro Hw. destruct w as [c|s|p|n|n|n|n|z|z]; cbn [reads_back spec_wop]; cbn [wop_ok] in Hw;
    rewrite <- ?putUint_spec, <- atPos_setRPos.
  - apply readByte_cons.
  - split; [apply next_app|apply readFull_app]; reflexivity.
  - split; [apply next_app|apply readFull_app]; reflexivity.
  - apply readUint_putUint. exact Hw.
  - apply readUint_putUint. exact Hw.
  - apply readUint_putUint. exact Hw.
  - apply readVarint_spec. exact Hw.
  - exists (toUnsigned 32 z). split; [apply readZigzag32_spec, Hw|apply toSigned_toUnsigned; [lia|exact Hw]].
  - exists (toUnsigned 64 z). split; [apply readZigzag64_spec, Hw|apply toSigned_toUnsigned; [lia|exact Hw]].
Qed.

Lemma write_then_read b w b' suf :
  buf_ok b -> wop_ok w -> runWop b w = Some b' ->
  reads_back w (setRPos (createBuf (bytesOf b' ++ suf) (border b)) (length (bytesOf b)))
               (length (bytesOf b')).
Proof.
  intros Hok Hw Hr. destruct (runWop_spec b w Hok Hw) as (b1 & E & E1 & _).
  rewrite E in Hr. injection Hr as <-. rewrite E1, <- app_assoc, atPos_create.
  apply spec_reads_back, Hw.
Qed.

Lemma reset_ok b : buf_ok (reset b).
Proof. unfold buf_ok. cbn. lia. Qed.

Lemma writes_concat_reuse b ws :
  Forall wop_ok ws ->
  exists b', runWops (reset b) ws = Some b' /\ bytesOf b' = concat (map (spec_wop (border b)) ws).
Proof.
  intro H. destruct (runWops_spec ws (reset b) (reset_ok b) H) as (b' & E & E1 & _).
  exists b'. split; [exact E|]. rewrite E1. reflexivity.
Qed.

Lemma short_read_fails rd n :
  remain rd < n ->
  readUint n rd = (RErr ErrNotEnough, rd) /\ next rd n = (RErr ErrNotEnough, rd)
  /\ readFull rd n = (RErr ErrNotEnough, rd).
Proof.
  unfold remain, readUint, next, readFull, remainLt. intro H.
  destruct (Nat.ltb_spec (bwpos rd) (brpos rd + n)) as [_|Hg]; [auto|lia].
Qed.

Lemma varint_loop_cont got : forall iters off x pre rest o, forallb (fun c => (128 <=? b2n c)%N) got = true -> length got <= iters ->
  exists off' x', readVarintLoop iters off x (atPos pre (got ++ rest) o) = readVarintLoop (iters - length got) off' x' (atPos (pre ++ got) rest o).
Proof.
  induction got as [|c got IH]; intros iters off x pre rest o Hc Hl.
  - exists off, x. cbn [length app]. rewrite Nat.sub_0_r, app_nil_r. reflexivity.
  - cbn [forallb] in Hc. apply andb_true_iff in Hc as [C1 C2]. cbn [length] in Hl. destruct iters as [|i]; [lia|].
    cbn [app readVarintLoop length Nat.sub]. rewrite readByte_cons.
    destruct (cont_bit (b2n c)) as [B _]; [apply b2n_lt|]. rewrite B, C1. cbn [negb].
    destruct (IH i (off + 7)%N (N.lor x (N.shiftl (N.land (b2n c) 127) off mod two64)) (pre ++ [c]) rest o C2 ltac:(lia)) as (o' & x' & E).
    exists o', x'. rewrite E, <- app_assoc. reflexivity.
Qed.
Lemma varint_refused : forall pre got rest o, forallb (fun c => (128 <=? b2n c)%N) got = true ->
  let rd := setRPos (createBuf (pre ++ got ++ rest) o) (length pre) in
  let behind := setRPos (createBuf (pre ++ got ++ rest) o) (length (pre ++ got)) in
  (length got < 10 -> rest = [] -> readVarint rd = (RErr ErrEOF, behind) /\ readZigzag32 rd = (RErr ErrEOF, behind) /\ readZigzag64 rd = (RErr ErrEOF, behind)) /\
  (length got = 10 -> readVarint rd = (RErr ErrOverflow, behind) /\ readZigzag32 rd = (RErr ErrOverflow, behind) /\ readZigzag64 rd = (RErr ErrOverflow, behind)).
Proof.
  intros pre got rest o Hc. cbv zeta.
  assert (R : setRPos (createBuf (pre ++ got ++ rest) o) (length pre) = atPos pre (got ++ rest) o) by reflexivity.
  assert (B : setRPos (createBuf (pre ++ got ++ rest) o) (length (pre ++ got)) = atPos (pre ++ got) rest o) by (unfold atPos, setRPos, createBuf; cbn; rewrite <- app_assoc; reflexivity).
  rewrite R, B.
  assert (Z : forall e, readVarint (atPos pre (got ++ rest) o) = (RErr e, atPos (pre ++ got) rest o) ->
     readVarint (atPos pre (got ++ rest) o) = (RErr e, atPos (pre ++ got) rest o) /\ readZigzag32 (atPos pre (got ++ rest) o) = (RErr e, atPos (pre ++ got) rest o) /\
     readZigzag64 (atPos pre (got ++ rest) o) = (RErr e, atPos (pre ++ got) rest o)).
  { intros e E. unfold readZigzag32, readZigzag64. rewrite E. auto. }
  split.
  - intros L ->. apply Z. unfold readVarint. destruct (varint_loop_cont got 10 0 0 pre [] o Hc ltac:(lia)) as (off & x & E). rewrite E.
    destruct (10 - length got) as [|i] eqn:Ei; [lia|]. cbn [readVarintLoop].
    assert (RB : readByte (atPos (pre ++ got) [] o) = (RErr ErrEOF, atPos (pre ++ got) [] o)).
    { unfold readByte, atPos. cbn [brpos bwpos bbuf]. rewrite app_nil_r. rewrite (proj2 (nth_error_None _ _)) by lia. reflexivity. }
    rewrite RB. reflexivity.
  - intros L. apply Z. unfold readVarint. destruct (varint_loop_cont got 10 0 0 pre rest o Hc ltac:(lia)) as (off & x & E). rewrite E, L. reflexivity.
Qed.
