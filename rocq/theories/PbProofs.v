(* PbProofs.v: lemmas about PbModel. *)
From Verif Require Import Base BytesModel BytesSpec BytesProofs PbModel PbSpec.
Ltac Zify.zify_post_hook ::= idtac.
Local Arguments N.add : simpl never.
Local Arguments N.mul : simpl never.
Local Arguments N.div : simpl never.
Local Arguments N.modulo : simpl never.
Local Arguments N.pow : simpl never.

(* ------------------------------------------------------------ varints *)
Lemma encVarintLoop_leb f : forall x, encVarintLoop f x = spec_leb f x.
Proof.
  induction f as [|f IH]; intros x; cbn [encVarintLoop spec_leb]; [reflexivity|].
  destruct (N.ltb_spec x 128) as [H|H]; [reflexivity|].
  rewrite varint_byte by exact H. rewrite N.shiftr_div_pow2. change (2 ^ 7)%N with 128%N. rewrite IH. reflexivity.
Qed.
Lemma encVarint_spec x : encVarint x = spec_varint x.
Proof. apply encVarintLoop_leb. Qed.
Lemma leb_next d n : (n < 2 ^ (7 * N.of_nat (S d)))%N -> (128 <= n)%N -> 0 < d /\ (n / 128 < 2 ^ (7 * N.of_nat d))%N.
Proof.
  intros Hn Hb. split.
  - destruct d; [|lia]. change (7 * N.of_nat 1)%N with 7%N in Hn. change (2 ^ 7)%N with 128%N in Hn. lia.
  - apply N.div_lt_upper_bound; [lia|].
    replace (7 * N.of_nat (S d))%N with (7 + 7 * N.of_nat d)%N in Hn by lia. rewrite N.pow_add_r in Hn. exact Hn.
Qed.
Lemma cont_byte n : b2n (n2b (128 + n mod 128)) = (128 + n mod 128)%N /\ ((128 + n mod 128) mod 128 = n mod 128)%N.
Proof.
  assert (Hm : (n mod 128 < 128)%N) by (apply N.mod_lt; lia). split; [apply b2n_n2b_small; lia|].
  rewrite <- N.add_mod_idemp_l by lia. rewrite N.mod_same by lia. rewrite N.add_0_l, N.mod_mod by lia. reflexivity.
Qed.
Lemma decVarintLoop_leb d : forall shift x n rest,
  (x + n * 2 ^ shift < 2 ^ 64)%N -> (n < 2 ^ (7 * N.of_nat d))%N -> 0 < d ->
  decVarintLoop d shift x (spec_leb d n ++ rest) = inr ((x + n * 2 ^ shift)%N, rest).
Proof.
  induction d as [|d IH]; intros shift x n rest Hlim Hn Hd; [lia|].
  cbn [spec_leb decVarintLoop].
  assert (Hpow : (0 < 2 ^ shift)%N) by (apply N.neq_0_lt_0, N.pow_nonzero; lia).
  destruct (N.ltb_spec n 128) as [Hs|Hb].
  - cbn [app]. rewrite b2n_n2b_small by lia. rewrite (N.mod_small n) by lia.
    destruct (N.ltb_spec n 128) as [_|Hc]; [|lia].
    rewrite N.mod_small by (change two64 with (2 ^ 64)%N; exact Hlim). reflexivity.
  - cbn [app]. destruct (cont_byte n) as [E1 E2]. rewrite E1, E2.
    destruct (N.ltb_spec (128 + n mod 128) 128) as [Hc|_]; [lia|].
    destruct (leb_next d n Hn Hb) as [Hd' Hn'].
    assert (Hdiv : n = (128 * (n / 128) + n mod 128)%N) by (apply N.div_mod; lia).
    assert (Hm : (n mod 128 < 128)%N) by (apply N.mod_lt; lia).
    assert (Hp7 : (2 ^ (shift + 7) = 2 ^ shift * 128)%N) by (rewrite N.pow_add_r; reflexivity).
    generalize dependent (n mod 128)%N. intros r _ _ Hdiv Hr.
    generalize dependent (n / 128)%N. intros q Hn' Hdiv.
    assert (HE : ((x + r * 2 ^ shift) + q * 2 ^ (shift + 7) = x + n * 2 ^ shift)%N) by (rewrite Hp7; subst n; ring).
    rewrite N.mod_small.
    + rewrite IH; [rewrite HE; reflexivity|rewrite HE; exact Hlim|exact Hn'|exact Hd'].
    + change two64 with (2 ^ 64)%N. rewrite <- HE in Hlim. apply N.le_lt_trans with (2 := Hlim). apply N.le_add_r.
Qed.
Lemma decVarintLoop_cut d : forall shift x n k,
  (n < 2 ^ (7 * N.of_nat d))%N -> 0 < d -> k < length (spec_leb d n) ->
  decVarintLoop d shift x (firstn k (spec_leb d n)) = inl EEof.
Proof.
  induction d as [|d IH]; intros shift x n k Hn Hd Hk; [lia|].
  cbn [spec_leb] in *. destruct k as [|k]; [reflexivity|].
  destruct (N.ltb_spec n 128) as [Hs|Hb]; [cbn in Hk; lia|].
  cbn [firstn decVarintLoop]. destruct (cont_byte n) as [E1 E2]. rewrite E1.
  destruct (N.ltb_spec (128 + n mod 128) 128) as [Hc|_]; [lia|].
  destruct (leb_next d n Hn Hb) as [Hd' Hn']. apply IH; [exact Hn'|exact Hd'|cbn in Hk; lia].
Qed.
Lemma lt64_70 n : (n < 2 ^ 64)%N -> (n < 2 ^ (7 * N.of_nat 10))%N.
Proof. intro H. eapply N.lt_le_trans; [exact H|apply pow64_le_70]. Qed.
Lemma decVarint_spec n rest : (n < 2 ^ 64)%N -> decVarint (spec_varint n ++ rest) = inr (n, rest).
Proof.
  intro H. unfold decVarint, spec_varint. rewrite decVarintLoop_leb; [|rewrite N.pow_0_r; lia|apply lt64_70, H|lia].
  rewrite N.pow_0_r, N.mul_1_r, N.add_0_l. reflexivity.
Qed.
Lemma decVarint_cut n k : (n < 2 ^ 64)%N -> k < length (spec_varint n) -> decVarint (firstn k (spec_varint n)) = inl EEof.
Proof. intros H Hk. apply decVarintLoop_cut; [apply lt64_70, H|lia|exact Hk]. Qed.
Lemma decVarintLoop_lt r : forall shift x l y l', decVarintLoop r shift x l = inr (y, l') -> (y < 2 ^ 64)%N /\ length l' < length l.
Proof.
  induction r as [|r IH]; intros shift x l y l' H; [discriminate|]. cbn [decVarintLoop] in H.
  destruct l as [|c l0]; [discriminate|]. destruct (b2n c <? 128)%N.
  - injection H as <- <-. split; [apply N.mod_lt; discriminate|cbn; lia].
  - apply IH in H. cbn. intuition lia.
Qed.
Lemma decVarint_lt l y l' : decVarint l = inr (y, l') -> (y < 2 ^ 64)%N /\ length l' < length l.
Proof. apply decVarintLoop_lt. Qed.
Lemma dec0 l : decVarint (x00 :: l) = inr (0%N, l).
Proof. reflexivity. Qed.
Lemma dec1 l : decVarint (x01 :: l) = inr (1%N, l).
Proof. reflexivity. Qed.

(* ------------------------------------------------------------ zigzag *)
Lemma toUnsigned_toSigned bits u : (0 < bits)%N -> (u < 2 ^ bits)%N -> toUnsigned bits (toSigned bits u) = u.
Proof.
  intros Hb Hu. unfold toSigned, toUnsigned. pose proof (pow_N_Z bits) as HN.
  destruct (N.ltb_spec u (2 ^ (bits - 1))) as [H|H].
  - rewrite Z.mod_small by lia. lia.
  - replace ((Z.of_N u - 2 ^ Z.of_N bits) mod 2 ^ Z.of_N bits)%Z with (Z.of_N u); [lia|].
    symmetry. rewrite <- (Z.mod_small (Z.of_N u) (2 ^ Z.of_N bits)) at 2 by lia.
    replace (Z.of_N u - 2 ^ Z.of_N bits)%Z with (Z.of_N u + (-1) * 2 ^ Z.of_N bits)%Z by lia. apply Z.mod_add. lia.
Qed.
Lemma toSigned_range bits u : (0 < bits)%N -> (u < 2 ^ bits)%N -> (- 2 ^ (Z.of_N bits - 1) <= toSigned bits u < 2 ^ (Z.of_N bits - 1))%Z.
Proof.
  intros Hb Hu. unfold toSigned. pose proof (pow_N_Z bits) as HN. pose proof (pow_half_Z bits Hb) as Hh.
  assert (HpN : Z.of_N (2 ^ (bits - 1)) = (2 ^ (Z.of_N bits - 1))%Z) by (rewrite pow_N_Z; f_equal; lia).
  destruct (N.ltb_spec u (2 ^ (bits - 1))); lia.
Qed.
Lemma zigzag32_bits u : (u < 2 ^ 32)%N -> zigzag32 u = spec_zigzag (toSigned 32 u).
Proof.
  intro H. rewrite <- (toUnsigned_toSigned 32 u) at 1 by (auto; lia). apply zigzag32_spec.
  exact (toSigned_range 32 u ltac:(lia) H).
Qed.
Lemma zigzag64_bits u : (u < 2 ^ 64)%N -> zigzag64 u = spec_zigzag (toSigned 64 u).
Proof.
  intro H. rewrite <- (toUnsigned_toSigned 64 u) at 1 by (auto; lia). apply zigzag64_spec.
  exact (toSigned_range 64 u ltac:(lia) H).
Qed.
Lemma toUnsigned_lt bits z : (toUnsigned bits z < 2 ^ bits)%N.
Proof.
  unfold toUnsigned. pose proof (pow_N_Z bits). assert (0 < 2 ^ Z.of_N bits)%Z by (apply Z.pow_pos_nonneg; lia).
  pose proof (Z.mod_pos_bound z (2 ^ Z.of_N bits)). lia.
Qed.
Lemma trunc32 z : (toUnsigned 64 z mod two32 = toUnsigned 32 z)%N.
Proof.
  unfold toUnsigned. change two32 with (Z.to_N (2 ^ 32)). change (Z.of_N 64) with 64%Z. change (Z.of_N 32) with 32%Z.
  pose proof (Z.mod_pos_bound z (2 ^ 64) ltac:(lia)) as B.
  rewrite <- Z2N.inj_mod by lia. f_equal.
  pose proof (Z.div_mod z (2 ^ 64) ltac:(lia)) as E. rewrite E at 2.
  replace (2 ^ 64 * (z / 2 ^ 64))%Z with ((2 ^ 32 * (z / 2 ^ 64)) * 2 ^ 32)%Z by (change (2 ^ 64)%Z with (2 ^ 32 * 2 ^ 32)%Z; ring).
  rewrite Z.add_comm, Z.mod_add by lia. reflexivity.
Qed.
Lemma encZigzag32_spec z : (- 2 ^ 31 <= z < 2 ^ 31)%Z -> encZigzag32 (toUnsigned 64 z) = spec_varint (spec_zigzag z).
Proof. intro H. unfold encZigzag32. rewrite encVarint_spec, trunc32, zigzag32_spec by exact H. reflexivity. Qed.
Lemma encZigzag32_bits u : (u < 2 ^ 32)%N -> encZigzag32 u = spec_varint (spec_zigzag (toSigned 32 u)).
Proof.
  intro H. unfold encZigzag32. rewrite encVarint_spec. change two32 with (2 ^ 32)%N. rewrite N.mod_small by exact H.
  rewrite zigzag32_bits by exact H. reflexivity.
Qed.
Lemma encZigzag64_spec z : (- 2 ^ 63 <= z < 2 ^ 63)%Z -> encZigzag64 (toUnsigned 64 z) = spec_varint (spec_zigzag z).
Proof. intro H. unfold encZigzag64. rewrite encVarint_spec, zigzag64_spec by exact H. reflexivity. Qed.
Lemma encZigzag64_bits u : (u < 2 ^ 64)%N -> encZigzag64 u = spec_varint (spec_zigzag (toSigned 64 u)).
Proof. intro H. unfold encZigzag64. rewrite encVarint_spec, zigzag64_bits by exact H. reflexivity. Qed.

(* a zigzag number on the wire *)
Lemma zz_lt64 z : (- 2 ^ 63 <= z < 2 ^ 63)%Z -> (spec_zigzag z < 2 ^ 64)%N.
Proof. intro H. apply (spec_zigzag_lt 64 z); [lia|exact H]. Qed.
Lemma decZigzag32_spec z rest : (- 2 ^ 31 <= z < 2 ^ 31)%Z ->
  decZigzag32 (spec_varint (spec_zigzag z) ++ rest) = inr (toUnsigned 32 z, rest).
Proof. intro H. unfold decZigzag32. rewrite decVarint_spec by (apply zz_lt64; lia). rewrite unzigzag32_spec by exact H. reflexivity. Qed.
Lemma decZigzag64_spec z rest : (- 2 ^ 63 <= z < 2 ^ 63)%Z ->
  decZigzag64 (spec_varint (spec_zigzag z) ++ rest) = inr (toUnsigned 64 z, rest).
Proof. intro H. unfold decZigzag64. rewrite decVarint_spec by (apply zz_lt64; lia). rewrite unzigzag64_spec by exact H. reflexivity. Qed.
Lemma decZigzag32_cut z k : (- 2 ^ 31 <= z < 2 ^ 31)%Z -> k < length (spec_varint (spec_zigzag z)) ->
  decZigzag32 (firstn k (spec_varint (spec_zigzag z))) = inl EEof.
Proof. intros H Hk. unfold decZigzag32. rewrite decVarint_cut; [reflexivity|apply zz_lt64; lia|exact Hk]. Qed.
Lemma decZigzag64_cut z k : (- 2 ^ 63 <= z < 2 ^ 63)%Z -> k < length (spec_varint (spec_zigzag z)) ->
  decZigzag64 (firstn k (spec_varint (spec_zigzag z))) = inl EEof.
Proof. intros H Hk. unfold decZigzag64. rewrite decVarint_cut; [reflexivity|apply zz_lt64; lia|exact Hk]. Qed.

(* ------------------------------------------------------------ fixed and bytes *)
Lemma spec_uint_le k x : spec_uint LittleE k x = leBytes k x.
Proof. symmetry. exact (putUint_spec LittleE k x). Qed.
Lemma decFixed_spec k x rest : (x < 256 ^ N.of_nat k)%N -> decFixed k (leBytes k x ++ rest) = inr (x, rest).
Proof.
  intro H. unfold decFixed. rewrite app_length, leBytes_length. destruct (Nat.ltb_spec (k + length rest) k); [lia|].
  pose proof (firstn_app_exact (leBytes k x) rest) as E1. pose proof (skipn_app_exact (leBytes k x) rest) as E2.
  rewrite leBytes_length in E1. rewrite leBytes_length in E2. rewrite E1, E2, leVal_leBytes by exact H. reflexivity.
Qed.
Lemma decFixed_cut k x j : j < length (leBytes k x) -> decFixed k (firstn j (leBytes k x)) = inl EEof.
Proof. intro H. rewrite leBytes_length in H. unfold decFixed. rewrite firstn_length, leBytes_length. destruct (Nat.ltb_spec (Nat.min j k) k); [reflexivity|lia]. Qed.
Lemma decBytes_spec s rest : (N.of_nat (length s) < 2 ^ 63)%N ->
  decBytes (spec_varint (N.of_nat (length s)) ++ s ++ rest) = inr (s, rest).
Proof.
  intro H. unfold decBytes. rewrite decVarint_spec by lia.
  destruct (N.leb_spec (2 ^ 63) (N.of_nat (length s))) as [B|_]; [lia|].
  rewrite app_length. destruct (N.ltb_spec (N.of_nat (length s + length rest)) (N.of_nat (length s))) as [B|_]; [lia|].
  rewrite Nat2N.id, firstn_app_exact, skipn_app_exact. reflexivity.
Qed.
Lemma firstn_app_cut {A} k (a b : list A) : firstn k (a ++ b) = if k <? length a then firstn k a else a ++ firstn (k - length a) b.
Proof.
  rewrite firstn_app. destruct (Nat.ltb_spec k (length a)) as [H|H].
  - replace (k - length a) with 0 by lia. cbn [firstn]. apply app_nil_r.
  - rewrite firstn_all2 by exact H. reflexivity.
Qed.
Lemma decBytes_cut s k : (N.of_nat (length s) < 2 ^ 63)%N -> k < length (spec_varint (N.of_nat (length s)) ++ s) ->
  decBytes (firstn k (spec_varint (N.of_nat (length s)) ++ s)) = inl EEof.
Proof.
  intros H Hk. rewrite app_length in Hk. unfold decBytes. rewrite firstn_app_cut.
  destruct (Nat.ltb_spec k (length (spec_varint (N.of_nat (length s))))) as [L|L].
  - rewrite decVarint_cut; [reflexivity|lia|exact L].
  - rewrite decVarint_spec by lia.
    destruct (N.leb_spec (2 ^ 63) (N.of_nat (length s))) as [B|_]; [lia|].
    rewrite firstn_length.
    destruct (N.ltb_spec (N.of_nat (Nat.min (k - length (spec_varint (N.of_nat (length s)))) (length s))) (N.of_nat (length s))); [reflexivity|lia].
Qed.

(* ------------------------------------------------------------ plain values *)
Lemma toSigned_small z : (0 <= z < 2 ^ 31)%Z -> toSigned 32 (Z.to_N z) = z.
Proof. intro H. unfold toSigned. destruct (N.ltb_spec (Z.to_N z) (2 ^ (32 - 1))) as [B|B]; [lia|]. change (2 ^ (32 - 1))%N with 2147483648%N in B. lia. Qed.
Lemma quiet32_id x : (x mod 2 ^ 31 <= 2139095040)%N \/ N.testbit x 22 = true -> quiet32 x = x.
Proof.
  intros H. unfold quiet32. destruct (isNaN32 x) eqn:E; [|reflexivity]. destruct H as [H|H].
  - unfold isNaN32 in E. apply N.ltb_lt in E. change (2 ^ 31)%N with 2147483648%N in H. lia.
  - change 4194304%N with (2 ^ 22)%N. rewrite <- N.setbit_spec'. apply N.bits_inj. intro n. rewrite N.setbit_eqb.
    destruct (N.eqb_spec 22 n) as [<-|]; [rewrite H|]; reflexivity.
Qed.
Lemma serBody_plain {M} (c : codec M) addr (v : gval M) : plain_ok v -> serBody c addr v = SOk (wire_plain v).
Proof.
  destruct v; cbn [plain_ok serBody wire_plain]; intro H; try contradiction.
  - destruct b; reflexivity.
  - rewrite encZigzag32_spec by lia. reflexivity.
  - rewrite encZigzag32_spec by lia. reflexivity.
  - rewrite encZigzag32_bits by (eapply N.lt_trans; [exact H|reflexivity]). do 4 f_equal.
    rewrite <- (toSigned_small (Z.of_N n)) by (change (2 ^ 16)%N with 65536%N in H; lia). rewrite N2Z.id. reflexivity.
  - rewrite encZigzag32_bits by exact H. reflexivity.
  - rewrite encZigzag64_spec by lia. reflexivity.
  - rewrite encZigzag64_spec by lia. reflexivity.
  - rewrite encZigzag64_bits by exact H. reflexivity.
  - rewrite encZigzag64_bits by exact H. reflexivity.
  - destruct H as [H Hq]. rewrite (quiet32_id _ Hq). unfold encFixed. rewrite <- spec_uint_le. reflexivity.
  - unfold encFixed. rewrite <- spec_uint_le. reflexivity.
  - unfold encBytes. rewrite encVarint_spec. reflexivity.
  - rewrite encVarint_spec. reflexivity.
Qed.
Definition stores (y : gty) : bool := match y with YInt | YUint => false | _ => true end.
Lemma int16_back z : (- 2 ^ 15 <= z < 2 ^ 15)%Z -> int16of (toUnsigned 32 z) = z.
Proof.
  intro H. unfold int16of.
  replace (toUnsigned 32 z mod 65536)%N with (toUnsigned 16 z); [apply (toSigned_toUnsigned 16 z); [lia|exact H]|].
  unfold toUnsigned. change 65536%N with (Z.to_N (2 ^ 16)). change (Z.of_N 16) with 16%Z. change (Z.of_N 32) with 32%Z.
  pose proof (Z.mod_pos_bound z (2 ^ 32) ltac:(lia)) as B.
  rewrite <- Z2N.inj_mod by lia. f_equal.
  pose proof (Z.div_mod z (2 ^ 32) ltac:(lia)) as E. rewrite E at 1.
  replace (2 ^ 32 * (z / 2 ^ 32))%Z with ((2 ^ 16 * (z / 2 ^ 32)) * 2 ^ 16)%Z by (change (2 ^ 32)%Z with (2 ^ 16 * 2 ^ 16)%Z; ring).
  rewrite Z.add_comm, Z.mod_add by lia. reflexivity.
Qed.
Lemma int32_back z : (- 2 ^ 31 <= z < 2 ^ 31)%Z -> int32of (toUnsigned 32 z) = z.
Proof.
  intro H. unfold int32of. change two32 with (2 ^ 32)%N. rewrite N.mod_small by apply toUnsigned_lt. apply (toSigned_toUnsigned 32 z); [lia|exact H].
Qed.
Lemma deBody_plain {M} (c : codec M) (v : gval M) ptr cur rest : plain_ok v ->
  deBody c (plain_type v) ptr cur (wire_plain v ++ rest)
  = mkDres (inr (arrived v)) (if ptr && stores (plain_type v) then Some (arrived v) else None) rest.
Proof.
  destruct v; cbn [plain_ok deBody wire_plain plain_type arrived stores andb]; intro H; try contradiction; unfold rd.
  - destruct b, ptr; reflexivity.
  - rewrite decZigzag32_spec by lia. rewrite int16_back by exact H. destruct ptr; reflexivity.
  - rewrite decZigzag32_spec by lia. rewrite int32_back by exact H. destruct ptr; reflexivity.
  - change (2 ^ 16)%N with 65536%N in H.
    rewrite decZigzag32_spec by lia.
    replace (toUnsigned 32 (Z.of_N n)) with n by (unfold toUnsigned; rewrite Z.mod_small; [lia|change (2 ^ Z.of_N 32)%Z with 4294967296%Z; lia]).
    rewrite N.mod_small by lia. destruct ptr; reflexivity.
  - rewrite decZigzag32_spec by (exact (toSigned_range 32 n ltac:(lia) H)). rewrite toUnsigned_toSigned by (auto; lia).
    change two32 with (2 ^ 32)%N. rewrite N.mod_small by exact H. destruct ptr; reflexivity.
  - rewrite decZigzag64_spec by lia. rewrite (toSigned_toUnsigned 64 z) by (auto; lia). destruct ptr; reflexivity.
  - rewrite decZigzag64_spec by lia. rewrite (toSigned_toUnsigned 64 z) by (auto; lia). destruct ptr; reflexivity.
  - rewrite decZigzag64_spec by (exact (toSigned_range 64 n ltac:(lia) H)). rewrite toUnsigned_toSigned by (auto; lia). destruct ptr; reflexivity.
  - rewrite decZigzag64_spec by (exact (toSigned_range 64 n ltac:(lia) H)). rewrite toUnsigned_toSigned by (auto; lia). destruct ptr; reflexivity.
  - rewrite spec_uint_le, decFixed_spec by (exact (proj1 H)). destruct ptr; reflexivity.
  - rewrite spec_uint_le, decFixed_spec by exact H. destruct ptr; reflexivity.
  - rewrite <- app_assoc, decBytes_spec by exact H. destruct ptr; reflexivity.
  - rewrite decVarint_spec by (eapply N.lt_trans; [exact H|reflexivity]). change (2 ^ 8)%N with 256%N in H. rewrite N.mod_small by exact H. destruct ptr; reflexivity.
Qed.
Lemma deBody_cut {M} (c : codec M) (v : gval M) ptr cur k : plain_ok v -> k < length (wire_plain v) ->
  dOut (deBody c (plain_type v) ptr cur (firstn k (wire_plain v))) = inl EEof.
Proof.
  destruct v; cbn [plain_ok deBody wire_plain plain_type]; intros H Hk; try contradiction; unfold rd.
  - destruct k; [reflexivity|cbn in Hk; lia].
  - rewrite decZigzag32_cut by (auto; lia). reflexivity.
  - rewrite decZigzag32_cut by (auto; lia). reflexivity.
  - change (2 ^ 16)%N with 65536%N in H. rewrite decZigzag32_cut by (auto; lia). reflexivity.
  - rewrite decZigzag32_cut by (auto; exact (toSigned_range 32 n ltac:(lia) H)). reflexivity.
  - rewrite decZigzag64_cut by (auto; lia). reflexivity.
  - rewrite decZigzag64_cut by (auto; lia). reflexivity.
  - rewrite decZigzag64_cut by (auto; exact (toSigned_range 64 n ltac:(lia) H)). reflexivity.
  - rewrite decZigzag64_cut by (auto; exact (toSigned_range 64 n ltac:(lia) H)). reflexivity.
  - rewrite spec_uint_le in *. rewrite decFixed_cut by exact Hk. reflexivity.
  - rewrite spec_uint_le in *. rewrite decFixed_cut by exact Hk. reflexivity.
  - rewrite decBytes_cut by (auto; lia). reflexivity.
  - rewrite decVarint_cut; [reflexivity|eapply N.lt_trans; [exact H|reflexivity]|exact Hk].
Qed.

(* ------------------------------------------------------------ one argument *)
Lemma serBuf_wire {M} (c : codec M) v b : wire c v b -> serBuf c v = SOk b.
Proof.
  intro W. destruct W as [| |v H|v H|t m b [H L]].
  - reflexivity.
  - reflexivity.
  - pose proof (serBody_plain c false v H) as E. destruct v; cbn [plain_ok] in H; try contradiction; unfold serBuf; rewrite E; reflexivity.
  - pose proof (serBody_plain c true v H) as E. destruct v; cbn [plain_ok] in H; try contradiction; unfold serBuf; rewrite E; reflexivity.
  - cbn [serBuf serBody]. rewrite H. unfold encBytes. rewrite encVarint_spec. reflexivity.
Qed.
Lemma wire_nonempty {M} (c : codec M) v b : wire c v b -> 0 < length b.
Proof. intro W. destruct W; cbn; lia. Qed.
Lemma arrived_ptr {M} (v : gval M) : plain_ok v -> arrived (GPtr (Some v)) = arrived v.
Proof. destruct v; cbn; try contradiction; reflexivity. Qed.
Lemma type_ptr {M} (v : gval M) : plain_ok v -> type_of (GPtr (Some v)) = plain_type v /\ type_of v = plain_type v /\ is_nil v = false.
Proof. destruct v; cbn; try contradiction; auto. Qed.
Lemma stored_ptr {M} y (cur : M) v : is_nil v = false -> stored_in (APtr y cur) v = if stores y then Some (arrived v) else None.
Proof. intro H. unfold stored_in. rewrite H. destruct y; reflexivity. Qed.
Lemma plain_stored {M} (v : gval M) (ptr : bool) (y : gty) (o : option (gval M)) : (if ptr && stores y then o else None) = if ptr then (if stores y then o else None) else None.
Proof. destruct ptr; reflexivity. Qed.
Lemma deBuf_wire {M} (c : codec M) v b a rest : codec_ok c -> wire c v b -> target_for c v a ->
  deBuf c a (b ++ rest) = mkDres (inr (arrived v)) (stored_in a v) rest.
Proof.
  intros Hc W T. destruct W as [| |v H|v H|t m b [H L]].
  - reflexivity.
  - reflexivity.
  - destruct (type_ptr v H) as (_ & Ty & Nn). cbn [app]. unfold deBuf. rewrite dec0. cbn [N.eqb].
    destruct T as [T|[->|(cur & -> & _)]]; [congruence| |]; rewrite Ty, deBody_plain by exact H.
    + unfold stored_in. rewrite Nn. reflexivity.
    + rewrite stored_ptr by exact Nn. reflexivity.
  - destruct (type_ptr v H) as (Ty & _ & _). cbn [app]. unfold deBuf. rewrite dec0. cbn [N.eqb]. rewrite arrived_ptr by exact H.
    destruct T as [T|[->|(cur & -> & _)]]; [discriminate| |]; rewrite Ty, deBody_plain by exact H.
    + reflexivity.
    + rewrite stored_ptr by reflexivity. rewrite arrived_ptr by exact H. reflexivity.
  - cbn [app]. unfold deBuf. rewrite dec0. cbn [N.eqb].
    destruct T as [T|[->|(cur & -> & Z)]]; [discriminate| |]; cbn [type_of deBody]; rewrite <- app_assoc, decBytes_spec by exact L; cbn [fst snd].
    + rewrite (Hc t m b H). reflexivity.
    + rewrite (Z t eq_refl), (Hc t m b H). reflexivity.
Qed.
Lemma deBuf_cut {M} (c : codec M) v b a k : wire c v b -> target_for c v a -> k < length b ->
  dOut (deBuf c a (firstn k b)) = inl EEof.
Proof.
  intros W T Hk. destruct k as [|k]; [reflexivity|].
  destruct W as [| |v H|v H|t m b [H L]]; cbn [length] in Hk; try lia.
  - destruct (type_ptr v H) as (_ & Ty & Nn). cbn [firstn]. unfold deBuf. rewrite dec0. cbn [N.eqb].
    destruct T as [T|[->|(cur & -> & _)]]; [congruence| |]; rewrite Ty; apply deBody_cut; auto; lia.
  - destruct (type_ptr v H) as (Ty & _ & _). cbn [firstn]. unfold deBuf. rewrite dec0. cbn [N.eqb].
    destruct T as [T|[->|(cur & -> & _)]]; [discriminate| |]; rewrite Ty; apply deBody_cut; auto; lia.
  - cbn [firstn]. unfold deBuf. rewrite dec0. cbn [N.eqb].
    destruct T as [T|[->|(cur & -> & _)]]; [discriminate| |]; cbn [type_of deBody]; rewrite decBytes_cut by (auto; lia); reflexivity.
Qed.

(* ------------------------------------------------------------ several arguments *)
Lemma serMulti_iff {M} (c : codec M) vs : forall b,
  serializeMulti c vs = SOk b <-> exists l, Forall2 (fun v x => serialize c v = SOk x) vs l /\ b = concat l.
Proof.
  unfold serialize. induction vs as [|v vs IH]; intros b; cbn [serializeMulti].
  - split.
    + intro H. injection H as <-. exists []. split; [constructor|reflexivity].
    + intros (l & H & ->). inversion H. reflexivity.
  - split.
    + destruct (serBuf c v) as [x| |] eqn:E; cbn [sbind]; try discriminate.
      destruct (serializeMulti c vs) as [y| |] eqn:E2; cbn [sbind]; try discriminate.
      intro H. injection H as <-. destruct (proj1 (IH y) eq_refl) as (l & HF & ->).
      exists (x :: l). split; [constructor; assumption|reflexivity].
    + intros (l & H & ->). inversion H as [|? x ? l' Hx Hl]; subst. rewrite Hx. cbn [sbind].
      rewrite (proj2 (IH (concat l')) (ex_intro _ l' (conj Hl eq_refl))). reflexivity.
Qed.
Lemma serMulti_wire {M} (c : codec M) vs l : Forall2 (wire c) vs l -> serializeMulti c vs = SOk (concat l).
Proof.
  intro H. apply serMulti_iff. exists l. split; [|reflexivity].
  induction H as [|v b vs l W H IH]; constructor; [apply serBuf_wire, W|exact IH].
Qed.
Lemma deMulti_wire {M} (c : codec M) vs l targets rest : codec_ok c -> Forall2 (wire c) vs l -> Forall2 (target_for c) vs targets ->
  deMulti c (concat l ++ rest) targets = inr (map received (combine vs targets)).
Proof.
  intros Hc H. revert targets. induction H as [|v b vs l W H IH]; intros targets T; inversion T as [|? a ? ts Ta Tt]; subst; [reflexivity|].
  cbn [concat deMulti combine map]. rewrite <- app_assoc, (deBuf_wire c v b a _ Hc W Ta). cbn [dOut dRest dStore].
  rewrite (IH ts Tt). reflexivity.
Qed.
Lemma deMulti_cut {M} (c : codec M) vs l targets k : codec_ok c -> Forall2 (wire c) vs l -> Forall2 (target_for c) vs targets ->
  k < length (concat l) -> deMulti c (firstn k (concat l)) targets = inl EEof.
Proof.
  intros Hc H. revert targets k. induction H as [|v b vs l W H IH]; intros targets k T Hk; inversion T as [|? a ? ts Ta Tt]; subst; [cbn in Hk; lia|].
  cbn [concat] in *. rewrite app_length in Hk. cbn [deMulti]. rewrite firstn_app_cut. destruct (Nat.ltb_spec k (length b)) as [L|L].
  - rewrite (deBuf_cut c v b a k W Ta L). reflexivity.
  - rewrite (deBuf_wire c v b a _ Hc W Ta). cbn [dOut dRest]. rewrite (IH ts (k - length b) Tt) by lia. reflexivity.
Qed.

(* ------------------------------------------------------------ arbitrary bytes *)
Lemma xor_lt a b k : (a < 2 ^ k)%N -> (b < 2 ^ k)%N -> (N.lxor a b < 2 ^ k)%N.
Proof.
  intros Ha Hb. destruct (N.eq_dec (N.lxor a b) 0) as [->|Hn]; [apply N.neq_0_lt_0, N.pow_nonzero; lia|].
  apply N.log2_lt_pow2; [lia|]. eapply N.le_lt_trans; [apply N.log2_lxor|].
  apply N.max_lub_lt.
  - destruct (N.eq_dec a 0) as [->|Ha']; [|apply N.log2_lt_pow2; [lia|exact Ha]].
    change (N.log2 0) with 0%N. destruct (N.eq_dec k 0) as [->|]; [|lia]. change (2 ^ 0)%N with 1%N in *.
    assert (b = 0)%N by lia. subst b. exfalso. apply Hn. reflexivity.
  - destruct (N.eq_dec b 0) as [->|Hb']; [|apply N.log2_lt_pow2; [lia|exact Hb]].
    change (N.log2 0) with 0%N. destruct (N.eq_dec k 0) as [->|]; [|lia]. change (2 ^ 0)%N with 1%N in *.
    assert (a = 0)%N by lia. subst a. exfalso. apply Hn. reflexivity.
Qed.
Lemma unzigzag64_lt x : (x < 2 ^ 64)%N -> (unzigzag64 x < 2 ^ 64)%N.
Proof.
  intro H. unfold unzigzag64. apply xor_lt; [|apply toUnsigned_lt]. rewrite N.shiftr_div_pow2. apply N.div_lt_upper_bound; [discriminate|].
  change (2 ^ 1)%N with 2%N. lia.
Qed.
Lemma decZigzag64_lt l x l' : decZigzag64 l = inr (x, l') -> (x < 2 ^ 64)%N.
Proof.
  unfold decZigzag64. destruct (decVarint l) as [e|[y l1]] eqn:E; [discriminate|]. intro H. injection H as <- <-.
  apply unzigzag64_lt. exact (proj1 (decVarint_lt _ _ _ E)).
Qed.
Lemma decFixed_lt k l x l' : decFixed k l = inr (x, l') -> (x < 256 ^ N.of_nat k)%N.
Proof.
  unfold decFixed. destruct (Nat.ltb_spec (length l) k) as [B|B]; [discriminate|]. intro H. injection H as <- <-.
  pose proof (leVal_lt (firstn k l)) as L. rewrite firstn_length, Nat.min_l in L by exact B. exact L.
Qed.
Lemma deBody_typed {M} (c : codec M) y ptr cur l v : dOut (deBody c y ptr cur l) = inr v -> of_type y v.
Proof.
  destruct y; cbn [deBody]; unfold rd.
  - destruct (decVarint l) as [e|[x l']]; cbn [dOut]; intro H; [discriminate|]. injection H as <-. exact I.
  - destruct (decZigzag32 l) as [e|[x l']]; cbn [dOut]; intro H; [discriminate|]. injection H as <-.
    cbn [of_type]. exact (toSigned_range 16 (x mod 65536) ltac:(lia) (N.mod_lt x 65536 ltac:(discriminate))).
  - destruct (decZigzag32 l) as [e|[x l']]; cbn [dOut]; intro H; [discriminate|]. injection H as <-.
    cbn [of_type]. exact (toSigned_range 32 (x mod two32) ltac:(lia) (N.mod_lt x two32 ltac:(discriminate))).
  - destruct (decZigzag32 l) as [e|[x l']]; cbn [dOut]; intro H; [discriminate|]. injection H as <-.
    cbn [of_type]. exact (N.mod_lt x 65536 ltac:(discriminate)).
  - destruct (decZigzag32 l) as [e|[x l']]; cbn [dOut]; intro H; [discriminate|]. injection H as <-.
    cbn [of_type]. exact (N.mod_lt x two32 ltac:(discriminate)).
  - destruct (decZigzag64 l) as [e|[x l']] eqn:E; cbn [dOut]; intro H; [discriminate|]. injection H as <-.
    cbn [of_type]. exact (toSigned_range 64 x ltac:(lia) (decZigzag64_lt _ _ _ E)).
  - destruct (decZigzag64 l) as [e|[x l']] eqn:E; cbn [dOut]; intro H; [discriminate|]. injection H as <-.
    cbn [of_type]. exact (toSigned_range 64 x ltac:(lia) (decZigzag64_lt _ _ _ E)).
  - destruct (decZigzag64 l) as [e|[x l']] eqn:E; cbn [dOut]; intro H; [discriminate|]. injection H as <-.
    cbn [of_type]. exact (decZigzag64_lt _ _ _ E).
  - destruct (decZigzag64 l) as [e|[x l']] eqn:E; cbn [dOut]; intro H; [discriminate|]. injection H as <-.
    cbn [of_type]. exact (decZigzag64_lt _ _ _ E).
  - destruct (decFixed 4 l) as [e|[x l']] eqn:E; cbn [dOut]; intro H; [discriminate|]. injection H as <-.
    cbn [of_type]. exact (decFixed_lt _ _ _ _ E).
  - destruct (decFixed 8 l) as [e|[x l']] eqn:E; cbn [dOut]; intro H; [discriminate|]. injection H as <-.
    cbn [of_type]. exact (decFixed_lt _ _ _ _ E).
  - destruct (decBytes l) as [e|[x l']] eqn:E; cbn [dOut]; intro H; [discriminate|]. injection H as <-. exact I.
  - destruct (decVarint l) as [e|[x l']] eqn:E; cbn [dOut]; intro H; [discriminate|]. injection H as <-.
    cbn [of_type]. exact (N.mod_lt x 256 ltac:(discriminate)).
  - destruct (decBytes l) as [e|[x l']] eqn:E; cbn [dOut]; [intro H; discriminate|].
    destruct (snd (cMerge c t (if ptr then cur else cZero c t) x)); cbn [dOut]; intro H; [discriminate|]. injection H as <-. reflexivity.
  - discriminate.
Qed.
Lemma deBuf_typed {M} (c : codec M) y cur l v :
  dOut (deBuf c (AType y) l) = inr v \/ dOut (deBuf c (APtr y cur) l) = inr v -> v = GNil \/ of_type y v.
Proof.
  unfold deBuf. destruct (decVarint l) as [e|[i l1]]; [intros [H|H]; discriminate|].
  destruct (i =? 1)%N; cbn [dOut].
  - intros [H|H]; injection H as <-; left; reflexivity.
  - intros [H|H]; right; eapply deBody_typed; exact H.
Qed.

(* ------------------------------------------------------------ slices *)
Lemma deSlice_all {M} (c : codec M) t l : forall fuel n cur,
  Forall (fun b => merges c t b /\ (N.of_nat (length b) < 2 ^ 63)%N) l -> length l < fuel ->
  deSlice c t fuel n cur (concat (map (fun b => x00 :: spec_varint (N.of_nat (length b)) ++ b) l))
  = (inr (n + length l), fold_left (fun cur b => fst (cMerge c t cur b)) l cur, []).
Proof.
  induction l as [|b l IH]; intros fuel n cur H Hf; (destruct fuel as [|f]; [cbn in Hf; lia|]).
  - cbn. rewrite Nat.add_0_r. reflexivity.
  - inversion H as [|? ? [Hm HL] Hl]; subst. cbn [map concat deSlice app]. rewrite dec0. cbn [N.eqb].
    cbn [deBody]. rewrite <- app_assoc, decBytes_spec by exact HL. cbn zeta. rewrite (Hm cur). cbn [dOut dStore dRest].
    cbn [length] in Hf. rewrite IH by (auto; lia). cbn [length fold_left]. rewrite Nat.add_succ_comm. reflexivity.
Qed.
Lemma serElems_all {M} (c : codec M) t ms l : Forall2 (fun m b => cMarshal c t m = Some b) ms l ->
  serElems c SIface (map (msgRef t) ms) = SOk (concat (map (fun b => x00 :: spec_varint (N.of_nat (length b)) ++ b) l)).
Proof.
  intro H. induction H as [|m b ms l Hm H IH]; [reflexivity|].
  cbn [map concat serElems msgRef serElem serBody]. rewrite Hm. cbn [sbind]. unfold encBytes. rewrite !encVarint_spec.
  rewrite IH. cbn [sbind].
  reflexivity.
Qed.
Lemma slice_result {M} (c : codec M) t ms l old : Forall2 (fun m b => cMarshal c t m = Some b) ms l ->
  Forall (fun b => merges c t b /\ (N.of_nat (length b) < 2 ^ 63)%N) l ->
  exists b, serialize c (GSlice SIface (map (msgRef t) ms)) = SOk b /\
    dOut (deserialize c b (ASlice t old)) = inr (GSlice SPtr (map (msgRef t) old ++ repeat (msgRef t (merge_all c t l)) (length ms))).
Proof.
  intros H HF. pose proof (serElems_all c t ms l H) as E.
  eexists. split; [unfold serialize, serBuf; rewrite E; reflexivity|].
  unfold deserialize, deBuf. change (encVarint 0) with [x00]. cbn [app]. rewrite dec0. cbn [N.eqb].
  rewrite deSlice_all; [|exact HF|].
  - cbn [dOut]. rewrite Nat.add_0_l. replace (length l) with (length ms); [reflexivity|]. clear -H. induction H; cbn; congruence.
  - clear. induction l as [|b l IH]; cbn [length map concat app]; [lia|]. rewrite app_length, app_length. lia.
Qed.
