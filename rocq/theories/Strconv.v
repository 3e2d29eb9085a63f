(* Strconv.v: the parts of Go's strconv package the code relies on (decimal integers), and their laws.
   This models the Go standard library (strconv/itoa.go, strconv/atoi.go of Go 1.11+), not a file of /repo. *)
From Verif Require Import Base.

(* decimal digits of n, most significant first *)
Fixpoint fmtDigits (fuel : nat) (n : N) (acc : bs) : bs :=
  match fuel with
  | O => acc
  | S f => let acc' := n2b (48 + n mod 10) :: acc in
           if N.eqb (n / 10) 0 then acc' else fmtDigits f (n / 10) acc'
  end.
(* strconv.FormatUint(n, 10) *)
Definition fmtN (n : N) : bs := fmtDigits (S (N.size_nat n)) n [].
(* strconv.FormatInt(z, 10) / strconv.Itoa *)
Definition fmtZ (z : Z) : bs := if (z <? 0)%Z then x2d :: fmtN (Z.to_N (- z)) else fmtN (Z.to_N z).

(* strconv.ParseUint(s, 10, 64): value and outcome *)
Inductive numerr := NumOk | NumSyntax | NumRange.
Definition digitOf (c : byte) : option N :=
  if (48 <=? b2n c)%N && (b2n c <=? 57)%N then Some (b2n c - 48)%N else None.
Definition maxU64 : N := 18446744073709551615.
Fixpoint parseDigits (s : bs) (n : N) : N * numerr :=
  match s with
  | [] => (n, NumOk)
  | c :: r =>
      match digitOf c with
      | None => (0%N, NumSyntax)
      | Some d => if (maxU64 <? n * 10 + d)%N then (maxU64, NumRange) else parseDigits r (n * 10 + d)
      end
  end.
Definition parseUint64 (s : bs) : N * numerr :=
  match s with [] => (0%N, NumSyntax) | _ => parseDigits s 0 end.
(* strconv.ParseInt(s, 10, 64), strconv.Atoi on a 64-bit platform *)
Definition parseInt64 (s : bs) : Z * numerr :=
  match s with
  | [] => (0%Z, NumSyntax)
  | c :: r =>
      let neg := byte_eqb c x2d in
      let body := if neg || byte_eqb c x2b then r else s in
      let (un, e) := parseUint64 body in
      match e with
      | NumSyntax => (0%Z, NumSyntax)
      | _ =>
          if negb neg && (9223372036854775808 <=? un)%N then (9223372036854775807%Z, NumRange)
          else if neg && (9223372036854775808 <? un)%N then ((-9223372036854775808)%Z, NumRange)
          else ((if neg then - Z.of_N un else Z.of_N un)%Z, NumOk)
      end
  end.

Definition isDigit (c : byte) : Prop := exists d, digitOf c = Some d.

Lemma digitOf_n2b d : (d < 10)%N -> digitOf (n2b (48 + d)) = Some d.
Proof.
  intro H. unfold digitOf. rewrite b2n_n2b_small by lia.
  destruct (N.leb_spec 48 (48 + d)); [|lia]. destruct (N.leb_spec (48 + d) 57); [|lia].
  cbn [andb]. f_equal. lia.
Qed.

Lemma size_nat_div10 n : (n / 10 <> 0)%N -> N.size_nat (n / 10) < N.size_nat n.
Proof.
  intro H. assert (Hn : (n <> 0)%N) by (intro E; subst; apply H; reflexivity).
  assert (SZ : forall m, N.size_nat m = N.to_nat (N.size m)).
  { intros [|p]; [reflexivity|]. cbn. induction p; cbn; lia. }
  rewrite !SZ. rewrite !N.size_log2 by assumption.
  assert (L : (N.log2 (n / 10) <= N.log2 (n / 2 ^ 1))%N).
  { apply N.log2_le_mono. change (2 ^ 1)%N with 2%N. apply N.div_le_compat_l. lia. }
  rewrite <- N.shiftr_div_pow2, N.log2_shiftr in L.
  assert (H2 : (10 <= n)%N). { destruct (N.le_gt_cases 10 n); [assumption|]. exfalso. apply H. apply N.div_small. assumption. }
  assert (L3 : (N.log2 10 <= N.log2 n)%N) by (apply N.log2_le_mono; exact H2).
  change (N.log2 10) with 3%N in L3. lia.
Qed.

Definition digitsVal (s : bs) (n : N) : N :=
  fold_left (fun acc c => (acc * 10 + (b2n c - 48))%N) s n.

Lemma fmtDigits_app fuel : forall n acc, fmtDigits fuel n acc = fmtDigits fuel n [] ++ acc.
Proof.
  induction fuel as [|f IH]; intros n acc; cbn [fmtDigits]; [reflexivity|].
  destruct (N.eqb (n / 10) 0); [reflexivity|].
  rewrite IH, (IH _ [n2b (48 + n mod 10)]), <- app_assoc. reflexivity.
Qed.

Lemma fmtDigits_spec fuel : forall n, N.size_nat n < fuel ->
  digitsVal (fmtDigits fuel n []) 0 = n /\ Forall isDigit (fmtDigits fuel n []) /\ fmtDigits fuel n [] <> [].
Proof.
  induction fuel as [|f IH]; intros n Hf; [lia|]. cbn [fmtDigits].
  assert (Hm : (n mod 10 < 10)%N) by (apply N.mod_lt; lia).
  assert (Hd : isDigit (n2b (48 + n mod 10))) by (eexists; apply digitOf_n2b, Hm).
  assert (Hv : (b2n (n2b (48 + n mod 10)) - 48 = n mod 10)%N) by (rewrite b2n_n2b_small by lia; lia).
  pose proof (N.div_mod n 10 ltac:(lia)) as Hdm.
  destruct (N.eqb_spec (n / 10) 0) as [E|E].
  - repeat split; [|constructor; auto|discriminate]. unfold digitsVal. cbn [fold_left]. rewrite Hv. lia.
  - pose proof (size_nat_div10 n E). destruct (IH (n / 10)%N ltac:(lia)) as (V & F & NE).
    rewrite fmtDigits_app. repeat split.
    + unfold digitsVal in *. rewrite fold_left_app, V. cbn [fold_left]. rewrite Hv. lia.
    + apply Forall_app. auto.
    + intro HH. apply app_eq_nil in HH as [_ HH]. discriminate.
Qed.

Lemma fmtN_spec n : digitsVal (fmtN n) 0 = n /\ Forall isDigit (fmtN n) /\ fmtN n <> [].
Proof. apply fmtDigits_spec. lia. Qed.

Lemma digitsVal_ge s : forall n, (n <= digitsVal s n)%N.
Proof.
  induction s as [|c s IH]; intro n; unfold digitsVal in *; cbn [fold_left]; [lia|].
  specialize (IH (n * 10 + (b2n c - 48))%N). lia.
Qed.

Lemma parseDigits_spec s : forall n, Forall isDigit s -> (digitsVal s n <= maxU64)%N ->
  parseDigits s n = (digitsVal s n, NumOk).
Proof.
  induction s as [|c s IH]; intros n HF HV; cbn [parseDigits]; [reflexivity|].
  inversion HF as [|? ? [d Hd] HF']; subst. rewrite Hd.
  assert (Hdv : d = (b2n c - 48)%N).
  { unfold digitOf in Hd. destruct ((48 <=? b2n c)%N && (b2n c <=? 57)%N); [injection Hd as <-; reflexivity|discriminate]. }
  unfold digitsVal in HV. cbn [fold_left] in HV. rewrite <- Hdv in HV. fold (digitsVal s (n * 10 + d)) in HV.
  pose proof (digitsVal_ge s (n * 10 + d)%N).
  destruct (N.ltb_spec maxU64 (n * 10 + d)%N); [lia|].
  rewrite IH by assumption. unfold digitsVal at 2. cbn [fold_left]. rewrite <- Hdv. reflexivity.
Qed.

Lemma parseUint_fmtN n : (n <= maxU64)%N -> parseUint64 (fmtN n) = (n, NumOk).
Proof.
  intro H. destruct (fmtN_spec n) as (V & F & NE). unfold parseUint64.
  destruct (fmtN n) as [|c r] eqn:E; [contradiction|]. rewrite parseDigits_spec; [|exact F|rewrite V; exact H].
  rewrite V. reflexivity.
Qed.

Lemma digit_not_sign c : isDigit c -> byte_eqb c x2d = false /\ byte_eqb c x2b = false /\ c <> x0a.
Proof.
  intros [d Hd]. unfold digitOf in Hd. unfold byte_eqb.
  change (b2n x2d) with 45%N. change (b2n x2b) with 43%N.
  destruct (N.leb_spec 48 (b2n c)); [|discriminate].
  repeat split; try (apply N.eqb_neq; lia). intros ->. cbn in *. lia.
Qed.

Lemma parse_fmtZ z : (-9223372036854775808 <= z <= 9223372036854775807)%Z -> parseInt64 (fmtZ z) = (z, NumOk).
Proof.
  intro H. unfold fmtZ. destruct (Z.ltb_spec z 0) as [Hn|Hp].
  - unfold parseInt64. change (byte_eqb x2d x2d) with true. cbn [orb negb andb].
    rewrite parseUint_fmtN by (unfold maxU64; lia).
    destruct (N.ltb_spec 9223372036854775808 (Z.to_N (- z))); [lia|]. f_equal. lia.
  - destruct (fmtN_spec (Z.to_N z)) as (V & F & NE). unfold parseInt64.
    pose proof (parseUint_fmtN (Z.to_N z) ltac:(unfold maxU64; lia)) as P.
    destruct (fmtN (Z.to_N z)) as [|c r] eqn:E; [contradiction|].
    inversion F as [|? ? Fc Fr]; subst. destruct (digit_not_sign c Fc) as (S1 & S2 & _). rewrite S1, S2.
    cbn [orb negb andb]. rewrite P.
    destruct (N.leb_spec 9223372036854775808 (Z.to_N z)); [lia|]. cbn [andb]. f_equal. lia.
Qed.

Lemma fmtZ_inj a b :
  (-9223372036854775808 <= a <= 9223372036854775807)%Z -> (-9223372036854775808 <= b <= 9223372036854775807)%Z ->
  fmtZ a = fmtZ b -> a = b.
Proof. intros Ha Hb E. apply parse_fmtZ in Ha, Hb. rewrite E in Ha. congruence. Qed.

Lemma fmtZ_clean z : fmtZ z <> [] /\ ~ In x0a (fmtZ z).
Proof.
  assert (C : forall n, ~ In x0a (fmtN n)).
  { intros n Hin. destruct (fmtN_spec n) as (_ & F & _). rewrite Forall_forall in F.
    apply F, digit_not_sign in Hin as (_ & _ & Hc). contradiction. }
  unfold fmtZ. destruct (z <? 0)%Z.
  - split; [discriminate|]. intros [H|H]; [discriminate|]. apply (C _ H).
  - split; [apply fmtN_spec|apply C].
Qed.
