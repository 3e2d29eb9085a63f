(* RrfProofs.v *)
From Verif Require Import Base BytesModel BytesSpec Strconv ProtoModel ProtoSpec ConvModel ConvSpec SimpleModel SimpleSpec UrlModel UrlSpec
  ServerModel ServerSpec ProvModel ProvSpec FoModel FoSpec FoProofs LbModel LbSpec LbProofs RrfModel RrfSpec.
Ltac Zify.zify_post_hook ::= idtac.
Open Scope nat_scope.

Lemma least (P Q : nat -> Prop) : forall n, (forall j, j < n -> P j \/ Q j) -> forall k, k < n -> Q k -> exists j, j <= k /\ Q j /\ forall i, i < j -> P i.
Proof.
  intros n H k. induction k as [k IH] using lt_wf_ind. intros Hk Hq.
  assert (D : (exists i, i < k /\ Q i) \/ forall i, i < k -> P i).
  { assert (G : forall m, m <= k -> (exists i, i < m /\ Q i) \/ forall i, i < m -> P i).
    { induction m as [|m IHm]; intro Hm; [right; intros; lia|]. destruct (IHm ltac:(lia)) as [(i & Hi & Qi)|Hp]; [left; exists i; split; [lia|exact Qi]|].
      destruct (H m ltac:(lia)) as [Pm|Qm]; [|left; exists m; split; [lia|exact Qm]].
      right. intros i Hi. destruct (Nat.eq_dec i m) as [->|]; [exact Pm|apply Hp; lia]. }
    exact (G k (le_n k)). }
  destruct D as [(i & Hi & Qi)|Hp]; [|exists k; auto].
  destruct (IH i Hi ltac:(lia) Qi) as (j & J1 & J2 & J3). exists j. split; [lia|]. split; assumption.
Qed.

Lemma turn (counter : N) (n w : nat) : w < n -> exists j, j < n /\ ((counter + N.of_nat j + 1) mod N.of_nat n = N.of_nat w)%N.
Proof.
  intro Hw. set (N0 := N.of_nat n). assert (HN : (N0 <> 0)%N) by (unfold N0; lia).
  set (a := ((counter + 1) mod N0)%N). assert (Ha : (a < N0)%N) by (apply N.mod_lt; exact HN).
  assert (E : forall j, ((counter + j + 1) mod N0 = (a + j) mod N0)%N).
  { intro j. unfold a. rewrite N.add_mod_idemp_l by exact HN. f_equal. lia. }
  destruct (N.le_gt_cases a (N.of_nat w)) as [L|L].
  - exists (N.to_nat (N.of_nat w - a)). split; [unfold N0 in *; lia|]. rewrite E, N2Nat.id. replace (a + (N.of_nat w - a))%N with (N.of_nat w) by lia.
    apply N.mod_small. unfold N0. lia.
  - exists (N.to_nat (N0 + N.of_nat w - a)). split; [unfold N0 in *; lia|]. rewrite E, N2Nat.id.
    replace (a + (N0 + N.of_nat w - a))%N with (N.of_nat w + 1 * N0)%N by lia. rewrite N.mod_add by exact HN. apply N.mod_small. unfold N0. lia.
Qed.

Lemma rrLink_in avs rs counter others eps l0 i : In l0 eps -> (forall i t, avs i t l0 = true) ->
  exists l, rrLink avs rs counter others eps i = Some l /\ In l eps /\ exists t, avs i t l = true.
Proof.
  intros Hin Hav. unfold rrLink. pose proof (rr_sound (avs i) (fst (rs i)) (snd (rs i)) (rrCounter counter others i) eps) as S.
  destruct (snd _) as [k l| |]; cbn [sound_pick] in S.
  - destruct S as [S1 S2]. exists l. split; [reflexivity|]. split; [apply (nth_error_In _ _ S1)|exact S2].
  - destruct (S l0 Hin) as (t & Ht). rewrite Hav in Ht. discriminate Ht.
  - destruct S.
Qed.

Lemma rrLink_turn avs rs counter eps l0 w j : nth_error eps w = Some l0 -> (forall i t, avs i t l0 = true) ->
  (counter + N.of_nat (length eps) < 2 ^ 32)%N -> j < length eps -> ((counter + N.of_nat j + 1) mod N.of_nat (length eps) = N.of_nat w)%N ->
  rrLink avs rs counter undisturbed eps j = Some l0.
Proof.
  intros Hn Hav Hc Hj E. unfold rrLink, roundrobinSelect. destruct eps as [|e0 r] eqn:Ee; [cbn in Hj; lia|]. rewrite <- Ee in *.
  cbv zeta. cbn [snd]. unfold rrCounter, undisturbed. rewrite Nat.add_0_r. rewrite (N.mod_small (counter + N.of_nat j)) by lia.
  rewrite (N.mod_small (counter + N.of_nat j + 1)) by lia. rewrite E, Nat2N.id, Hn, Hav. reflexivity.
Qed.

Lemma reaches c avs rs counter eps u reply q noEp l0 v0 : ordinary q -> args_ok (qArgs q) ->
  (counter + N.of_nat (length eps) < 2 ^ 32)%N -> length eps <= S (retries u q) ->
  In l0 eps -> works_with c reply q l0 v0 -> (forall i t, avs i t l0 = true) ->
  (forall l, In l eps -> fails_there c reply q l \/ exists v, works_with c reply q l v) ->
  exists k l v, k < length eps /\ In l eps /\ works_with c reply q l v /\
    rrTrip c avs rs counter undisturbed eps u reply q noEp = (Value v (assigned reply v), S k).
Proof.
  intros Ho Ha Hc Hr Hin Hw Hav Hall. destruct (In_nth_error _ _ Hin) as (w & Hn).
  assert (Hlt : w < length eps) by (apply nth_error_Some; congruence).
  destruct (turn counter (length eps) w Hlt) as (j & Hj & E).
  pose proof (rrLink_turn avs rs counter eps l0 w j Hn Hav Hc Hj E) as Hl.
  set (sel := rrLink avs rs counter undisturbed eps) in *.
  destruct (least (fun i => exists l, sel i = Some l /\ fails_there c reply q l) (fun i => exists l v, sel i = Some l /\ In l eps /\ works_with c reply q l v) (length eps)) with (k := j)
    as (k & K1 & (l & v & L1 & L2 & L3) & K3).
  - intros i Hi. destruct (rrLink_in avs rs counter undisturbed eps l0 i Hin Hav) as (l & L1 & L2 & _). fold sel in L1.
    destruct (Hall l L2) as [F|(v & W)]; [left; exists l; auto|right; exists l, v; auto].
  - exact Hj.
  - exists l0, v0. auto.
  - exists k, l, v. split; [lia|]. split; [exact L2|]. split; [exact L3|]. destruct L3 as [W1 W2].
    apply (first_working c sel u reply q noEp k l v); try assumption. lia.
Qed.
