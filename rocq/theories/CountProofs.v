(* CountProofs.v: proofs for C43. *)
From Verif Require Import Base UrlModel MetricModel CountModel CountSpec.
Set Implicit Arguments.
Ltac Zify.zify_post_hook ::= idtac.

Lemma total_app a b : total (a ++ b) = (total a + total b)%Z.
Proof. unfold total. induction a as [|x a IH]; [reflexivity|]. cbn [app fold_right]. rewrite IH. lia. Qed.
Lemma total_cons x l : total (x :: l) = (x + total l)%Z.
Proof. reflexivity. Qed.
Lemma total_set {A} (f : A -> Z) l i x y : nth_error l i = Some x -> total (map f (list_set l i y)) = (total (map f l) - f x + f y)%Z.
Proof.
  revert i. induction l as [|a l IH]; intros [|i] H; try discriminate H.
  - injection H as ->. cbn [list_set map]. rewrite !total_cons. lia.
  - cbn [list_set map]. rewrite !total_cons, (IH i H). lia.
Qed.
Lemma total_perm a b : Permutation a b -> total a = total b.
Proof. induction 1; cbn; unfold total in *; cbn [fold_right]; lia. Qed.
Lemma nth_lt {A} (l : list A) i x : nth_error l i = Some x -> i < length l.
Proof. intro H. apply nth_error_Some. congruence. Qed.
Lemma set_same {A} (l : list A) i x : i < length l -> nth_error (list_set l i x) i = Some x.
Proof. intro H. rewrite list_set_nth_error by exact H. rewrite Nat.eqb_refl. reflexivity. Qed.
Lemma set_other {A} (l : list A) i j x : i < length l -> j <> i -> nth_error (list_set l i x) j = nth_error l j.
Proof. intros H N. rewrite list_set_nth_error by exact H. apply Nat.eqb_neq in N. rewrite N. reflexivity. Qed.
Lemma In_set {A} (l : list A) i x y : In y (list_set l i x) -> y = x \/ In y l.
Proof.
  revert i. induction l as [|a l IH]; intros [|i] H; cbn [list_set] in H; try (destruct H; fail).
  - destruct H as [H|H]; [left; symmetry; exact H|right; right; exact H].
  - destruct H as [H|H]; [right; left; exact H|]. destruct (IH _ H) as [X|X]; [left; exact X|right; right; exact X].
Qed.

Lemma same64_refl a : same64 a a.
Proof. exists 0%Z. lia. Qed.
Lemma same64_eq a b a' b' : same64 a b -> (a' - a = b' - b)%Z -> same64 a' b'.
Proof. intros [q H] E. exists q. lia. Qed.
Lemma wrap_same z : exists q, (wrapI64 z = z + q * 18446744073709551616)%Z.
Proof.
  unfold wrapI64. exists (- ((z + 9223372036854775808) / 18446744073709551616))%Z.
  pose proof (Z.div_mod (z + 9223372036854775808) 18446744073709551616) as D. lia.
Qed.

Lemma kind_eqb_spec a b : kind_eqb a b = true <-> a = b.
Proof. destruct a, b; cbn; split; intro H; try discriminate H; reflexivity. Qed.
Definition kind_of (x : entry) : kind := match x with EC _ => KCounter | EH _ => KHist | EG _ => KGauge end.
Definition val (I K : bs) (om : bs * list (bs * entry)) : Z := if bs_eqb (fst om) I then countEntry (aget bs_eqb (snd om) K) else 0%Z.
Definition jw (k : kind) (I K : bs) (j : job) : Z := match jPc j with PDone => 0%Z | _ => adds k I K (jEv j) end.
Lemma in_flight_jw k I K s : added k I K (in_flight s) = total (map (jw k I K) (mJobs s)).
Proof.
  unfold added, in_flight. induction (mJobs s) as [|j l IH]; [reflexivity|]. cbn [filter map]. rewrite total_cons. unfold jw at 1.
  destruct (jPc j); cbn [map]; rewrite ?total_cons, IH; lia.
Qed.

Definition reg_at (s : mst) (r : nat) (o : bs) : Prop := exists m, nth_error (mRegs s) r = Some (o, m).
Definition pc_ok (s : mst) (e : mev) (p : pc) : Prop :=
  match p with
  | PReg r | PReg2 r => reg_at s r (mItem e)
  | PObj r => exists m x, nth_error (mRegs s) r = Some (mItem e, m) /\ aget bs_eqb m (mKey e) = Some x
  | _ => True
  end.
Record inv (k : kind) (I K : bs) (s : mst) : Prop := {
  iv_items : forall i r, aget bs_eqb (mItems s) i = Some r -> reg_at s r i;
  iv_bus : forall e, In e (mBus s) -> In e (mSent s);
  iv_jobs : forall j e p, nth_error (mJobs s) j = Some (mkJob e p) -> In e (mSent s) /\ pc_ok s e p;
  iv_kind : forall r m x, nth_error (mRegs s) r = Some (I, m) -> aget bs_eqb m K = Some x -> kind_of x = k;
  iv_nodup : NoDup (map fst (mItems s));
  iv_part : Permutation (map snd (mItems s) ++ map fst (mSnaps s)) (seq 0 (length (mRegs s)));
  iv_ledger : same64 (added k I K (mSent s))
    (total (map (val I K) (mRegs s)) + added k I K (mBus s) + total (map (jw k I K) (mJobs s)) + added k I K (mDropped s)) }.

Lemma inv_init k I K : inv k I K minit.
Proof.
  constructor; cbn; intros; try discriminate; try contradiction.
  - destruct j; discriminate H.
  - destruct r; discriminate H.
  - constructor.
  - constructor.
  - exists 0%Z. reflexivity.
Qed.

Lemma sent_mono cap s o s' : mstep cap s o = Some s' -> exists l, mSent s' = mSent s ++ l.
Proof.
  intro H. destruct o as [e| |j|i|i key]; cbn [mstep] in H.
  - destruct (Nat.ltb _ _); injection H as <-; exists [e]; reflexivity.
  - destruct (mBus s); [discriminate H|]. injection H as <-. exists []. symmetry. apply app_nil_r.
  - exists []. rewrite app_nil_r. destruct (nth_error (mJobs s) j) as [[e p]|]; [|discriminate H].
    unfold jstep in H.
    destruct p; repeat match type of H with
      | (match ?x with _ => _ end) = Some _ => destruct x
      end; try discriminate H; injection H as <-; reflexivity.
  - exists []. rewrite app_nil_r. destruct (aget _ _ _); [|discriminate H]. injection H as <-. reflexivity.
  - exists []. rewrite app_nil_r. destruct (nth_error (mSnaps s) i) as [[r c]|]; [|discriminate H].
    destruct (aget bs_eqb c key); [injection H as <-; reflexivity|]. destruct (aget bs_eqb (regOf s r) key); injection H as <-; reflexivity.
Qed.
Lemma added_app k I K a b : added k I K (a ++ b) = (added k I K a + added k I K b)%Z.
Proof. unfold added. rewrite map_app, total_app. reflexivity. Qed.
Lemma added_one k I K e : added k I K [e] = adds k I K e.
Proof. unfold added. cbn [map]. rewrite total_cons. cbn. lia. Qed.
Lemma added_cons k I K e l : added k I K (e :: l) = (adds k I K e + added k I K l)%Z.
Proof. reflexivity. Qed.

(* moving a job along without touching registries or items *)
Lemma inv_goto k I K s j e p p' : inv k I K s -> nth_error (mJobs s) j = Some (mkJob e p) -> p <> PDone -> p' <> PDone ->
  pc_ok s e p' -> inv k I K (goto s j e p').
Proof.
  intros V H N N' P. destruct V as [V1 V2 V3 V4 V5 V6 V7].
  assert (L : j < length (mJobs s)) by exact (@nth_lt _ _ _ _ H).
  constructor; try assumption.
  - intros j0 e0 p0 X. cbn [goto mJobs] in X. destruct (Nat.eq_dec j0 j) as [->|D].
    + rewrite set_same in X by exact L. injection X as <- <-. split; [exact (proj1 (V3 _ _ _ H))|exact P].
    + rewrite set_other in X by assumption. exact (V3 _ _ _ X).
  - cbn [goto mSent mRegs mBus mJobs mDropped]. rewrite (@total_set _ _ _ _ _ _ H).
    assert (E : jw k I K (mkJob e p') = jw k I K (mkJob e p)) by (unfold jw; cbn [jPc jEv]; destruct p, p'; congruence).
    eapply same64_eq; [exact V7|]. lia.
Qed.

Lemma val_set I K s r o m m' : nth_error (mRegs s) r = Some (o, m) ->
  total (map (val I K) (setReg s r m')) = (total (map (val I K) (mRegs s)) - val I K (o, m) + val I K (o, m'))%Z.
Proof. intro H. unfold setReg. rewrite H. rewrite (@total_set _ _ _ _ _ _ H). reflexivity. Qed.
Lemma setReg_nth s r o m m' r' : nth_error (mRegs s) r = Some (o, m) ->
  nth_error (setReg s r m') r' = if Nat.eqb r' r then Some (o, m') else nth_error (mRegs s) r'.
Proof. intro H. unfold setReg. rewrite H. apply list_set_nth_error. exact (@nth_lt _ _ _ _ H). Qed.
Lemma setReg_len s r m' : length (setReg s r m') = length (mRegs s).
Proof. unfold setReg. destruct (nth_error (mRegs s) r) as [[o m]|]; [apply list_set_length|reflexivity]. Qed.
Lemma regOf_nth s r o m : nth_error (mRegs s) r = Some (o, m) -> regOf s r = m.
Proof. intro H. unfold regOf. rewrite H. reflexivity. Qed.
Lemma bump_kind e x y : bump e x = Some y -> kind_of x = mKind e /\ kind_of y = mKind e.
Proof. unfold bump. destruct (mKind e), x; intro H; try discriminate H; injection H as <-; split; reflexivity. Qed.
Lemma bump_value k I K e x y : bump e x = Some y -> k <> KGauge -> mKind e = k -> mItem e = I -> mKey e = K ->
  exists q, (countEntry (Some y) = countEntry (Some x) + adds k I K e + q * 18446744073709551616)%Z.
Proof.
  intros H N Ek Ei Eq. unfold adds. rewrite Ek, Ei, Eq, !bs_eqb_refl, (proj2 (kind_eqb_spec k k) eq_refl). cbn [andb].
  unfold bump in H. rewrite Ek in H. destruct k, x; try discriminate H; try contradiction; injection H as <-; cbn [countEntry].
  - apply wrap_same.
  - exists 0%Z. rewrite app_length. cbn [length]. lia.
Qed.
Lemma adds_0 k I K e : ~ (mKind e = k /\ mItem e = I /\ mKey e = K) -> adds k I K e = 0%Z.
Proof.
  intro H. unfold adds. destruct (kind_eqb (mKind e) k) eqn:A; [|reflexivity]. destruct (bs_eqb (mItem e) I) eqn:B; [|reflexivity].
  destruct (bs_eqb (mKey e) K) eqn:C; [|reflexivity]. apply kind_eqb_spec in A. apply bs_eqb_spec in B, C. exfalso. apply H. split; [exact A|]. split; assumption.
Qed.

(* changing the metrics of one registry at the key of an event *)
Lemma pc_ok_set s s' r o m m' e p : nth_error (mRegs s) r = Some (o, m) -> mRegs s' = setReg s r m' ->
  (forall key, aget bs_eqb m key <> None -> aget bs_eqb m' key <> None) -> pc_ok s e p -> pc_ok s' e p.
Proof.
  intros H E G P.
  assert (R : forall r0 o0, reg_at s r0 o0 -> reg_at s' r0 o0).
  { intros r0 o0 [m0 X]. unfold reg_at. rewrite E, (@setReg_nth _ _ _ _ _ _ H). destruct (Nat.eqb_spec r0 r) as [->|D].
    - rewrite H in X. injection X as -> _. eexists. reflexivity.
    - exists m0. exact X. }
  destruct p; cbn [pc_ok] in *; try exact P; try (apply R; exact P).
  destruct P as [m0 [x [X Y]]]. rewrite E. rewrite (@setReg_nth _ _ _ _ _ _ H). destruct (Nat.eqb_spec r0 r) as [->|D].
  - rewrite H in X. injection X as -> ->. destruct (aget bs_eqb m' (mKey e)) as [y|] eqn:Z.
    + exists m', y. split; [reflexivity|exact Z].
    + exfalso. apply (G (mKey e)); [congruence|exact Z].
  - exists m0, x. split; assumption.
Qed.

Lemma inv_step k I K cap s o s' : k <> KGauge -> inv k I K s -> only k I K (mSent s') -> mstep cap s o = Some s' -> inv k I K s'.
Proof.
  intros NG V ON H. pose proof V as V0. destruct V0 as [V1 V2 V3 V4 V5 V6 V7].
  destruct o as [e| |j|i|i key]; cbn [mstep] in H.
  - (* send *)
    destruct (Nat.ltb _ _); injection H as <-; constructor; cbn [mBus mItems mRegs mJobs mSnaps mSent mDropped mPanicked]; try assumption.
    + intros x X. apply in_app_or in X as [X|X]; apply in_or_app; [left; exact (V2 _ X)|right; exact X].
    + intros j0 e0 p0 X. destruct (V3 _ _ _ X) as [A B]. split; [apply in_or_app; left; exact A|exact B].
    + rewrite !added_app. eapply same64_eq; [exact V7|]. lia.
    + intros x X. apply in_or_app. left. exact (V2 _ X).
    + intros j0 e0 p0 X. destruct (V3 _ _ _ X) as [A B]. split; [apply in_or_app; left; exact A|exact B].
    + rewrite !added_app. eapply same64_eq; [exact V7|]. lia.
  - (* take *)
    destruct (mBus s) as [|e b] eqn:B; [discriminate H|]. injection H as <-.
    constructor; cbn [mBus mItems mRegs mJobs mSnaps mSent mDropped mPanicked]; try assumption.
    + intros x X. apply V2. right. exact X.
    + intros j0 e0 p0 X. destruct (Nat.lt_ge_cases j0 (length (mJobs s))) as [L|L].
      * rewrite nth_error_app1 in X by exact L. destruct (V3 _ _ _ X) as [A C]. split; [exact A|exact C].
      * rewrite nth_error_app2 in X by exact L. destruct (j0 - length (mJobs s)) as [|n]; [|destruct n; discriminate X].
        injection X as <- <-. split; [apply V2; left; reflexivity|exact Logic.I].
    + rewrite map_app, total_app. cbn [map]. rewrite total_cons. unfold jw at 2. cbn [jPc jEv].
      rewrite added_cons in V7. change (total []) with 0%Z. eapply same64_eq; [exact V7|]. lia.
  - (* a processor *)
    destruct (nth_error (mJobs s) j) as [[e p]|] eqn:J; [|discriminate H]. destruct (V3 _ _ _ J) as [Se Pe].
    assert (LJ : j < length (mJobs s)) by exact (@nth_lt _ _ _ _ J).
    destruct p as [| | |r| |r|r|]; cbn [jstep] in H.
    + injection H as <-. eapply inv_goto; [exact V|exact J|discriminate| |]; destruct (aget bs_eqb (mItems s) (mItem e)); try discriminate; exact Logic.I.
    + destruct (aget bs_eqb (mItems s) (mItem e)) as [r|] eqn:A.
      * injection H as <-. eapply inv_goto; [exact V|exact J|discriminate|discriminate|exact Logic.I].
      * injection H as <-.
        eapply inv_goto with (p := PMiss); [|exact J|discriminate|discriminate|exact Logic.I].
        assert (RA : forall r o, reg_at s r o -> forall s1, mRegs s1 = mRegs s ++ [(mItem e, [])] -> reg_at s1 r o).
        { intros r o [m X] s1 E1. exists m. rewrite E1. rewrite nth_error_app1; [exact X|exact (@nth_lt _ _ _ _ X)]. }
        constructor; cbn [mBus mItems mRegs mJobs mSnaps mSent mDropped mPanicked]; try assumption.
        -- intros i r X. rewrite (aget_aset bs_eqb bs_eqb_spec) in X. destruct (bs_eqb i (mItem e)) eqn:Q.
           ++ apply bs_eqb_spec in Q. subst i. injection X as <-. exists []. cbn [mRegs]. rewrite nth_error_app2 by lia. rewrite Nat.sub_diag. reflexivity.
           ++ apply (RA _ _ (V1 _ _ X)). reflexivity.
        -- intros j0 e0 p0 X. destruct (V3 _ _ _ X) as [A1 B1]. split; [exact A1|].
           destruct p0; cbn [pc_ok] in *; try exact B1; try (apply (RA _ _ B1); reflexivity).
           destruct B1 as [m [x [Y1 Y2]]]. exists m, x. split; [|exact Y2]. cbn [mRegs]. rewrite nth_error_app1; [exact Y1|exact (@nth_lt _ _ _ _ Y1)].
        -- intros r m x X Y. destruct (Nat.lt_ge_cases r (length (mRegs s))) as [L|L].
           ++ rewrite nth_error_app1 in X by exact L. exact (V4 _ _ _ X Y).
           ++ rewrite nth_error_app2 in X by exact L. destruct (r - length (mRegs s)) as [|n]; [|destruct n; discriminate X].
              injection X as _ <-. discriminate Y.
        -- apply NoDup_aset; [exact bs_eqb_spec|exact V5].
        -- assert (AN : aset bs_eqb (mItems s) (mItem e) (length (mRegs s)) = mItems s ++ [(mItem e, length (mRegs s))]).
           { clear -A. induction (mItems s) as [|[a b] l IH]; [reflexivity|]. cbn [aget aset] in *. destruct (bs_eqb (mItem e) a); [discriminate A|].
             rewrite (IH A). reflexivity. }
           rewrite AN, app_length, map_app. cbn [length map snd]. rewrite Nat.add_1_r, seq_S. cbn [plus].
           rewrite <- app_assoc. cbn [app].
           etransitivity; [apply Permutation_sym, Permutation_middle|].
           etransitivity; [|apply Permutation_cons_append]. apply perm_skip. exact V6.
        -- rewrite map_app, total_app. cbn [map]. rewrite total_cons. change (total []) with 0%Z.
           assert (Z0 : val I K (mItem e, []) = 0%Z) by (unfold val; cbn; destruct (bs_eqb _ _); reflexivity).
           rewrite Z0. eapply same64_eq; [exact V7|]. lia.
    + destruct (aget bs_eqb (mItems s) (mItem e)) as [r|] eqn:A; [|discriminate H]. injection H as <-.
      eapply inv_goto; [exact V|exact J|discriminate|discriminate|]. exact (V1 _ _ A).
    + injection H as <-. cbn [pc_ok] in Pe. destruct Pe as [m Pm]. rewrite (@regOf_nth _ _ _ _ Pm).
      destruct (aget bs_eqb m (mKey e)) as [x|] eqn:A; (eapply inv_goto; [exact V|exact J|discriminate|discriminate|]); [|exact Logic.I].
      exists m, x. split; assumption.
    + destruct (aget bs_eqb (mItems s) (mItem e)) as [r|] eqn:A; [|discriminate H]. injection H as <-.
      eapply inv_goto; [exact V|exact J|discriminate|discriminate|]. exact (V1 _ _ A).
    + cbn [pc_ok] in Pe. destruct Pe as [m Pm]. rewrite (@regOf_nth _ _ _ _ Pm) in H.
      destruct (aget bs_eqb m (mKey e)) as [x|] eqn:A.
      * injection H as <-. eapply inv_goto; [exact V|exact J|discriminate|discriminate|]. exists m, x. split; assumption.
      * injection H as <-.
        eapply inv_goto with (p := PReg2 r); [|exact J|discriminate|discriminate|].
        -- constructor; cbn [mBus mItems mRegs mJobs mSnaps mSent mDropped mPanicked]; try assumption.
           ++ intros i r0 X. destruct (V1 _ _ X) as [m0 Y]. unfold reg_at. cbn [mRegs]. rewrite (@setReg_nth _ _ _ _ _ _ Pm).
              destruct (Nat.eqb_spec r0 r) as [->|D]; [|exists m0; exact Y]. rewrite Pm in Y. injection Y as <- _. eexists. reflexivity.
           ++ intros j0 e0 p0 X. destruct (V3 _ _ _ X) as [A1 B1]. split; [exact A1|].
              eapply pc_ok_set; [exact Pm|reflexivity| |exact B1].
              intros key0 Y. rewrite (aget_aset bs_eqb bs_eqb_spec). destruct (bs_eqb key0 (mKey e)); [discriminate|exact Y].
           ++ intros r0 m0 x X Y. rewrite (@setReg_nth _ _ _ _ _ _ Pm) in X. destruct (Nat.eqb_spec r0 r) as [->|D]; [|exact (V4 _ _ _ X Y)].
              injection X as E1 <-. rewrite (aget_aset bs_eqb bs_eqb_spec) in Y. destruct (bs_eqb K (mKey e)) eqn:Q.
              ** apply bs_eqb_spec in Q. injection Y as <-. destruct (mKind e) eqn:KE; cbn [zeroOf kind_of]; rewrite <- KE; apply (ON e Se E1); symmetry; exact Q.
              ** rewrite E1 in Pm. exact (V4 _ _ _ Pm Y).
           ++ rewrite setReg_len. exact V6.
           ++ rewrite (@val_set _ _ _ _ _ _ _ Pm).
              assert (E0 : val I K (mItem e, aset bs_eqb m (mKey e) (zeroOf (mKind e))) = val I K (mItem e, m)).
              { unfold val. cbn [fst snd]. destruct (bs_eqb (mItem e) I); [|reflexivity]. rewrite (aget_aset bs_eqb bs_eqb_spec).
                destruct (bs_eqb K (mKey e)) eqn:Q; [|reflexivity]. apply bs_eqb_spec in Q. rewrite Q, A. destruct (mKind e); reflexivity. }
              rewrite E0. eapply same64_eq; [exact V7|]. lia.
        -- cbn [pc_ok]. eexists. exists (zeroOf (mKind e)). cbn [mRegs]. rewrite (@setReg_nth _ _ _ _ _ _ Pm), Nat.eqb_refl. split; [reflexivity|].
           rewrite (aget_aset bs_eqb bs_eqb_spec), bs_eqb_refl. reflexivity.
    + cbn [pc_ok] in Pe. destruct Pe as [m [x [Pm Px]]]. rewrite (@regOf_nth _ _ _ _ Pm), Px in H.
      destruct (bump e x) as [y|] eqn:B.
      * injection H as <-. constructor; cbn [goto mBus mItems mRegs mJobs mSnaps mSent mDropped mPanicked]; try assumption.
        -- intros i r0 X. destruct (V1 _ _ X) as [m0 Y]. unfold reg_at. cbn [goto mRegs]. rewrite (@setReg_nth _ _ _ _ _ _ Pm).
           destruct (Nat.eqb_spec r0 r) as [->|D]; [|exists m0; exact Y]. rewrite Pm in Y. injection Y as <- _. eexists. reflexivity.
        -- intros j0 e0 p0 X. destruct (Nat.eq_dec j0 j) as [->|D].
           ++ rewrite set_same in X by exact LJ. injection X as <- <-. split; [exact Se|exact Logic.I].
           ++ rewrite set_other in X by assumption. destruct (V3 _ _ _ X) as [A1 B1]. split; [exact A1|].
              eapply pc_ok_set; [exact Pm|reflexivity| |exact B1].
              intros key0 Y. rewrite (aget_aset bs_eqb bs_eqb_spec). destruct (bs_eqb key0 (mKey e)); [discriminate|exact Y].
        -- intros r0 m0 x0 X Y. rewrite (@setReg_nth _ _ _ _ _ _ Pm) in X. destruct (Nat.eqb_spec r0 r) as [->|D]; [|exact (V4 _ _ _ X Y)].
           injection X as E1 <-. rewrite (aget_aset bs_eqb bs_eqb_spec) in Y. destruct (bs_eqb K (mKey e)) eqn:Q.
           ** apply bs_eqb_spec in Q. injection Y as <-. destruct (@bump_kind _ _ _ B) as [_ ->]. apply (ON e Se E1). symmetry. exact Q.
           ** rewrite E1 in Pm. exact (V4 _ _ _ Pm Y).
        -- rewrite setReg_len. exact V6.
        -- rewrite (@val_set _ _ _ _ _ _ _ Pm), (@total_set _ _ _ _ _ _ J).
           assert (JW1 : jw k I K (mkJob e (PObj r)) = adds k I K e) by reflexivity.
           assert (JW2 : jw k I K (mkJob e PDone) = 0%Z) by reflexivity. rewrite JW1, JW2.
           assert (E0 : exists q, (val I K (mItem e, aset bs_eqb m (mKey e) y) = val I K (mItem e, m) + adds k I K e + q * 18446744073709551616)%Z).
           { unfold val. cbn [fst snd]. destruct (bs_eqb (mItem e) I) eqn:Q1.
             - rewrite (aget_aset bs_eqb bs_eqb_spec). destruct (bs_eqb K (mKey e)) eqn:Q2.
               + apply bs_eqb_spec in Q1, Q2. destruct (@bump_value k I K e x y B NG (ON e Se Q1 (eq_sym Q2)) Q1 (eq_sym Q2)) as [q Hq].
                 exists q. rewrite Hq. rewrite Q2, Px. reflexivity.
               + apply bs_eqb_neq in Q2. rewrite adds_0 by (intros [_ [_ X]]; congruence). exists 0%Z. lia.
             - apply bs_eqb_neq in Q1. rewrite adds_0 by (intros [_ [X _]]; congruence). exists 0%Z. lia. }
           destruct E0 as [q E0]. rewrite E0. destruct V7 as [q7 V7]. exists (q7 - q)%Z. lia.
      * injection H as <-. constructor; cbn [goto mBus mItems mRegs mJobs mSnaps mSent mDropped mPanicked]; try assumption.
        -- intros j0 e0 p0 X. destruct (Nat.eq_dec j0 j) as [->|D].
           ++ rewrite set_same in X by exact LJ. injection X as <- <-. split; [exact Se|exact Logic.I].
           ++ rewrite set_other in X by assumption. exact (V3 _ _ _ X).
        -- rewrite (@total_set _ _ _ _ _ _ J).
           assert (JW1 : jw k I K (mkJob e (PObj r)) = adds k I K e) by reflexivity.
           assert (JW2 : jw k I K (mkJob e PDone) = 0%Z) by reflexivity. rewrite JW1, JW2.
           assert (A0 : adds k I K e = 0%Z).
           { apply adds_0. intros [E1 [E2 E3]]. rewrite E2 in Pm. rewrite E3 in Px. pose proof (V4 _ _ _ Pm Px) as KX.
             unfold bump in B. rewrite E1, <- KX in B. destruct x; cbn [kind_of] in B; discriminate B. }
           rewrite A0. eapply same64_eq; [exact V7|]. lia.
    + discriminate H.
  - (* snapshot *)
    destruct (aget bs_eqb (mItems s) i) as [r|] eqn:A; [|discriminate H]. injection H as <-.
    constructor; cbn [mBus mItems mRegs mJobs mSnaps mSent mDropped mPanicked]; try assumption.
    + intros i0 r0 X. rewrite (aget_aset bs_eqb bs_eqb_spec) in X. destruct (bs_eqb i0 i) eqn:Q.
      * apply bs_eqb_spec in Q. subst i0. injection X as <-. exists []. cbn [mRegs]. rewrite nth_error_app2 by lia. rewrite Nat.sub_diag. reflexivity.
      * destruct (V1 _ _ X) as [m Y]. exists m. cbn [mRegs]. rewrite nth_error_app1; [exact Y|exact (@nth_lt _ _ _ _ Y)].
    + intros j0 e0 p0 X. destruct (V3 _ _ _ X) as [A1 B1]. split; [exact A1|].
      assert (RA : forall r0 o, reg_at s r0 o -> forall s1, mRegs s1 = mRegs s ++ [(i, [])] -> reg_at s1 r0 o).
      { intros r0 o [m Y] s1 E1. exists m. rewrite E1. rewrite nth_error_app1; [exact Y|exact (@nth_lt _ _ _ _ Y)]. }
      destruct p0; cbn [pc_ok] in *; try exact B1; try (apply (RA _ _ B1); reflexivity).
      destruct B1 as [m [x [Y1 Y2]]]. exists m, x. split; [|exact Y2]. cbn [mRegs]. rewrite nth_error_app1; [exact Y1|exact (@nth_lt _ _ _ _ Y1)].
    + intros r0 m x X Y. destruct (Nat.lt_ge_cases r0 (length (mRegs s))) as [L|L].
      * rewrite nth_error_app1 in X by exact L. exact (V4 _ _ _ X Y).
      * rewrite nth_error_app2 in X by exact L. destruct (r0 - length (mRegs s)) as [|n]; [|destruct n; discriminate X].
        injection X as _ <-. discriminate Y.
    + apply NoDup_aset; [exact bs_eqb_spec|exact V5].
    + assert (PI : Permutation (r :: map snd (aset bs_eqb (mItems s) i (length (mRegs s)))) (length (mRegs s) :: map snd (mItems s))).
      { clear -A. induction (mItems s) as [|[a b] l IH]; [discriminate A|]. cbn [aget aset] in *. destruct (bs_eqb i a).
        - injection A as ->. cbn [map snd]. apply perm_swap.
        - cbn [map snd]. etransitivity; [apply perm_swap|]. etransitivity; [apply perm_skip, (IH A)|]. apply perm_swap. }
      rewrite app_length, map_app. cbn [length map fst]. rewrite Nat.add_1_r, seq_S. cbn [plus].
      etransitivity; [rewrite app_assoc; apply Permutation_sym, Permutation_cons_append|].
      etransitivity; [|apply Permutation_cons_append].
      change (Permutation ((r :: map snd (aset bs_eqb (mItems s) i (length (mRegs s)))) ++ map fst (mSnaps s)) (length (mRegs s) :: seq 0 (length (mRegs s)))).
      etransitivity; [apply Permutation_app_tail, PI|]. cbn [app]. apply perm_skip. exact V6.
    + rewrite map_app, total_app. cbn [map]. rewrite total_cons. change (total []) with 0%Z.
      assert (Z0 : val I K (i, []) = 0%Z) by (unfold val; cbn; destruct (bs_eqb _ _); reflexivity).
      rewrite Z0. eapply same64_eq; [exact V7|]. lia.
  - (* read *)
    destruct (nth_error (mSnaps s) i) as [[r c]|] eqn:S; [|discriminate H].
    destruct (aget bs_eqb c key); [injection H as <-; exact V|]. destruct (aget bs_eqb (regOf s r) key) as [x|]; injection H as <-; [|exact V].
    constructor; cbn [mBus mItems mRegs mJobs mSnaps mSent mDropped mPanicked]; try assumption.
    assert (MF : map fst (list_set (mSnaps s) i (r, aset bs_eqb c key x)) = map fst (mSnaps s)).
    { clear -S. revert i S. induction (mSnaps s) as [|a l IH]; intros [|i] S; try discriminate S; cbn [list_set map].
      - injection S as ->. reflexivity.
      - rewrite (IH i S). reflexivity. }
    rewrite MF. exact V6.
Qed.

(* ---- registries that were taken away *)
Definition part (s : mst) : Prop := Permutation (map snd (mItems s) ++ map fst (mSnaps s)) (seq 0 (length (mRegs s))).
Lemma part_items s s' : mItems s' = mItems s -> mSnaps s' = mSnaps s -> length (mRegs s') = length (mRegs s) -> part s -> part s'.
Proof. unfold part. intros -> -> ->. exact (fun H => H). Qed.
Lemma snaps_fst (l : list (nat * list (bs * entry))) i r c c' : nth_error l i = Some (r, c) -> map fst (list_set l i (r, c')) = map fst l.
Proof.
  revert i. induction l as [|a l IH]; intros [|i] S; try discriminate S; cbn [list_set map].
  - injection S as ->. reflexivity.
  - rewrite (IH i S). reflexivity.
Qed.
Lemma part_step cap s o s' : part s -> mstep cap s o = Some s' -> part s'.
Proof.
  intros P H. destruct o as [e| |j|i|i key]; cbn [mstep] in H.
  - destruct (Nat.ltb _ _); injection H as <-; exact P.
  - destruct (mBus s); [discriminate H|]. injection H as <-. exact P.
  - destruct (nth_error (mJobs s) j) as [[e p]|]; [|discriminate H].
    destruct p as [| | |r| |r|r|]; cbn [jstep] in H.
    + injection H as <-. exact P.
    + destruct (aget bs_eqb (mItems s) (mItem e)) as [r|] eqn:A; injection H as <-; [exact P|]. unfold part. cbn [goto mItems mSnaps mRegs].
      assert (AN : aset bs_eqb (mItems s) (mItem e) (length (mRegs s)) = mItems s ++ [(mItem e, length (mRegs s))]).
      { clear -A. induction (mItems s) as [|[a b] l IH]; [reflexivity|]. cbn [aget aset] in *. destruct (bs_eqb (mItem e) a); [discriminate A|].
        rewrite (IH A). reflexivity. }
      rewrite AN, app_length, map_app. cbn [length map snd]. rewrite Nat.add_1_r, seq_S. cbn [plus].
      rewrite <- app_assoc. cbn [app].
      etransitivity; [apply Permutation_sym, Permutation_middle|].
      etransitivity; [|apply Permutation_cons_append]. apply perm_skip. exact P.
    + destruct (aget bs_eqb (mItems s) (mItem e)); [|discriminate H]. injection H as <-. exact P.
    + injection H as <-. exact P.
    + destruct (aget bs_eqb (mItems s) (mItem e)); [|discriminate H]. injection H as <-. exact P.
    + destruct (aget bs_eqb (regOf s r) (mKey e)); injection H as <-; [exact P|].
      apply (@part_items s); [reflexivity|reflexivity|apply setReg_len|exact P].
    + destruct (aget bs_eqb (regOf s r) (mKey e)); [|discriminate H]. destruct (bump e e0); injection H as <-; [|exact P].
      apply (@part_items s); [reflexivity|reflexivity|apply setReg_len|exact P].
    + discriminate H.
  - destruct (aget bs_eqb (mItems s) i) as [r|] eqn:A; [|discriminate H]. injection H as <-. unfold part. cbn [mItems mSnaps mRegs].
    assert (PI : Permutation (r :: map snd (aset bs_eqb (mItems s) i (length (mRegs s)))) (length (mRegs s) :: map snd (mItems s))).
    { clear -A. induction (mItems s) as [|[a b] l IH]; [discriminate A|]. cbn [aget aset] in *. destruct (bs_eqb i a).
      - injection A as ->. cbn [map snd]. apply perm_swap.
      - cbn [map snd]. etransitivity; [apply perm_swap|]. etransitivity; [apply perm_skip, (IH A)|]. apply perm_swap. }
    rewrite app_length, map_app. cbn [length map fst]. rewrite Nat.add_1_r, seq_S. cbn [plus].
    etransitivity; [rewrite app_assoc; apply Permutation_sym, Permutation_cons_append|].
    etransitivity; [|apply Permutation_cons_append].
    change (Permutation ((r :: map snd (aset bs_eqb (mItems s) i (length (mRegs s)))) ++ map fst (mSnaps s)) (length (mRegs s) :: seq 0 (length (mRegs s)))).
    etransitivity; [apply Permutation_app_tail, PI|]. cbn [app]. apply perm_skip. exact P.
  - destruct (nth_error (mSnaps s) i) as [[r c]|] eqn:S; [|discriminate H].
    destruct (aget bs_eqb c key); [injection H as <-; exact P|]. destruct (aget bs_eqb (regOf s r) key) as [x|]; injection H as <-; [|exact P].
    unfold part. cbn [mItems mSnaps mRegs]. rewrite (snaps_fst _ _ _ S). exact P.
Qed.
Lemma part_init : part minit.
Proof. apply Permutation_refl. Qed.
Lemma part_not_current s r : part s -> snapshot_of s r -> ~ In r (map snd (mItems s)) /\ r < length (mRegs s).
Proof.
  intros P [c H]. assert (I1 : In r (map fst (mSnaps s))) by (apply in_map_iff; exists (r, c); split; [reflexivity|exact H]).
  assert (N : NoDup (map snd (mItems s) ++ map fst (mSnaps s))).
  { eapply Permutation_NoDup; [apply Permutation_sym; exact P|apply seq_NoDup]. }
  split.
  - intro X. apply in_split in I1 as [l1 [l2 E]]. rewrite E in N. rewrite app_assoc in N. apply NoDup_remove_2 in N. apply N.
    apply in_or_app. left. apply in_or_app. left. exact X.
  - assert (X : In r (seq 0 (length (mRegs s)))) by (eapply Permutation_in; [exact P|apply in_or_app; right; exact I1]).
    apply in_seq in X. lia.
Qed.
Lemma regOf_setReg s s' r r' m : mRegs s' = setReg s r m -> r' <> r -> regOf s' r' = regOf s r'.
Proof.
  intros E N. unfold regOf. rewrite E. unfold setReg. destruct (nth_error (mRegs s) r) as [[o m0]|] eqn:X; [|reflexivity].
  rewrite set_other; [reflexivity|exact (@nth_lt _ _ _ _ X)|exact N].
Qed.
Lemma regOf_app s s' x r : mRegs s' = mRegs s ++ [x] -> r < length (mRegs s) -> regOf s' r = regOf s r.
Proof. intros E L. unfold regOf. rewrite E, nth_error_app1 by exact L. reflexivity. Qed.

Lemma settled_step cap s o s' r : part s -> snapshot_of s r -> settled s r -> mstep cap s o = Some s' ->
  settled s' r /\ regOf s' r = regOf s r /\ snapshot_of s' r.
Proof.
  intros P SN ST H. destruct (part_not_current P SN) as [NC L].
  assert (G : forall j e p p', nth_error (mJobs s) j = Some (mkJob e p) -> ~ holds r (mkJob e p') ->
     forall s1, mJobs s1 = list_set (mJobs s) j (mkJob e p') -> settled s1 r).
  { intros j e p p' J N s1 E x X. rewrite E in X. apply In_set in X as [->|X]; [exact N|exact (ST _ X)]. }
  destruct o as [e| |j|i|i key]; cbn [mstep] in H.
  - destruct (Nat.ltb _ _); injection H as <-; (split; [exact ST|]; split; [reflexivity|exact SN]).
  - destruct (mBus s) as [|e b]; [discriminate H|]. injection H as <-. split; [|split; [reflexivity|exact SN]].
    intros x X. cbn [mJobs] in X. apply in_app_or in X as [X|[<-|[]]]; [exact (ST _ X)|exact (fun F => F)].
  - destruct (nth_error (mJobs s) j) as [[e p]|] eqn:J; [|discriminate H].
    assert (HJ : ~ holds r (mkJob e p)) by (apply ST; eapply nth_error_In; exact J).
    assert (CUR : forall r0, aget bs_eqb (mItems s) (mItem e) = Some r0 -> r0 <> r).
    { intros r0 A X. subst r0. apply NC. apply in_map_iff. exists (mItem e, r). split; [reflexivity|]. exact (aget_In bs_eqb bs_eqb_spec _ _ _ A). }
    destruct p as [| | |r0| |r0|r0|]; cbn [jstep] in H.
    + injection H as <-. split; [|split; [reflexivity|exact SN]]. eapply G; [exact J| |reflexivity]. destruct (aget bs_eqb (mItems s) (mItem e)); exact (fun F => F).
    + destruct (aget bs_eqb (mItems s) (mItem e)) as [r1|] eqn:A; injection H as <-.
      * split; [|split; [reflexivity|exact SN]]. eapply G; [exact J| |reflexivity]. exact (fun F => F).
      * split; [|split; [|exact SN]]; [eapply G; [exact J| |reflexivity]; exact (fun F => F)|]. eapply regOf_app; [reflexivity|exact L].
    + destruct (aget bs_eqb (mItems s) (mItem e)) as [r1|] eqn:A; [|discriminate H]. injection H as <-.
      split; [|split; [reflexivity|exact SN]]. eapply G; [exact J| |reflexivity]. exact (CUR _ eq_refl).
    + injection H as <-. split; [|split; [reflexivity|exact SN]]. eapply G; [exact J| |reflexivity].
      destruct (aget bs_eqb (regOf s r0) (mKey e)); [exact HJ|exact (fun F => F)].
    + destruct (aget bs_eqb (mItems s) (mItem e)) as [r1|] eqn:A; [|discriminate H]. injection H as <-.
      split; [|split; [reflexivity|exact SN]]. eapply G; [exact J| |reflexivity]. exact (CUR _ eq_refl).
    + assert (D : r <> r0) by (intro X; apply HJ; symmetry; exact X).
      destruct (aget bs_eqb (regOf s r0) (mKey e)); injection H as <-.
      * split; [|split; [reflexivity|exact SN]]. eapply G; [exact J| |reflexivity]. exact HJ.
      * split; [|split; [|exact SN]]; [eapply G; [exact J| |reflexivity]; exact HJ|]. eapply regOf_setReg; [reflexivity|exact D].
    + assert (D : r <> r0) by (intro X; apply HJ; symmetry; exact X).
      destruct (aget bs_eqb (regOf s r0) (mKey e)); [|discriminate H]. destruct (bump e e0); injection H as <-.
      * split; [|split; [|exact SN]]; [eapply G; [exact J| |reflexivity]; exact (fun F => F)|]. eapply regOf_setReg; [reflexivity|exact D].
      * split; [|split; [reflexivity|exact SN]]. eapply G; [exact J| |reflexivity]. exact (fun F => F).
    + discriminate H.
  - destruct (aget bs_eqb (mItems s) i) as [r1|] eqn:A; [|discriminate H]. injection H as <-.
    split; [exact ST|]. split; [eapply regOf_app; [reflexivity|exact L]|].
    destruct SN as [c SN]. exists c. cbn [mSnaps]. apply in_or_app. left. exact SN.
  - destruct (nth_error (mSnaps s) i) as [[r1 c]|] eqn:S; [|discriminate H].
    destruct (aget bs_eqb c key); [injection H as <-; split; [exact ST|]; split; [reflexivity|exact SN]|].
    destruct (aget bs_eqb (regOf s r1) key) as [x|]; injection H as <-; (split; [exact ST|]; split; [reflexivity|]); [|exact SN].
    destruct SN as [c0 SN]. unfold snapshot_of. cbn [mSnaps].
    assert (I1 : In r (map fst (list_set (mSnaps s) i (r1, aset bs_eqb c key x)))).
    { rewrite (snaps_fst _ _ _ S). apply in_map_iff. exists (r, c0). split; [reflexivity|exact SN]. }
    apply in_map_iff in I1 as [[r2 c2] [E I1]]. cbn [fst] in E. subst r2. exists c2. exact I1.
Qed.
Lemma settled_runs cap os : forall s s' r, part s -> snapshot_of s r -> settled s r -> mruns cap s os = Some s' -> regOf s' r = regOf s r.
Proof.
  induction os as [|o os IH]; intros s s' r P SN ST H; cbn [mruns] in H; [injection H as <-; reflexivity|].
  destruct (mstep cap s o) as [s1|] eqn:E; [|discriminate H].
  destruct (settled_step _ _ P SN ST E) as [A [B C]]. rewrite (IH _ _ _ (part_step _ _ P E) C A H). exact B.
Qed.
Lemma part_runs cap os : forall s s', part s -> mruns cap s os = Some s' -> part s'.
Proof.
  induction os as [|o os IH]; intros s s' P H; cbn [mruns] in H; [injection H as <-; exact P|].
  destruct (mstep cap s o) as [s1|] eqn:E; [|discriminate H]. exact (IH _ _ (part_step _ _ P E) H).
Qed.
Lemma inv_runs k I K cap os : k <> KGauge -> forall s s', inv k I K s -> only k I K (mSent s') -> mruns cap s os = Some s' -> inv k I K s'.
Proof.
  intro NG. induction os as [|o os IH]; intros s s' V ON H; cbn [mruns] in H; [injection H as <-; exact V|].
  destruct (mstep cap s o) as [s1|] eqn:E; [|discriminate H]. apply (IH s1 s'); [|exact ON|exact H].
  eapply inv_step; [exact NG|exact V| |exact E].
  assert (M : exists l, mSent s' = mSent s1 ++ l).
  { clear -H. revert s1 H. induction os as [|o os IH]; intros s1 H; cbn [mruns] in H; [injection H as <-; exists []; symmetry; apply app_nil_r|].
    destruct (mstep cap s1 o) as [s2|] eqn:E; [|discriminate H]. destruct (IH _ H) as [l ->]. destruct (sent_mono _ _ _ E) as [l0 ->].
    exists (l0 ++ l). symmetry. apply app_assoc. }
  destruct M as [l M]. intros e X. apply ON. rewrite M. apply in_or_app. left. exact X.
Qed.

(* live and collected make up all registries of the item *)
Lemma regs_sum I K s : part s -> NoDup (map fst (mItems s)) -> (forall i r, aget bs_eqb (mItems s) i = Some r -> reg_at s r i) ->
  total (map (val I K) (mRegs s)) = (liveCount s I K + collected s I K)%Z.
Proof.
  intros P N V1.
  set (f := fun r => match nth_error (mRegs s) r with Some om => val I K om | None => 0%Z end).
  assert (E0 : total (map (val I K) (mRegs s)) = total (map f (seq 0 (length (mRegs s))))).
  { f_equal. unfold f. clear. generalize (mRegs s) as l. intro l.
    assert (G : forall l pre, map (val I K) l = map (fun r => match nth_error (pre ++ l) r with Some om => val I K om | None => 0%Z end) (seq (length pre) (length l))).
    { clear l. induction l as [|a l IH]; intro pre; [reflexivity|]. cbn [map length seq]. rewrite nth_error_app2, Nat.sub_diag by lia. cbn [nth_error]. f_equal.
      specialize (IH (pre ++ [a])). rewrite app_length in IH. cbn [length] in IH. rewrite Nat.add_1_r in IH. rewrite IH. apply map_ext. intro r. rewrite <- app_assoc. reflexivity. }
    exact (G l []). }
  rewrite E0. rewrite <- (total_perm (Permutation_map f P)), map_app, total_app. f_equal.
  - (* the live ones *)
    unfold liveCount. assert (V2 : forall i r, In (i, r) (mItems s) -> f r = if bs_eqb i I then countEntry (aget bs_eqb (regOf s r) K) else 0%Z).
    { intros i r X. pose proof (In_aget bs_eqb bs_eqb_spec _ _ _ N X) as A. destruct (V1 _ _ A) as [m Y]. unfold f, regOf. rewrite Y. reflexivity. }
    clear V1 P E0. revert N V2. generalize (mItems s) as l. induction l as [|[i r] l IH]; intros N V2; [reflexivity|].
    cbn [map fst] in N. inversion N as [|? ? N1 N2]; subst. cbn [map snd aget]. rewrite total_cons, (V2 i r (or_introl eq_refl)).
    rewrite (bs_eqb_sym I i). rewrite IH; [|exact N2|intros i0 r0 X; apply V2; right; exact X].
    destruct (bs_eqb i I) eqn:Q; [|reflexivity]. apply bs_eqb_spec in Q. subst i.
    assert (A0 : aget bs_eqb l I = None) by (apply (aget_None bs_eqb bs_eqb_spec); exact N1). rewrite A0. lia.
  - unfold collected. induction (mSnaps s) as [|[r c] l IH]; [reflexivity|]. cbn [map fst filter]. rewrite total_cons.
    assert (X : f r = if of_item s I (r, c) then countEntry (aget bs_eqb (regOf s r) K) else 0%Z).
    { unfold f, of_item, regOf. cbn [fst]. destruct (nth_error (mRegs s) r) as [[o m]|]; [|reflexivity]. unfold val. cbn [fst snd]. reflexivity. }
    rewrite X, IH. destruct (of_item s I (r, c)); cbn [map fst]; rewrite ?total_cons; lia.
Qed.

Lemma conserved k I K cap os s : k <> KGauge -> mruns cap minit os = Some s -> only k I K (mSent s) ->
  same64 (added k I K (mSent s)) (collected s I K + liveCount s I K + added k I K (mBus s) + added k I K (in_flight s) + added k I K (mDropped s)).
Proof.
  intros NG H ON. pose proof (@inv_runs k I K cap os NG _ _ (inv_init k I K) ON H) as V.
  pose proof (@part_runs cap os _ _ part_init H) as P. destruct V as [V1 V2 V3 V4 V5 V6 V7].
  rewrite (@regs_sum I K s P V5 V1) in V7. rewrite in_flight_jw. eapply same64_eq; [exact V7|]. lia.
Qed.

(* ---- careful reports *)
Definition cache_ok (s : mst) : Prop := forall i r c key x, nth_error (mSnaps s) i = Some (r, c) -> aget bs_eqb c key = Some x ->
  settled s r /\ aget bs_eqb (regOf s r) key = Some x.
Lemma cache_step cap s o s' : part s -> cache_ok s -> mstep cap s o = Some s' ->
  (forall i key r c, o = ORead i key -> nth_error (mSnaps s) i = Some (r, c) -> settled s r) -> cache_ok s'.
Proof.
  intros P C H RD.
  assert (KEEP : forall i r c key x, nth_error (mSnaps s) i = Some (r, c) -> aget bs_eqb c key = Some x -> settled s' r /\ aget bs_eqb (regOf s' r) key = Some x).
  { intros i r c key x X Y. destruct (C _ _ _ _ _ X Y) as [A B].
    assert (SN : snapshot_of s r) by (exists c; eapply nth_error_In; exact X).
    destruct (settled_step _ _ P SN A H) as [A' [B' _]]. rewrite B'. split; assumption. }
  intros i r c key x X Y.
  destruct o as [e| |j|i0|i0 key0]; cbn [mstep] in H.
  - destruct (Nat.ltb _ _); injection H as <-; exact (KEEP _ _ _ _ _ X Y).
  - destruct (mBus s); [discriminate H|]. injection H as <-. exact (KEEP _ _ _ _ _ X Y).
  - assert (E : mSnaps s' = mSnaps s).
    { destruct (nth_error (mJobs s) j) as [[e p]|]; [|discriminate H]. unfold jstep in H.
      destruct p; repeat match type of H with (match ?x with _ => _ end) = Some _ => destruct x end; try discriminate H; injection H as <-; reflexivity. }
    rewrite E in X. exact (KEEP _ _ _ _ _ X Y).
  - destruct (aget bs_eqb (mItems s) i0) as [r0|]; [|discriminate H]. injection H as <-. cbn [mSnaps] in X.
    destruct (Nat.lt_ge_cases i (length (mSnaps s))) as [L|L].
    + rewrite nth_error_app1 in X by exact L. exact (KEEP _ _ _ _ _ X Y).
    + rewrite nth_error_app2 in X by exact L. destruct (i - length (mSnaps s)) as [|n]; [|destruct n; discriminate X].
      injection X as _ <-. discriminate Y.
  - destruct (nth_error (mSnaps s) i0) as [[r0 c0]|] eqn:S; [|discriminate H]. pose proof (RD _ _ _ _ eq_refl S) as ST.
    destruct (aget bs_eqb c0 key0) eqn:CK; [injection H as <-; exact (KEEP _ _ _ _ _ X Y)|].
    destruct (aget bs_eqb (regOf s r0) key0) as [x0|] eqn:RK; injection H as <-; [|exact (KEEP _ _ _ _ _ X Y)].
    cbn [mSnaps] in X. destruct (Nat.eq_dec i i0) as [->|D].
    + rewrite set_same in X by exact (@nth_lt _ _ _ _ S). injection X as <- <-. rewrite (aget_aset bs_eqb bs_eqb_spec) in Y.
      destruct (bs_eqb key key0) eqn:Q; [|exact (KEEP _ _ _ _ _ S Y)].
      apply bs_eqb_spec in Q. subst key. injection Y as <-. split; [exact ST|exact RK].
    + rewrite set_other in X; [|exact (@nth_lt _ _ _ _ S)|exact D]. exact (KEEP _ _ _ _ _ X Y).
Qed.
Lemma careful_runs cap s os s' : careful cap s os s' -> mruns cap s os = Some s' /\ (part s -> cache_ok s -> cache_ok s').
Proof.
  induction 1 as [s|s o s1 os s2 H R C [IH1 IH2]]; [split; [reflexivity|intros _ X; exact X]|].
  split; [cbn [mruns]; rewrite H; exact IH1|]. intros P K. apply IH2; [exact (part_step _ _ P H)|exact (@cache_step cap s o s1 P K H R)].
Qed.
Lemma reported_collected s I K : cache_ok s -> reported s I K = collected s I K.
Proof.
  intro C. unfold reported, collected. f_equal. apply map_ext_in. intros [r c] X. apply filter_In in X as [X _].
  apply In_nth_error in X as [i X]. unfold snapCount. cbn [fst snd].
  destruct (aget bs_eqb c K) as [x|] eqn:A; [|reflexivity]. destruct (C _ _ _ _ _ X A) as [_ B]. rewrite B. reflexivity.
Qed.
Lemma cache_init : cache_ok minit.
Proof. intros i r c key x H. destruct i; discriminate H. Qed.
Lemma all_reported k I K cap os s : k <> KGauge -> careful cap minit os s -> only k I K (mSent s) ->
  same64 (added k I K (mSent s)) (reported s I K + liveCount s I K + added k I K (mBus s) + added k I K (in_flight s) + added k I K (mDropped s)).
Proof.
  intros NG H ON. destruct (careful_runs H) as [R C]. rewrite (@reported_collected s I K (C part_init cache_init)). exact (@conserved k I K cap os s NG R ON).
Qed.
(* a report never says less later: what was read stays *)
Lemma cached_stays cap s o s' i r c key x : mstep cap s o = Some s' -> nth_error (mSnaps s) i = Some (r, c) -> aget bs_eqb c key = Some x ->
  exists c', nth_error (mSnaps s') i = Some (r, c') /\ aget bs_eqb c' key = Some x.
Proof.
  intros H X Y. destruct o as [e| |j|i0|i0 key0]; cbn [mstep] in H.
  - destruct (Nat.ltb _ _); injection H as <-; exists c; split; assumption.
  - destruct (mBus s); [discriminate H|]. injection H as <-. exists c. split; assumption.
  - assert (E : mSnaps s' = mSnaps s).
    { destruct (nth_error (mJobs s) j) as [[e p]|]; [|discriminate H]. unfold jstep in H.
      destruct p; repeat match type of H with (match ?x with _ => _ end) = Some _ => destruct x end; try discriminate H; injection H as <-; reflexivity. }
    rewrite E. exists c. split; assumption.
  - destruct (aget bs_eqb (mItems s) i0) as [r0|]; [|discriminate H]. injection H as <-. cbn [mSnaps]. exists c. split; [|exact Y].
    rewrite nth_error_app1; [exact X|exact (@nth_lt _ _ _ _ X)].
  - destruct (nth_error (mSnaps s) i0) as [[r0 c0]|] eqn:S; [|discriminate H].
    destruct (aget bs_eqb c0 key0) eqn:CK; [injection H as <-; exists c; split; assumption|].
    destruct (aget bs_eqb (regOf s r0) key0) as [x0|]; injection H as <-; [|exists c; split; assumption].
    cbn [mSnaps]. destruct (Nat.eq_dec i i0) as [->|D].
    + rewrite S in X. injection X as -> ->. exists (aset bs_eqb c key0 x0). split; [apply set_same; exact (@nth_lt _ _ _ _ S)|].
      rewrite (aget_aset bs_eqb bs_eqb_spec). destruct (bs_eqb key key0) eqn:Q; [|exact Y]. apply bs_eqb_spec in Q. subst key. congruence.
    + exists c. split; [|exact Y]. rewrite set_other; [exact X|exact (@nth_lt _ _ _ _ S)|exact D].
Qed.
