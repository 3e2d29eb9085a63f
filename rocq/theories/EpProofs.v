(* EpProofs.v: proofs for EpProps.v. *)
From Coq Require Import Lia ZifyBool.
From Verif Require Import Base Strconv GoStrings GoStrings2 UrlModel UrlSpec UrlProofs RateProofs EpModel EpSpec FailfastProofs.
Ltac Zify.zify_post_hook ::= idtac.

(* ---------- timeouts ---------- *)
Lemma intOrZero_int_or u k : intOrZero u k = int_or u k 0.
Proof.
  unfold intOrZero, int_or, int_param, param, getInt, parseParam, pget. cbn [cInt fresh aget cUrl fst].
  destruct (uParams u) as [m|]; [|reflexivity]. destruct (aget bs_eqb m k); reflexivity.
Qed.
Lemma configured_pos u m d : (0 < configured u m d)%Z.
Proof.
  unfold configured, service_timeout, if_positive.
  destruct (0 <? int_or u (s2b "requestTimeout") 1000)%Z eqn:A; destruct (Z.ltb_spec 0 (method_int_or u m d (s2b "requestTimeout") (int_or u (s2b "requestTimeout") 1000)))%Z as [B|B];
  destruct (Z.ltb_spec 0 (method_int_or u m d (s2b "requestTimeout") 1000))%Z; try lia.
Qed.
Lemma timeout_unfold u m d rt :
  timeout_of u m d rt =
  wrapI64 (match rt with
           | [] => configured u m d
           | _ => if ((if (int_or u (s2b "minRequestTimeout") 0 =? 0)%Z then Z.quot (configured u m d) 2 else int_or u (s2b "minRequestTimeout") 0) <=? number rt)%Z
                     && (number rt <=? (if (int_or u (s2b "maxRequestTimeout") 0 =? 0)%Z then wrapI64 (configured u m d * 2) else int_or u (s2b "maxRequestTimeout") 0))%Z
                  then number rt else configured u m d
           end * 1000000).
Proof.
  unfold timeout_of, getRequestTimeout, initTimeouts. cbn [tReq tMin tMax].
  rewrite methodPosInt_fresh, posInt_fresh, !intOrZero_int_or. reflexivity.
Qed.
Lemma wrapI64_id z : (-9223372036854775808 <= z < 9223372036854775808)%Z -> wrapI64 z = z.
Proof. intro H. unfold wrapI64. rewrite Z.mod_small by lia. lia. Qed.
Lemma low_if u t : low u t = if (int_or u (s2b "minRequestTimeout") 0 =? 0)%Z then (t / 2)%Z else int_or u (s2b "minRequestTimeout") 0.
Proof. unfold low. destruct (int_or u (s2b "minRequestTimeout") 0); reflexivity. Qed.
Lemma high_if u t : high u t = if (int_or u (s2b "maxRequestTimeout") 0 =? 0)%Z then (2 * t)%Z else int_or u (s2b "maxRequestTimeout") 0.
Proof. unfold high. destruct (int_or u (s2b "maxRequestTimeout") 0); reflexivity. Qed.
Lemma timeout_default u m d : (configured u m d <= 9223372036854)%Z -> timeout_of u m d [] = (configured u m d * ms)%Z.
Proof. intro H. rewrite timeout_unfold. pose proof (configured_pos u m d). unfold ms. apply wrapI64_id. lia. Qed.
Lemma timeout_exact u m d rt : rt <> [] -> (configured u m d <= 9223372036854)%Z -> small (low u (configured u m d)) -> small (high u (configured u m d)) ->
  timeout_of u m d rt =
  (if (low u (configured u m d) <=? number rt)%Z && (number rt <=? high u (configured u m d))%Z then number rt * ms else configured u m d * ms)%Z.
Proof.
  intros Hr Hc Hl Hh. pose proof (configured_pos u m d) as P. rewrite timeout_unfold. rewrite low_if in *. rewrite high_if in *.
  rewrite (Z.quot_div_nonneg (configured u m d) 2) by lia.
  replace (wrapI64 (configured u m d * 2)) with (2 * configured u m d)%Z by (rewrite wrapI64_id; lia).
  destruct rt as [|c r]; [contradiction|]. cbv zeta in *. unfold small, ms in *.
  destruct ((if (int_or u (s2b "minRequestTimeout") 0 =? 0)%Z then (configured u m d / 2)%Z else int_or u (s2b "minRequestTimeout") 0) <=? number (c :: r))%Z eqn:A;
  destruct (number (c :: r) <=? (if (int_or u (s2b "maxRequestTimeout") 0 =? 0)%Z then (2 * configured u m d)%Z else int_or u (s2b "maxRequestTimeout") 0))%Z eqn:B; cbn [andb]; apply wrapI64_id; lia.
Qed.
Lemma timeout_positive u m d rt : (configured u m d <= 9223372036854)%Z -> (0 < low u (configured u m d) <= 9223372036854)%Z -> small (high u (configured u m d)) ->
  (0 < timeout_of u m d rt)%Z.
Proof.
  intros Hc Hl Hh. pose proof (configured_pos u m d) as P. destruct rt as [|c r]; [rewrite timeout_default by exact Hc; unfold ms; lia|].
  rewrite timeout_exact; [|discriminate|exact Hc|unfold small; lia|exact Hh]. unfold ms.
  destruct (Z.leb_spec (low u (configured u m d)) (number (c :: r)))%Z; cbn [andb]; [destruct (number (c :: r) <=? high u (configured u m d))%Z|]; lia.
Qed.

(* ---------- group ---------- *)
Lemma attach_set m k v k' : attach (aset bs_eqb m k v) k' = if bs_eqb k' k then v else attach m k'.
Proof. unfold attach. rewrite (aget_aset bs_eqb bs_eqb_spec). destruct (bs_eqb k' k); reflexivity. Qed.

(* ---------- one call ---------- *)
Lemma epCall_note proxy rid o : match snd (epCall proxy rid o) with NErr _ => countsAsError o = true | NReset => countsAsError o = false end.
Proof. destruct o as [| | |id [x|] df]; cbn; try reflexivity. destruct (xBiz x); reflexivity. Qed.

(* ---------- availability: counting ---------- *)
Lemma errs_snoc l o : errs (l ++ [o]) = errs_after (errs l) o.
Proof. unfold errs. rewrite fold_left_app. reflexivity. Qed.
Lemma eruns_app thr s l1 l2 : eruns thr s (l1 ++ l2) = match eruns thr s l1 with Some s1 => eruns thr s1 l2 | None => None end.
Proof. revert s. induction l1 as [|o l1 IH]; intro s; cbn; [reflexivity|]. destruct (estep thr s o); [apply IH|reflexivity]. Qed.
Lemma eruns_snoc thr s l o s2 : eruns thr s (l ++ [o]) = Some s2 <-> exists s1, eruns thr s l = Some s1 /\ estep thr s1 o = Some s2.
Proof.
  rewrite eruns_app. destruct (eruns thr s l) as [s1|]; cbn; [destruct (estep thr s1 o) as [s'|] eqn:E|]; split; intro H.
  - injection H as ->. exists s1. split; [reflexivity|exact E].
  - destruct H as (s1' & E1 & E2). injection E1 as <-. rewrite E in E2. exact E2.
  - discriminate H.
  - destruct H as (s1' & E1 & E2). injection E1 as <-. rewrite E in E2. discriminate E2.
  - discriminate H.
  - destruct H as (s1' & E1 & _). discriminate E1.
Qed.
Ltac destr H :=
  repeat match type of H with
  | (match ?x with _ => _ end) = _ => let E := fresh "E" in destruct x eqn:E; try discriminate H
  | (if ?x then _ else _) = _ => let E := fresh "E" in destruct x eqn:E; try discriminate H
  end.
Lemma w32_add n : w32 (w32 n + 1) = w32 (n + 1).
Proof. unfold w32. rewrite N.add_mod_idemp_l by (intro X; discriminate X). reflexivity. Qed.
Lemma w32_le n : (w32 n <= n)%N.
Proof. unfold w32. apply N.mod_le. intro X; discriminate X. Qed.
Lemma w32_small n : (n < 4294967296)%N -> w32 n = n.
Proof. apply N.mod_small. Qed.
Lemma thr32_small thr : (0 < thr < 4294967296)%Z -> thr32 thr = Z.to_N thr.
Proof. intro H. unfold thr32. rewrite Z.mod_small by lia. reflexivity. Qed.
Lemma step_count thr s o s' n : (0 < thr)%Z -> estep thr s o = Some s' -> eCount s = w32 (N.of_nat n) -> eCount s' = w32 (N.of_nat (errs_after n o)).
Proof.
  intros T E C. assert (X : w32 (eCount s + 1) = w32 (N.of_nat (S n))).
  { rewrite C, w32_add. f_equal. lia. }
  destruct o; cbn [estep] in E; unfold errs_after; cbn [resets isErr].
  1: { destruct (Z.ltb_spec 0 thr) as [_|B]; [|lia]. cbv zeta in E. destr E; injection E as <-; cbn; exact X. }
  all: destr E; injection E as <-; cbn; try exact C; try reflexivity; exact X.
Qed.
Lemma run_count thr ops s : (0 < thr)%Z -> eruns thr ep0 ops = Some s -> eCount s = w32 (N.of_nat (errs ops)).
Proof.
  intro T. revert s. induction ops as [|o l IH] using rev_ind; intros s E.
  - injection E as <-. reflexivity.
  - apply eruns_snoc in E. destruct E as (s1 & E1 & E2). rewrite errs_snoc. exact (step_count thr s1 o s _ T E2 (IH s1 E1)).
Qed.

(* ---------- availability: who takes it down ---------- *)
Lemma step_hand_len thr s o s' : estep thr s o = Some s' ->
  (exists x, o = OErr x /\ (0 < thr)%Z /\ (thr32 thr <= w32 (eCount s + 1))%N /\ eHand s' = eHand s ++ [EDown x]) \/
  (length (eHand s') = length (eHand s) /\ (forall x, o = OErr x -> (0 < thr)%Z -> (w32 (eCount s + 1) < thr32 thr)%N)).
Proof.
  intro E. destruct o; cbn [estep] in E.
  1: { destruct (Z.ltb_spec 0 thr) as [T|T]; cbv zeta in E.
       - destruct (N.leb_spec (thr32 thr) (w32 (eCount s + 1))) as [L|L]; injection E as <-.
         + left. exists x. repeat split; assumption.
         + right. split; [reflexivity|]. intros; exact L.
       - right. injection E as <-. split; [reflexivity|]. intros; lia. }
  all: right; split; [destr E; injection E as <-; cbn; rewrite ?list_set_length; reflexivity|intros ? X; discriminate X].
Qed.
Lemma firstn_snoc_le {A} (l : list A) a n : n <= length l -> firstn n (l ++ [a]) = firstn n l.
Proof. intro H. rewrite firstn_app. replace (n - length l) with 0 by lia. cbn. apply app_nil_r. Qed.
Lemma trigger_snoc thr l o p : p < length l -> trigger thr (l ++ [o]) p = trigger thr l p.
Proof. intro H. unfold trigger. rewrite nth_error_app1 by exact H. rewrite firstn_snoc_le by lia. reflexivity. Qed.
Lemma countb_ext_in {A} (p q : A -> bool) l : (forall x, In x l -> p x = q x) -> countb p l = countb q l.
Proof. intro H. unfold countb. f_equal. induction l as [|a l IH]; [reflexivity|]. cbn. rewrite (H a (or_introl eq_refl)), IH; [reflexivity|]. intros x Hx. apply H. right. exact Hx. Qed.
Lemma count_triggers_snoc thr l o n : n <= length l -> countb (trigger thr (l ++ [o])) (seq 0 n) = countb (trigger thr l) (seq 0 n).
Proof. intro H. apply countb_ext_in. intros x Hx. apply in_seq in Hx. apply trigger_snoc. lia. Qed.
Lemma trigger_last thr l o : trigger thr (l ++ [o]) (length l) = match o with OErr _ => (thr <=? Z.of_nat (errs (l ++ [o])))%Z | _ => false end.
Proof.
  unfold trigger. rewrite nth_error_app2, Nat.sub_diag by lia. cbn [nth_error]. rewrite firstn_all2 by (rewrite app_length; cbn; lia). reflexivity.
Qed.
(* the i-th goroutine dealing with a reached threshold comes from an action that reached it *)
Lemma run_hand thr ops s i : (0 < thr < 4294967296)%Z -> eruns thr ep0 ops = Some s -> i < length (eHand s) ->
  exists p, p < length ops /\ trigger thr ops p = true.
Proof.
  intros T. revert s i. induction ops as [|o l IH] using rev_ind; intros s i E Hi.
  - injection E as <-. cbn in Hi. lia.
  - apply eruns_snoc in E. destruct E as (s1 & E1 & E2). destruct (step_hand_len thr s1 o s E2) as [(x & -> & T1 & L & H)|[H _]].
    + exists (length l). rewrite app_length. split; [cbn; lia|]. rewrite trigger_last, errs_snoc. unfold errs_after. cbn [resets isErr].
      rewrite (run_count thr l s1) in L by (try lia; exact E1). rewrite thr32_small in L by exact T. rewrite w32_add in L. pose proof (w32_le (N.of_nat (errs l) + 1)). apply Z.leb_le. lia.
    + rewrite H in Hi. destruct (IH s1 i E1 Hi) as (p & Hp & Tp). exists p. rewrite app_length. split; [lia|]. rewrite trigger_snoc by exact Hp. exact Tp.
Qed.
(* with fewer than 2^32 errors in a row the correspondence is exact: one such goroutine for every trigger *)
Lemma run_hand_exact thr ops s : (0 < thr < 4294967296)%Z -> eruns thr ep0 ops = Some s -> (Z.of_nat (length ops) < 4294967296)%Z ->
  length (eHand s) = countb (trigger thr ops) (seq 0 (length ops)).
Proof.
  intros T. revert s. induction ops as [|o l IH] using rev_ind; intros s E B.
  - injection E as <-. reflexivity.
  - rewrite app_length in *. cbn [length] in *. apply eruns_snoc in E. destruct E as (s1 & E1 & E2). rewrite Nat.add_1_r, seq_S, countb_app. cbn [plus].
    rewrite count_triggers_snoc by lia. rewrite <- (IH s1 E1) by lia. rewrite countb_cons, trigger_last.
    assert (EL : errs l <= length l).
    { clear. induction l as [|o l IH] using rev_ind; [reflexivity|]. rewrite errs_snoc, app_length. unfold errs_after. cbn. destruct (resets o), (isErr o); lia. }
    pose proof (run_count thr l s1 ltac:(lia) E1) as C.
    destruct (step_hand_len thr s1 o s E2) as [(x & -> & T1 & L & H)|[H N]].
    + rewrite H, app_length, errs_snoc. unfold errs_after. cbn [resets isErr length countb filter].
      rewrite C, thr32_small, w32_add in L by lia. pose proof (w32_le (N.of_nat (errs l) + 1)). destruct (Z.leb_spec thr (Z.of_nat (S (errs l)))); cbn; lia.
    + rewrite H. destruct o; cbn; try lia. specialize (N x eq_refl ltac:(lia)). rewrite C, thr32_small, w32_add, w32_small in N by lia.
      rewrite errs_snoc. unfold errs_after. cbn [resets isErr]. destruct (Z.leb_spec thr (Z.of_nat (S (errs l)))); cbn; lia.
Qed.
Lemma step_down thr s o s' : estep thr s o = Some s' -> eAvail s = true -> eAvail s' = false ->
  o = ODestroy \/ exists i x, o = OHand i /\ nth_error (eHand s) i = Some (EDown x).
Proof.
  intros E A A'. destruct o; cbn [estep] in E; try (exfalso; cbv zeta in E; destr E; injection E as <-; cbn in A'; rewrite ?A in A'; discriminate A').
  - right. destr E; injection E as <-; cbn in A'; try (rewrite A in A'; discriminate A'). exists i, x. split; [reflexivity|exact E0].
  - left. reflexivity.
Qed.
(* which trigger the i-th goroutine comes from *)
Lemma run_hand_which thr ops s i : (0 < thr < 4294967296)%Z -> (Z.of_nat (length ops) < 4294967296)%Z -> eruns thr ep0 ops = Some s -> i < length (eHand s) ->
  exists p, p < length ops /\ trigger thr ops p = true /\ countb (trigger thr ops) (seq 0 p) = i.
Proof.
  intros T B E Hi. rewrite (run_hand_exact thr ops s T E B) in Hi. clear -Hi. revert Hi. generalize (trigger thr ops) as q. intro q.
  generalize (length ops) as n. induction n as [|n IH]; intro Hi; [cbn in Hi; lia|].
  rewrite seq_S, countb_app in Hi. cbn [plus] in Hi. destruct (Nat.lt_ge_cases i (countb q (seq 0 n))) as [L|G].
  - destruct (IH L) as (p & Hp & H). exists p. split; [lia|exact H].
  - rewrite countb_cons in Hi. destruct (q n) eqn:Q; cbn in Hi; [|lia]. exists n. split; [lia|]. split; [exact Q|lia].
Qed.

(* ---------- keepalive: at most one at work ---------- *)
Lemma countb_set {A} (p : A -> bool) l i a b : nth_error l i = Some a -> countb p (list_set l i b) + (if p a then 1 else 0) = countb p l + (if p b then 1 else 0).
Proof.
  revert i. induction l as [|x l IH]; intros i H; [destruct i; discriminate H|]. destruct i as [|i]; cbn in H.
  - injection H as ->. cbn [list_set]. rewrite !countb_cons. lia.
  - cbn [list_set]. rewrite !countb_cons. specialize (IH i H). lia.
Qed.
Lemma step_one thr s o s' : estep thr s o = Some s' -> countb at_work (eKeep s) = (if eRunning s then 1 else 0) ->
  countb at_work (eKeep s') = (if eRunning s' then 1 else 0).
Proof.
  intros E C. destruct o; cbn [estep] in E; cbv zeta in E; destr E; injection E as <-; cbn [eKeep eRunning setKeep setHand setA setC setP setR setD setT setI setH setK]; try exact C;
  try (match goal with H : nth_error (eKeep s) ?j = Some ?a |- context [list_set (eKeep s) ?j ?b] => pose proof (countb_set at_work (eKeep s) j a b H) as Q; cbn [at_work] in Q end).
  all: try (rewrite countb_app; cbn; lia).
  all: try (destruct (eRunning s) eqn:R; cbn in *; try lia).
  all: try (rewrite orb_true_r in *; discriminate).
Qed.
Lemma run_one thr ops s : eruns thr ep0 ops = Some s -> countb at_work (eKeep s) = (if eRunning s then 1 else 0).
Proof.
  revert s. induction ops as [|o l IH] using rev_ind; intros s E.
  - injection E as <-. reflexivity.
  - apply eruns_snoc in E. destruct E as (s1 & E1 & E2). exact (step_one thr s1 o s E2 (IH s1 E1)).
Qed.

(* ---------- Destroy never blocks ---------- *)
Lemma run_tok thr ops s : eruns thr ep0 ops = Some s -> eDestroyed s = false -> eTok s = 0.
Proof.
  revert s. induction ops as [|o l IH] using rev_ind; intros s E.
  - injection E as <-. reflexivity.
  - apply eruns_snoc in E. destruct E as (s1 & E1 & E2). specialize (IH s1 E1). destruct o; cbn [estep] in E2; cbv zeta in E2; destr E2; injection E2 as <-; cbn; try exact IH; intro D.
    all: try discriminate D; try congruence; specialize (IH D); congruence.
Qed.

Lemma not_before_connected thr ops : forall s, eruns thr ep0 ops = Some s -> ~ In OConn ops -> eAvail s = false /\ eChans s = false.
Proof.
  assert (G : forall s, eruns thr ep0 ops = Some s -> ~ In OConn ops ->
    eAvail s = false /\ eChans s = false /\ eInit s <> ISet /\ forall j, nth_error (eKeep s) j <> Some KUp); [|intros s E N; destruct (G s E N) as (A & C & _); auto].
  induction ops as [|o l IH] using rev_ind; intros s E N; [injection E as <-; repeat split; try discriminate; intros [|j]; discriminate|].
  apply eruns_snoc in E. destruct E as (s1 & E1 & E2). assert (N1 : ~ In OConn l) by (intro X; apply N; apply in_or_app; left; exact X).
  destruct (IH s1 E1 N1) as (A & C & I1 & K).
  assert (Ks : forall j v, v <> KUp -> forall i, nth_error (list_set (eKeep s1) j v) i <> Some KUp).
  { intros j v Hv i. destruct (Nat.lt_ge_cases j (length (eKeep s1))) as [L|L].
    - rewrite list_set_nth_error by exact L. destruct (Nat.eqb i j); [congruence|apply K].
    - intro X. assert (Y : list_set (eKeep s1) j v = eKeep s1).
      { clear - L. revert j L. induction (eKeep s1) as [|x r IH]; intros [|j] L; cbn [list_set length] in *; try reflexivity; try lia. rewrite IH by lia. reflexivity. }
      rewrite Y in X. exact (K i X). }
  destruct o; cbn [estep] in E2.
  - destruct (0 <? thr)%Z; [|injection E2 as <-; auto]. destruct (_ <=? _)%N; injection E2 as <-; auto.
  - injection E2 as <-; auto.
  - destruct (nth_error (eHand s1) i) as [[x|x| |]|]; try discriminate E2; injection E2 as <-; auto.
    split; [exact A|]. split; [exact C|]. split; [exact I1|]. intros j. change (nth_error (eKeep s1 ++ [KStart]) j <> Some KUp).
    destruct (Nat.lt_ge_cases j (length (eKeep s1))) as [L|L]; [rewrite nth_error_app1 by exact L; apply K|]. rewrite nth_error_app2 by exact L. destruct (j - length (eKeep s1)) as [|[|]]; discriminate.
  - destruct (nth_error (eKeep s1) j) as [[]|]; try discriminate E2. destruct (_ || _); injection E2 as <-; (split; [exact A|]; split; [exact C|]; split; [exact I1|]; apply Ks; discriminate).
  - destruct (nth_error (eKeep s1) j) as [[]|] eqn:J; try discriminate E2. destruct (K j J).
  - destruct (nth_error (eKeep s1) j) as [[]|]; try discriminate E2. injection E2 as <-; (split; [exact A|]; split; [exact C|]; split; [exact I1|]; apply Ks; discriminate).
  - destruct (nth_error (eKeep s1) j) as [[]|]; try discriminate E2. injection E2 as <-; (split; [exact A|]; split; [exact C|]; split; [exact I1|]; apply Ks; discriminate).
  - destruct (nth_error (eKeep s1) j) as [[]|]; try discriminate E2. rewrite C in E2. cbn [negb] in E2. destruct (eProfile s1); injection E2 as <-; auto.
    (split; [exact A|]; split; [exact C|]; split; [exact I1|]; apply Ks; discriminate).
  - destruct (nth_error (eKeep s1) j) as [[]|]; try discriminate E2. destruct (eTok s1); [discriminate E2|]. injection E2 as <-; (split; [exact A|]; split; [exact C|]; split; [exact I1|]; apply Ks; discriminate).
  - exfalso. apply N. apply in_or_app. right. left. reflexivity.
  - destruct (eInit s1); try discriminate E2. destruct (I1 eq_refl).
  - destruct (eInit s1); try discriminate E2. destruct (eTok s1); [discriminate E2|]. injection E2 as <-. split; [exact A|]. split; [exact C|]. split; [discriminate|exact K].
  - destruct (eDestroyed s1); [injection E2 as <-; auto|]. destruct (eTok s1); [|discriminate E2]. injection E2 as <-. auto.
Qed.
