(* EpProofs2.v: more proofs for EpProps.v: keepalive is never lost, sequential use, Destroy. *)
From Coq Require Import Lia ZifyBool.
From Verif Require Import Base Strconv GoStrings GoStrings2 UrlModel UrlSpec UrlProofs RateProofs EpModel EpSpec FailfastProofs EpProofs.
Ltac Zify.zify_post_hook ::= idtac.

Lemma nth_set {A} (l : list A) i j v a : nth_error l i = Some a -> nth_error (list_set l i v) j = if Nat.eqb j i then Some v else nth_error l j.
Proof.
  revert i j. induction l as [|x l IH]; intros i j H; [destruct i; discriminate H|]. destruct i as [|i]; cbn in H.
  - destruct j; reflexivity.
  - destruct j; [reflexivity|]. cbn. apply IH. exact H.
Qed.

(* ---------- nobody forgets an unavailable endpoint ---------- *)
Definition okInit (s : ep) : Prop := eDestroyed s = false -> (eInit s = IEnd -> eChans s = true) /\ (eInit s = ISet -> eChans s = true) /\ eTok s = 0.
Definition noneStranded (s : ep) : Prop := eDestroyed s = false -> eInit s = IEnd -> eAvail s = false -> pending s.
Lemma okInit_step thr s o s' : estep thr s o = Some s' -> okInit s -> okInit s'.
Proof.
  unfold okInit. intros E I. destruct o; cbn [estep] in E; cbv zeta in E; destr E; injection E as <-; cbn; try exact I; intro D; try congruence; specialize (I D); destruct I as (I1 & I2 & I3); try congruence; repeat split; auto; try (intro X; discriminate X).
Qed.
Lemma pend_hand s i v h : nth_error (eHand s) i = Some h -> (match v with EType _ | ESpawn => True | _ => False end) -> pending (setHand s i v).
Proof.
  intros H V. destruct v as [x|x| |]; try contradiction.
  - left. exists i, x. cbn. rewrite (nth_set _ _ _ _ _ H), Nat.eqb_refl. reflexivity.
  - right. left. exists i. cbn. rewrite (nth_set _ _ _ _ _ H), Nat.eqb_refl. reflexivity.
Qed.
Lemma pend_keep s j v k : nth_error (eKeep s) j = Some k -> (match v with KStart | KLoop | KUp => True | _ => False end) -> pending (setKeep s j v).
Proof.
  intros H V. destruct v; try contradiction; right; right; [left|right; left|right; right]; exists j; cbn; rewrite (nth_set _ _ _ _ _ H), Nat.eqb_refl; reflexivity.
Qed.
(* the same goroutines are pending when neither list shrinks *)
Lemma pending_same s s' : eHand s' = eHand s -> eKeep s' = eKeep s -> pending s -> pending s'.
Proof. intros H K. unfold pending. rewrite H, K. exact (fun x => x). Qed.
Lemma countb_pos {A} (p : A -> bool) l i a : nth_error l i = Some a -> p a = true -> 0 < countb p l.
Proof.
  revert i. induction l as [|x l IH]; intros i H P; [destruct i; discriminate H|]. rewrite countb_cons. destruct i; cbn in H.
  - injection H as ->. rewrite P. lia.
  - specialize (IH i H P). lia.
Qed.
Lemma countb_two {A} (p : A -> bool) l i j a b : i <> j -> nth_error l i = Some a -> nth_error l j = Some b -> p a = true -> p b = true -> 1 < countb p l.
Proof.
  revert i j. induction l as [|x l IH]; intros i j N H1 H2 P1 P2; [destruct i; discriminate H1|]. rewrite countb_cons. destruct i, j; cbn in H1, H2.
  - contradiction.
  - injection H1 as ->. rewrite P1. pose proof (countb_pos p l j b H2 P2). lia.
  - injection H2 as ->. rewrite P2. pose proof (countb_pos p l i a H1 P1). lia.
  - specialize (IH i j ltac:(lia) H1 H2 P1 P2). lia.
Qed.
Lemma countb_ex {A} (p : A -> bool) l : 0 < countb p l -> exists i a, nth_error l i = Some a /\ p a = true.
Proof.
  induction l as [|x l IH]; intro H; [cbn in H; lia|]. rewrite countb_cons in H. destruct (p x) eqn:P.
  - exists 0, x. split; [reflexivity|exact P].
  - destruct (IH ltac:(lia)) as (i & a & Hi). exists (S i), a. exact Hi.
Qed.
Definition kinv (s : ep) : Prop := okInit s /\ countb at_work (eKeep s) = (if eRunning s then 1 else 0) /\ noneStranded s.
Lemma kinv_step thr s o s' : clean s o -> estep thr s o = Some s' -> kinv s -> kinv s'.
Proof.
  intros CL E (I & C & P). split; [exact (okInit_step thr s o s' E I)|]. split; [exact (step_one thr s o s' E C)|].
  unfold noneStranded in *. intros D' IE' A'. destruct o; cbn [estep] in E; cbv zeta in E.
  - destr E; injection E as <-; cbn in D', IE', A'; specialize (P D' IE' A'); try exact P.
    unfold pending in *. cbn. assert (G : forall i h, nth_error (eHand s) i = Some h -> nth_error (eHand s ++ [EDown x]) i = Some h).
    { intros i h H. rewrite nth_error_app1; [exact H|]. apply nth_error_Some. congruence. }
    destruct P as [(i & y & H)|[(i & H)|P]]; [left; exists i, y; apply G; exact H|right; left; exists i; apply G; exact H|right; right; exact P].
  - injection E as <-. exact (P D' IE' A').
  - destr E; injection E as <-; cbn in D', IE', A'.
    + apply (pend_hand (setA s false) i (EType x) (EDown x)); [exact E0|exact Logic.I].
    + apply (pend_hand (setP s (isProfile x)) i ESpawn (EType x)); [exact E0|exact Logic.I].
    + right. right. left. exists (length (eKeep s)). cbn. rewrite nth_error_app2, Nat.sub_diag by lia. reflexivity.
  - (* KStart *)
    destr E; injection E as <-; cbn in D', IE', A'.
    + rewrite D' in E2. cbn in E2. rewrite E2 in C. destruct (countb_ex at_work (eKeep s) ltac:(lia)) as (k' & a & Hk & Wk). destruct (CL k') as [N1 N2].
      assert (X : nth_error (eKeep (setKeep s j KEnd)) k' = Some a).
      { cbn. rewrite (nth_set _ _ _ _ _ E0). destruct (Nat.eqb_spec k' j) as [->|]; [|exact Hk]. rewrite E0 in Hk. injection Hk as <-. discriminate Wk. }
      destruct a; try discriminate Wk; try congruence; right; right; right; [left|right]; exists k'; exact X.
    + apply (pend_keep (setR s true) j KLoop KStart); [exact E0|exact Logic.I].
  - destr E; injection E as <-. cbn in A'. discriminate A'.
  - destr E; injection E as <-; cbn in D', IE', A'. specialize (P D' IE' A').
    unfold pending in *. cbn. destruct P as [P|[P|[(k' & H)|[(k' & H)|(k' & H)]]]]; [left; exact P|right; left; exact P|right; right; left|right; right; right; left|right; right; right; right];
      exists k'; rewrite (nth_set _ _ _ _ _ E0); destruct (Nat.eqb_spec k' j) as [->|]; try exact H; congruence.
  - destr E; injection E as <-; cbn in D', IE', A'. specialize (P D' IE' A').
    unfold pending in *. cbn. destruct P as [P|[P|[(k' & H)|[(k' & H)|(k' & H)]]]]; [left; exact P|right; left; exact P|right; right; left|right; right; right; left|right; right; right; right];
      exists k'; rewrite (nth_set _ _ _ _ _ E0); destruct (Nat.eqb_spec k' j) as [->|]; try exact H; congruence.
  - destr E; injection E as <-; cbn in D', IE', A'; try exact (P D' IE' A').
    + destruct (I D') as (I1 & _). rewrite (I1 IE') in E3. discriminate E3.
    + apply (pend_keep s j KUp KLoop); [exact E0|exact Logic.I].
  - destr E; injection E as <-; cbn in D'. destruct (I D') as (_ & _ & T). congruence.
  - destr E; injection E as <-; cbn in IE'. discriminate IE'.
  - destr E; injection E as <-; cbn in A'. discriminate A'.
  - destr E; injection E as <-; cbn in D'. destruct (I D') as (_ & _ & T). congruence.
  - destr E; injection E as <-; cbn in D'; [congruence|discriminate D'].
Qed.
Lemma kinv0 : kinv ep0.
Proof. split; [|split]; [intro; repeat split; intro X; discriminate X|reflexivity|intros _ X; discriminate X]. Qed.
Lemma cleanRun_kinv thr s : cleanRun thr s -> kinv s.
Proof. induction 1 as [|s o s' _ IH CL E]; [exact kinv0|]. exact (kinv_step thr s o s' CL E IH). Qed.

(* ---------- a stranded endpoint stays down without new errors ---------- *)
Lemma idle_step thr s o s' : estep thr s o = Some s' -> isErr o = false -> idle s -> eInit s = IEnd -> eAvail s = false -> idle s' /\ eInit s' = IEnd /\ eAvail s' = false.
Proof.
  intros E Ne (H & K) I A. destruct o; cbn [estep] in E; cbv zeta in E; try discriminate Ne.
  - injection E as <-. repeat split; assumption.
  - destr E; injection E as <-; specialize (H _ _ E0); discriminate H.
  - destr E; injection E as <-; specialize (K _ _ E0); discriminate K.
  - destr E; injection E as <-; specialize (K _ _ E0); discriminate K.
  - destr E; injection E as <-; specialize (K _ _ E0); discriminate K.
  - destr E; injection E as <-; specialize (K _ _ E0); discriminate K.
  - destr E; injection E as <-; specialize (K _ _ E0); discriminate K.
  - destr E; injection E as <-; specialize (K _ _ E0); discriminate K.
  - destr E. congruence.
  - destr E. congruence.
  - destr E; congruence.
  - destr E; injection E as <-; repeat split; try assumption.
Qed.
Lemma idle_runs thr ops s s' : eruns thr s ops = Some s' -> forallb (fun o => negb (isErr o)) ops = true -> idle s -> eInit s = IEnd -> eAvail s = false -> eAvail s' = false.
Proof.
  revert s. induction ops as [|o l IH]; intros s E F Hi I A; cbn in E, F; [injection E as <-; exact A|].
  apply andb_true_iff in F. destruct F as [F1 F2]. destruct (estep thr s o) as [s1|] eqn:E1; [|discriminate E].
  destruct (idle_step thr s o s1 E1) as (a & b & c); try assumption; [destruct (isErr o); [discriminate F1|reflexivity]|]. exact (IH s1 E F2 a b c).
Qed.
Lemma profiled_step thr s o s' : estep thr s o = Some s' -> isErr o = false -> profiled s -> profiled s'.
Proof.
  intros E Ne (P & I & A & H & K). unfold profiled.
  assert (KS : forall j k v, nth_error (eKeep s) j = Some k -> v <> KUp -> forall j' k', nth_error (list_set (eKeep s) j v) j' = Some k' -> k' <> KUp).
  { intros j k v Hj V j' k' Hj'. rewrite (nth_set _ _ _ _ _ Hj) in Hj'. destruct (Nat.eqb j' j); [injection Hj' as <-; exact V|exact (K j' k' Hj')]. }
  destruct o; cbn [estep] in E; cbv zeta in E; try discriminate Ne.
  - injection E as <-. repeat split; assumption.
  - destr E; injection E as <-; specialize (H _ _ E0); discriminate H.
  - destr E; injection E as <-; repeat split; try assumption; cbn; apply (KS j _ _ E0); discriminate.
  - destr E. exfalso. exact (K _ _ E0 eq_refl).
  - destr E; injection E as <-; repeat split; try assumption; cbn; apply (KS j _ _ E0); discriminate.
  - destr E; injection E as <-; repeat split; try assumption; cbn; apply (KS j _ _ E0); discriminate.
  - destr E; try congruence. injection E as <-; repeat split; try assumption.
  - destr E; injection E as <-; repeat split; try assumption; cbn; apply (KS j _ _ E0); discriminate.
  - destr E. congruence.
  - destr E. congruence.
  - destr E; congruence.
  - destr E; injection E as <-; repeat split; try assumption.
Qed.
Lemma profiled_runs thr ops s s' : eruns thr s ops = Some s' -> forallb (fun o => negb (isErr o)) ops = true -> profiled s -> eAvail s' = false.
Proof.
  revert s. induction ops as [|o l IH]; intros s E F P; cbn in E, F; [injection E as <-; apply P|].
  apply andb_true_iff in F. destruct F as [F1 F2]. destruct (estep thr s o) as [s1|] eqn:E1; [|discriminate E].
  apply (IH s1 E F2). apply (profiled_step thr s o s1 E1); [destruct (isErr o); [discriminate F1|reflexivity]|exact P].
Qed.

(* ---------- Destroy ---------- *)
Definition deadInv (s : ep) : Prop :=
  eDestroyed s = true /\ eInit s = IEnd /\ eAvail s = false /\ (forall j k, nth_error (eKeep s) j = Some k -> k <> KUp).
Lemma dead_step thr s o s' : estep thr s o = Some s' -> noBeatAfterDestroy s o -> deadInv s -> deadInv s'.
Proof.
  intros E L (D & I & A & K). unfold deadInv.
  assert (KS : forall j k v, nth_error (eKeep s) j = Some k -> v <> KUp -> forall j' k', nth_error (list_set (eKeep s) j v) j' = Some k' -> k' <> KUp).
  { intros j k v Hj V j' k' Hj'. rewrite (nth_set _ _ _ _ _ Hj) in Hj'. destruct (Nat.eqb j' j); [injection Hj' as <-; exact V|exact (K j' k' Hj')]. }
  destruct o; cbn [estep] in E; cbv zeta in E; cbn [noBeatAfterDestroy] in L.
  - destr E; injection E as <-; repeat split; assumption.
  - injection E as <-. repeat split; assumption.
  - destr E; injection E as <-; repeat split; try assumption; try reflexivity. cbn. intros j k Hj.
    destruct (Nat.lt_ge_cases j (length (eKeep s))) as [B|B]; [rewrite nth_error_app1 in Hj by exact B; exact (K j k Hj)|].
    rewrite nth_error_app2 in Hj by exact B. destruct (j - length (eKeep s)) as [|[|]]; cbn in Hj; try discriminate Hj. injection Hj as <-. intro X; discriminate X.
  - destr E; injection E as <-; repeat split; try assumption; cbn; apply (KS j _ _ E0); discriminate.
  - destr E. exfalso. exact (K _ _ E0 eq_refl).
  - destr E; injection E as <-; repeat split; try assumption; cbn; apply (KS j _ _ E0); discriminate.
  - destr E; injection E as <-; repeat split; try assumption; cbn; apply (KS j _ _ E0); discriminate.
  - destr E; try congruence; injection E as <-; repeat split; try assumption; cbn; apply (KS j _ _ E0); discriminate.
  - destr E; injection E as <-; repeat split; try assumption; cbn; apply (KS j _ _ E0); discriminate.
  - destr E. congruence.
  - destr E. congruence.
  - destr E; congruence.
  - destr E; injection E as <-; repeat split; try assumption.
Qed.
Lemma dead_run thr s s' : dRun thr s s' -> deadInv s -> deadInv s'.
Proof. induction 1 as [|s1 s2 o s3 _ IH L E]; intro I; [exact I|]. exact (dead_step thr s2 o s3 E L (IH I)). Qed.
(* once destroyed after its initialisation, a waiting keepalive goroutine finds the token *)
Definition tokInv (s : ep) : Prop := (eDestroyed s = false -> eTok s = 0) /\
  (eDestroyed s = true -> (exists j, nth_error (eKeep s) j = Some KLoop) -> eTok s = 1) .
Lemma at_most_one s i j : countb at_work (eKeep s) = (if eRunning s then 1 else 0) -> forall a b, nth_error (eKeep s) i = Some a -> nth_error (eKeep s) j = Some b ->
  at_work a = true -> at_work b = true -> i = j.
Proof.
  intros C a b Hi Hj Wa Wb. destruct (Nat.eq_dec i j) as [|N]; [assumption|]. pose proof (countb_two at_work _ _ _ _ _ N Hi Hj Wa Wb). destruct (eRunning s); lia.
Qed.
Lemma tok_step thr s o s' : estep thr s o = Some s' -> o <> OInitToken -> countb at_work (eKeep s) = (if eRunning s then 1 else 0) -> tokInv s -> tokInv s'.
Proof.
  intros E NI C (T1 & T2). unfold tokInv.
  assert (KS : forall j k v, nth_error (eKeep s) j = Some k -> v <> KLoop -> (exists j', nth_error (list_set (eKeep s) j v) j' = Some KLoop) -> exists j', nth_error (eKeep s) j' = Some KLoop).
  { intros j k v Hj V (j' & Hj'). rewrite (nth_set _ _ _ _ _ Hj) in Hj'. destruct (Nat.eqb j' j); [congruence|]. exists j'. exact Hj'. }
  destruct o; cbn [estep] in E; cbv zeta in E; try (destr E; injection E as <-; cbn; split; assumption).
  - destr E; injection E as <-; cbn; split; try assumption. intros D (j & Hj). apply T2; [exact D|].
    destruct (Nat.lt_ge_cases j (length (eKeep s))) as [B|B]; [rewrite nth_error_app1 in Hj by exact B; exists j; exact Hj|].
    rewrite nth_error_app2 in Hj by exact B. destruct (j - length (eKeep s)) as [|[|]]; cbn in Hj; discriminate Hj.
  - destr E; injection E as <-; cbn; split; try assumption.
    + intros D H. apply T2; [exact D|]. apply (KS j KStart KEnd E0); [discriminate|exact H].
    + intros D _. rewrite D in E2. discriminate E2.
  - destr E; injection E as <-; cbn; split; try assumption. intros D H. apply T2; [exact D|]. apply (KS j KUp KReset E0); [discriminate|exact H].
  - destr E; injection E as <-; cbn; split; try assumption. intros D H. apply T2; [exact D|]. apply (KS j KReset KExit E0); [discriminate|exact H].
  - destr E; injection E as <-; cbn; split; try assumption. intros D H. apply T2; [exact D|]. apply (KS j KExit KEnd E0); [discriminate|exact H].
  - destr E; injection E as <-; cbn; split; try assumption; intros D H; apply T2; try exact D;
      first [exact H | exact (KS j KLoop KExit E0 ltac:(discriminate) H) | exact (KS j KLoop KUp E0 ltac:(discriminate) H)].
  - destr E; injection E as <-; cbn; split.
    + intro D. specialize (T1 D). congruence.
    + intros D (j' & Hj'). exfalso. rewrite (nth_set _ _ _ _ _ E0) in Hj'. destruct (Nat.eqb_spec j' j) as [|N]; [discriminate Hj'|].
      apply N. exact (at_most_one s j' j C _ _ Hj' E0 eq_refl eq_refl).
  - contradiction NI; reflexivity.
  - destr E; injection E as <-; cbn; split; try assumption; try (intro D; congruence); try reflexivity. intros _ H. exact (T2 eq_refl H).
Qed.

(* ---------- one after the other ---------- *)
Definition keeps (v : view) (l : list kpc) : Prop :=
  if negb (vUp v) && negb (vDead v) then exists j, nth_error l j = Some KLoop /\ forall k a, nth_error l k = Some a -> k <> j -> a = KEnd
  else forall k a, nth_error l k = Some a -> a = KEnd.
Record seqInv (s : ep) (v : view) : Prop := {
  si_hand : forall i h, nth_error (eHand s) i = Some h -> h = EEnd;
  si_keep : keeps v (eKeep s);
  si_avail : eAvail s = vUp v;
  si_run : eRunning s = negb (vUp v) && negb (vDead v);
  si_prof : eProfile s = vProfile v;
  si_dead : eDestroyed s = vDead v;
  si_deadup : vDead v = true -> vUp v = false;
  si_count : eCount s = N.of_nat (vErrs v);
  si_chans : eChans s = true;
  si_tok : vDead v = false -> eTok s = 0 }.
Lemma findLoop_some l j : nth_error l j = Some KLoop -> (forall k a, nth_error l k = Some a -> k <> j -> a = KEnd) -> findLoop l = Some j.
Proof.
  revert j. induction l as [|a l IH]; intros j H O; [destruct j; discriminate H|]. destruct j; cbn in H.
  - injection H as ->. reflexivity.
  - cbn. rewrite (O 0 a eq_refl) by lia. rewrite (IH j H); [reflexivity|]. intros k b Hk N. apply (O (S k) b Hk). lia.
Qed.
Lemma findLoop_none l : (forall k a, nth_error l k = Some a -> a = KEnd) -> findLoop l = None.
Proof. induction l as [|a l IH]; intro O; [reflexivity|]. cbn. rewrite (O 0 a eq_refl). rewrite IH; [reflexivity|]. intros k b H. exact (O (S k) b H). Qed.
Lemma nth_snoc_end {A} (l : list A) a : nth_error (l ++ [a]) (length l) = Some a.
Proof. rewrite nth_error_app2, Nat.sub_diag by lia. reflexivity. Qed.
Lemma set_snoc_end {A} (l : list A) a b : list_set (l ++ [a]) (length l) b = l ++ [b].
Proof. induction l as [|x l IH]; [reflexivity|]. cbn. rewrite IH. reflexivity. Qed.
Lemma nth_snoc_inv {A} (l : list A) a i x : nth_error (l ++ [a]) i = Some x -> (i < length l /\ nth_error l i = Some x) \/ (i = length l /\ x = a).
Proof.
  destruct (Nat.lt_ge_cases i (length l)) as [L|G]; intro H; [left; rewrite nth_error_app1 in H by exact L; split; assumption|].
  right. rewrite nth_error_app2 in H by exact G. destruct (i - length l) as [|[|]] eqn:E; cbn in H; try discriminate H. injection H as <-. split; [lia|reflexivity].
Qed.
Lemma snoc_all {A} (P : A -> Prop) (l : list A) a : (forall i h, nth_error l i = Some h -> P h) -> P a -> forall i h, nth_error (l ++ [a]) i = Some h -> P h.
Proof. intros H Pa i h Hi. destruct (nth_snoc_inv _ _ _ _ Hi) as [[_ X]|[_ ->]]; [exact (H _ _ X)|exact Pa]. Qed.
Lemma keeps_snoc_end v l : keeps v l -> keeps v (l ++ [KEnd]).
Proof.
  unfold keeps. destruct (negb (vUp v) && negb (vDead v)).
  - intros (j & Hj & O). exists j. split; [rewrite nth_error_app1; [exact Hj|apply nth_error_Some; congruence]|].
    intros k a Hk N. destruct (nth_snoc_inv _ _ _ _ Hk) as [[_ X]|[_ ->]]; [exact (O _ _ X N)|reflexivity].
  - intro O. apply snoc_all; [exact O|reflexivity].
Qed.
Definition evErrs (es : list ev) : nat := countb (fun e => match e with EvErr _ => true | _ => false end) es.
Lemma seq_err thr s v x : (0 < thr < 4294967296)%Z -> (Z.of_nat (S (vErrs v)) < 4294967296)%Z -> seqInv s v ->
  exists s', eruns thr s (evOps thr s (EvErr x)) = Some s' /\ seqInv s' (vstep thr v (EvErr x)).
Proof.
  intros T B [h k a r p d du c ch tk]. cbn [evOps vstep]. cbv zeta. rewrite c, thr32_small by exact T. rewrite w32_small by lia.
  destruct (Z.ltb_spec 0 thr) as [T0|]; [|lia]. cbn [andb].
  destruct (N.leb_spec (Z.to_N thr) (N.of_nat (vErrs v) + 1)) as [L|L]; destruct (Z.leb_spec thr (Z.of_nat (S (vErrs v)))) as [L'|L']; try lia.
  - unfold eruns. cbn [estep]. destruct (Z.ltb_spec 0 thr) as [_|]; [|lia]. cbv zeta. rewrite c, thr32_small by exact T. rewrite w32_small by lia.
    destruct (N.leb_spec (Z.to_N thr) (N.of_nat (vErrs v) + 1)) as [_|]; [|lia].
    cbn [estep eHand eKeep setH setC setA setP setK setR setHand setKeep eProfile eRunning eDestroyed eTok eChans eInit eAvail eCount].
    repeat (rewrite nth_snoc_end; cbn [estep eHand eKeep setH setC setA setP setK setR setHand setKeep eProfile eRunning eDestroyed eTok eChans eInit eAvail eCount]; rewrite ?set_snoc_end).
    destruct (eDestroyed s || eRunning s) eqn:DR; rewrite ?set_snoc_end; eexists; (split; [reflexivity|]).
    + constructor; cbn; rewrite ?set_snoc_end; try assumption; try reflexivity; try lia.
      * apply snoc_all; [exact h|reflexivity].
      * apply keeps_snoc_end. unfold keeps in *. cbn. rewrite d, r in DR. destruct (vDead v), (vUp v); cbn in *; try assumption; discriminate DR.
      * rewrite r. rewrite d, r in DR. destruct (vDead v), (vUp v); cbn in *; try reflexivity; discriminate DR.
    + apply orb_false_iff in DR. destruct DR as [D1 R1]. constructor; cbn; rewrite ?set_snoc_end; try assumption; try reflexivity; try lia.
      * apply snoc_all; [exact h|reflexivity].
      * unfold keeps in *. cbn. rewrite D1 in d. rewrite R1 in r. rewrite <- d in *. cbn in *. exists (length (eKeep s)). split; [apply nth_snoc_end|].
        intros i q Hi N. destruct (nth_snoc_inv _ _ _ _ Hi) as [[_ X]|[? _]]; [|contradiction]. rewrite <- r in k. exact (k _ _ X).
      * rewrite D1 in d. rewrite <- d. reflexivity.
  - unfold eruns. cbn [estep]. destruct (Z.ltb_spec 0 thr) as [_|]; [|lia]. cbv zeta. rewrite c, thr32_small by exact T. rewrite w32_small by lia.
    destruct (N.leb_spec (Z.to_N thr) (N.of_nat (vErrs v) + 1)) as [|_]; [lia|]. eexists; split; [reflexivity|].
    constructor; cbn; try assumption; lia.
Qed.
Lemma set_end_all l j b : nth_error l j = Some b -> (forall k a, nth_error l k = Some a -> k <> j -> a = KEnd) -> forall k a, nth_error (list_set l j KEnd) k = Some a -> a = KEnd.
Proof. intros H O k a Hk. rewrite (nth_set _ _ _ _ _ H) in Hk. destruct (Nat.eqb_spec k j) as [->|N]; [congruence|exact (O _ _ Hk N)]. Qed.
Lemma set_set {A} (l : list A) j a b : list_set (list_set l j a) j b = list_set l j b.
Proof. revert j. induction l as [|x l IH]; intro j; [destruct j; reflexivity|]. destruct j; [reflexivity|]. cbn. rewrite IH. reflexivity. Qed.
Ltac fields := cbn [eruns estep eHand eKeep setH setC setA setP setK setR setD setT setHand setKeep eProfile eRunning eDestroyed eTok eChans eInit eAvail eCount].
Lemma seq_beat thr s v ok : seqInv s v -> exists s', eruns thr s (evOps thr s (EvBeat ok)) = Some s' /\ seqInv s' (vstep thr v (EvBeat ok)).
Proof.
  intro I. pose proof I as J. destruct I as [h k a r p d du c ch tk]. cbn [evOps vstep]. unfold keeps in k. rewrite p.
  destruct (vDead v) eqn:VD; cbn [negb andb] in *.
  { rewrite andb_false_r in k. rewrite (findLoop_none _ k). exists s. split; [reflexivity|exact J]. }
  destruct (vUp v) eqn:VU; cbn [negb andb] in *.
  { rewrite (findLoop_none _ k). exists s. split; [reflexivity|exact J]. }
  destruct k as (j & Hj & O). rewrite (findLoop_some _ j Hj O).
  destruct ok; cbn [andb].
  2: { fields. rewrite Hj, p, ch. exists s. destruct (vProfile v); split; try reflexivity; exact J. }
  destruct (vProfile v) eqn:VP; cbn [negb].
  { fields. rewrite Hj, p. exists s. split; [reflexivity|exact J]. }
  fields. rewrite Hj, p, ch. cbn [negb].
  do 3 (fields; rewrite ?set_set; rewrite (nth_set _ _ _ _ _ Hj), Nat.eqb_refl; fields; rewrite ?set_set).
  eexists; (split; [reflexivity|]). constructor; cbn; rewrite ?VD; try assumption; try reflexivity.
  - unfold keeps. cbn. rewrite ?set_set. apply (set_end_all _ _ _ Hj O).
  - intro X; discriminate X.
Qed.
Lemma seq_destroy thr s v : seqInv s v -> exists s', eruns thr s (evOps thr s EvDestroy) = Some s' /\ seqInv s' (vstep thr v EvDestroy).
Proof.
  intro I. pose proof I as J. destruct I as [h k a r p d du c ch tk]. cbn [evOps vstep]. unfold keeps in k.
  destruct (vDead v) eqn:VD; cbn [negb andb] in *.
  { rewrite andb_false_r in k. rewrite (findLoop_none _ k). fields. rewrite d. exists s. split; [reflexivity|]. specialize (du eq_refl).
    constructor; cbn; rewrite ?du in *; cbn in *; try assumption; try reflexivity; try (intro X; discriminate X). }
  rewrite andb_true_r in *. destruct (vUp v) eqn:VU; cbn [negb andb] in *.
  { rewrite (findLoop_none _ k). fields. rewrite d, (tk eq_refl). eexists. split; [reflexivity|].
    constructor; cbn; try assumption; try reflexivity; try (intro X; discriminate X). }
  destruct k as (j & Hj & O). rewrite (findLoop_some _ j Hj O).
  fields. rewrite d, (tk eq_refl). fields. rewrite Hj. fields. rewrite (nth_set _ _ _ _ _ Hj), Nat.eqb_refl. fields.
  eexists; (split; [reflexivity|]). constructor; cbn; try assumption; try reflexivity; try (intro X; discriminate X).
  unfold keeps. cbn. rewrite ?set_set. apply (set_end_all _ _ _ Hj O).
Qed.
Lemma seq_run thr es s v : (0 < thr < 4294967296)%Z -> (Z.of_nat (vErrs v + length es) < 4294967296)%Z -> seqInv s v ->
  exists s', evRun thr s es = Some s' /\ seqInv s' (fold_left (vstep thr) es v).
Proof.
  intro T. revert s v. induction es as [|e es IH]; intros s v B I; [exists s; split; [reflexivity|exact I]|]. cbn [length] in B. cbn [evRun fold_left].
  assert (X : exists s', eruns thr s (evOps thr s e) = Some s' /\ seqInv s' (vstep thr v e)).
  { destruct e; [apply seq_err; try assumption; lia| |apply seq_beat; assumption|apply seq_destroy; assumption].
    exists (setC s 0%N). split; [reflexivity|]. destruct I. constructor; cbn; try assumption; reflexivity. }
  destruct X as (s1 & E1 & I1). rewrite E1. apply IH; [|exact I1].
  assert (vErrs (vstep thr v e) <= S (vErrs v)).
  { destruct e; cbn; [destruct (thr <=? _)%Z; cbn; lia|lia|destruct (negb (vDead v) && negb (vUp v) && ok && negb (vProfile v)); cbn; lia|lia]. }
  lia.
Qed.
Lemma seqInv0 : seqInv epUp view0.
Proof. constructor; cbn; try reflexivity; try (intros ? ? H; destruct i; discriminate H); try (intro X; discriminate X). unfold keeps. cbn. intros k a H. destruct k; discriminate H. Qed.
