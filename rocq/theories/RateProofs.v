(* RateProofs.v: proofs of C47. *)
From Coq Require Import Permutation Lia QArith Qround.
From Verif Require Import Base Lists HaProofs Strconv GoStrings GoStrings2 UrlModel UrlSpec UrlProofs FailfastProofs RateModel RateSpec.
Ltac Zify.zify_post_hook ::= idtac.
Local Open Scope Z_scope.

(* ---- one bucket; releases are kept as ticks *)
Definition cnt (a : Z) (l : list Z) : Z := Z.of_nat (countb (fun e => a <=? e) l).
Definition cnt2 (a c : Z) (l : list Z) : Z := Z.of_nat (countb (fun e => (a <=? e) && (e <=? c)) l).
Definition ceilq (b : bucket) : Z := (Z.max 0 (- bAvail b) + bQuantum b - 1) / bQuantum b.
Record binv (b : bucket) (l : list Z) : Prop := {
  bi_f : 0 < bFill b; bi_q : 0 < bQuantum b; bi_c : 0 < bCap b;
  bi_av : bAvail b <= bCap b;
  bi_1 : forall a, cnt a l = 0 \/ cnt a l + bAvail b <= Z.max (bCap b) (bQuantum b) + (bTick b - a) * bQuantum b;
  bi_2 : forall a c, a <= c -> cnt2 a c l <= Z.max (bCap b) (bQuantum b) + (c - a) * bQuantum b;
  bi_3 : Forall (fun e => e <= bTick b + ceilq b) l }.
Lemma binv_perm b l l' : Permutation l l' -> binv b l -> binv b l'.
Proof.
  intros P [H1 H2 H3 H4 H5 H6 H7]. constructor; try assumption.
  - intro a. unfold cnt in *. rewrite <- (countb_perm _ l l' P). apply H5.
  - intros a c L. unfold cnt2 in *. rewrite <- (countb_perm _ l l' P). apply H6, L.
  - rewrite <- P. exact H7.
Qed.
Lemma ceil_bounds x q : 0 < q -> x <= ((x + q - 1) / q) * q /\ ((x + q - 1) / q) * q < x + q.
Proof.
  intro Q. pose proof (Z.div_mod (x + q - 1) q ltac:(lia)) as D. pose proof (Z.mod_pos_bound (x + q - 1) q Q) as M.
  rewrite (Z.mul_comm q) in D. lia.
Qed.
Definition adjusted (b : bucket) (tick : Z) : bucket := mkBucket (bStart b) (bFill b) (bQuantum b) (bCap b) (adjust b tick) tick.
Lemma adjust_le b tick : 0 < bQuantum b -> bTick b <= tick -> bAvail b <= bCap b -> adjust b tick <= bAvail b + (tick - bTick b) * bQuantum b /\ adjust b tick <= bCap b.
Proof.
  intros Q T A. unfold adjust. destruct (Z.leb_spec (bCap b) (bAvail b)); nia.
Qed.
Lemma adjust_inv b l tick : binv b l -> bTick b <= tick -> binv (adjusted b tick) l.
Proof.
  intros [H1 H2 H3 H4 H5 H6 H7] T. destruct (adjust_le b tick H2 T H4) as [A1 A2]. constructor; cbn [adjusted bFill bQuantum bCap bAvail bTick]; try assumption.
  - intro a. destruct (H5 a) as [Z0|Z0]; [left; exact Z0|right]. nia.
  - eapply Forall_impl; [|exact H7]. cbn. intros e E. eapply Z.le_trans; [exact E|].
    unfold ceilq, adjusted. cbn [bAvail bQuantum]. unfold adjust. destruct (Z.leb_spec (bCap b) (bAvail b)) as [L|L].
    + rewrite !Z.max_l by lia. apply Z.add_le_mono_r. exact T.
    + pose proof (ceil_bounds (Z.max 0 (- bAvail b)) (bQuantum b) H2) as B1.
      pose proof (ceil_bounds (Z.max 0 (- Z.min (bCap b) (bAvail b + (tick - bTick b) * bQuantum b))) (bQuantum b) H2) as B2.
      set (c1 := (Z.max 0 (- bAvail b) + bQuantum b - 1) / bQuantum b) in *.
      set (c2 := (Z.max 0 (- Z.min (bCap b) (bAvail b + (tick - bTick b) * bQuantum b)) + bQuantum b - 1) / bQuantum b) in *.
      assert (0 <= c2) by (apply Z.div_pos; lia). assert (0 <= c1) by (apply Z.div_pos; lia).
      destruct (Z_le_gt_dec c1 (tick - bTick b + c2)) as [|G]; [lia|exfalso].
      assert (c1 * bQuantum b >= (tick - bTick b + c2 + 1) * bQuantum b) by nia. nia.
Qed.
Lemma cnt_cons a e l : cnt a (e :: l) = (if a <=? e then 1 else 0) + cnt a l.
Proof. unfold cnt. rewrite countb_cons. destruct (a <=? e); lia. Qed.
Lemma cnt2_cons a c e l : cnt2 a c (e :: l) = (if (a <=? e) && (e <=? c) then 1 else 0) + cnt2 a c l.
Proof. unfold cnt2. rewrite countb_cons. destruct ((a <=? e) && (e <=? c))%bool; lia. Qed.
Lemma cnt2_le a c l : cnt2 a c l <= cnt a l.
Proof.
  induction l as [|e l IH]; [unfold cnt2, cnt; cbn; lia|]. rewrite cnt_cons, cnt2_cons. destruct (a <=? e), (e <=? c); cbn [andb]; lia.
Qed.
(* taking one token: the release tick *)
Definition relTick (b : bucket) : Z := bTick b + (Z.max 0 (1 - bAvail b) + bQuantum b - 1) / bQuantum b.
Definition spend (b : bucket) : bucket := mkBucket (bStart b) (bFill b) (bQuantum b) (bCap b) (bAvail b - 1) (bTick b).
Lemma spend_inv b l : binv b l -> binv (spend b) (relTick b :: l).
Proof.
  intros [H1 H2 H3 H4 H5 H6 H7]. pose proof (ceil_bounds (Z.max 0 (1 - bAvail b)) (bQuantum b) H2) as B. unfold relTick.
  set (k := (Z.max 0 (1 - bAvail b) + bQuantum b - 1) / bQuantum b) in *.
  assert (K0 : 0 <= k) by (apply Z.div_pos; lia).
  assert (N1 : forall a, cnt a (bTick b + k :: l) = 0 \/ cnt a (bTick b + k :: l) + (bAvail b - 1) <= Z.max (bCap b) (bQuantum b) + (bTick b - a) * bQuantum b).
  { intro a. rewrite cnt_cons. destruct (Z.leb_spec a (bTick b + k)) as [L|L].
    - right. destruct (H5 a) as [E|E]; [|lia]. rewrite E. destruct (Z_le_gt_dec a (bTick b)) as [A|A]; [nia|].
      assert (k * bQuantum b >= (a - bTick b) * bQuantum b) by nia. nia.
    - destruct (H5 a) as [E|E]; [left; lia|right; lia]. }
  assert (F : Forall (fun e => e <= bTick b + k) l).
  { eapply Forall_impl; [|exact H7]. cbn. intros e E. eapply Z.le_trans; [exact E|]. apply Z.add_le_mono_l. unfold ceilq, k. apply Z.div_le_mono; lia. }
  constructor; cbn [spend bFill bQuantum bCap bAvail bTick]; try assumption; try lia.
  - intros a c L. rewrite cnt2_cons. destruct ((a <=? bTick b + k) && (bTick b + k <=? c))%bool eqn:E.
    + apply andb_true_iff in E. destruct E as [E1 E2]. apply Z.leb_le in E1. apply Z.leb_le in E2. pose proof (cnt2_le a c l) as G. destruct (N1 a) as [X|X].
      * rewrite cnt_cons in X. destruct (Z.leb_spec a (bTick b + k)); [|lia]. unfold cnt in X. lia.
      * rewrite cnt_cons in X. destruct (Z.leb_spec a (bTick b + k)); [|lia]. nia.
    + apply H6. exact L.
  - unfold ceilq. cbn [spend bAvail bQuantum]. replace (- (bAvail b - 1)) with (1 - bAvail b) by lia. fold k. constructor; [lia|exact F].
Qed.

Lemma take_cases b now w : 0 < bFill b -> 0 < bQuantum b ->
  match snd (take b now w) with
  | None => fst (take b now w) = adjusted b (tickOf b now)
  | Some d => fst (take b now w) = spend (adjusted b (tickOf b now)) /\ tickOf b (now + d) = relTick (adjusted b (tickOf b now)) /\ 0 <= d
  end.
Proof.
  intros HF HQ. unfold take. cbv zeta. set (T := tickOf b now). set (av := adjust b T). destruct (Z.leb_spec 0 (av - 1)) as [L|L].
  - cbn [fst snd]. split; [reflexivity|]. split; [|lia]. rewrite Z.add_0_r. unfold relTick, adjusted. cbn [bTick bAvail bQuantum]. fold T av.
    rewrite Z.max_l by lia. cbn [Z.add]. replace (0 + bQuantum b - 1) with (bQuantum b - 1) by lia. rewrite Z.div_small by lia. lia.
  - set (e := T + (- (av - 1) + bQuantum b - 1) / bQuantum b). destruct (w <? bStart b + e * bFill b - now); cbn [fst snd]; [reflexivity|].
    split; [reflexivity|]. split.
    + replace (now + (bStart b + e * bFill b - now)) with (bStart b + e * bFill b) by lia. unfold tickOf. replace (bStart b + e * bFill b - bStart b) with (e * bFill b) by lia.
      rewrite Z.div_mul by lia. unfold relTick, adjusted. cbn [bTick bAvail bQuantum]. fold T av. rewrite Z.max_r by lia. unfold e. f_equal. f_equal. lia.
    + (* the wait is not negative: e is at least the next tick *)
      assert (E1 : T + 1 <= e).
      { unfold e. pose proof (ceil_bounds (1 - av) (bQuantum b) HQ) as B. replace (- (av - 1)) with (1 - av) by lia.
        assert (1 <= (1 - av + bQuantum b - 1) / bQuantum b) by (apply Z.div_le_lower_bound; lia). lia. }
      assert (E2 : now - bStart b < (T + 1) * bFill b).
      { unfold T, tickOf. pose proof (Z.div_mod (now - bStart b) (bFill b) ltac:(lia)) as D. pose proof (Z.mod_pos_bound (now - bStart b) (bFill b) HF) as M. nia. }
      nia.
Qed.
Lemma take_static b now w : let b' := fst (take b now w) in bStart b' = bStart b /\ bFill b' = bFill b /\ bQuantum b' = bQuantum b /\ bCap b' = bCap b /\ bTick b' = tickOf b now.
Proof.
  cbv zeta. unfold take. cbv zeta. destruct (0 <=? adjust b (tickOf b now) - 1); [repeat split|]. destruct (w <? _); repeat split.
Qed.
Lemma tick_mono b t t' : 0 < bFill b -> t <= t' -> tickOf b t <= tickOf b t'.
Proof. intros F L. unfold tickOf. apply Z.div_le_mono; lia. Qed.
Lemma take_inv b l now w : binv b l -> bTick b <= tickOf b now ->
  binv (fst (take b now w)) (match snd (take b now w) with Some d => tickOf b (now + d) :: l | None => l end).
Proof.
  intros I T. pose proof (take_cases b now w (bi_f _ _ I) (bi_q _ _ I)) as C. pose proof (adjust_inv b l (tickOf b now) I T) as A.
  destruct (snd (take b now w)) as [d|].
  - destruct C as (C1 & C2 & _). rewrite C1, C2. apply spend_inv, A.
  - rewrite C. exact A.
Qed.
Lemma fresh_inv b t0 : fresh_bucket b t0 -> binv b [] /\ bTick b = 0 /\ 0 <= tickOf b t0.
Proof.
  intros [E F Q C T]. split; [|split].
  - constructor; try assumption.
    + rewrite E. cbn. lia.
    + intro a. left. reflexivity.
    + intros a c L. unfold cnt2. cbn. nia.
    + constructor.
  - rewrite E. reflexivity.
  - unfold tickOf. apply Z.div_pos; lia.
Qed.
(* the bound in times *)
Lemma binv_bound b l rel t1 t2 : binv b l -> (l = map (tickOf b) rel) -> t1 <= t2 ->
  Z.of_nat (countb (within t1 t2) rel) <= allowance b t1 t2.
Proof.
  intros I -> L. pose proof (tick_mono b t1 t2 (bi_f _ _ I) L) as TM.
  eapply Z.le_trans; [|exact (bi_2 _ _ I (tickOf b t1) (tickOf b t2) TM)].
  unfold cnt2. apply inj_le. clear TM. pose proof (bi_f _ _ I) as F. clear I.
  induction rel as [|r rel IH]; [apply Nat.le_refl|]. cbn [map]. rewrite !countb_cons. unfold within at 1.
  destruct (Z.leb_spec t1 r) as [A|A]; [destruct (Z.leb_spec r t2) as [B|B]|]; cbn [andb]; [|lia|lia].
  pose proof (tick_mono b t1 r F A). pose proof (tick_mono b r t2 F B).
  destruct (Z.leb_spec (tickOf b t1) (tickOf b r)); [|lia]. destruct (Z.leb_spec (tickOf b r) (tickOf b t2)); [|lia]. cbn [andb]. lia.
Qed.
Lemma tickOf_static b b' t : bStart b' = bStart b -> bFill b' = bFill b -> tickOf b' t = tickOf b t.
Proof. intros A B. unfold tickOf. rewrite A, B. reflexivity. Qed.
Lemma takes_inv ops : forall b l t0, binv b l -> bTick b <= tickOf b t0 -> in_order t0 ops ->
  exists b', bStart b' = bStart b /\ bFill b' = bFill b /\ bQuantum b' = bQuantum b /\ bCap b' = bCap b /\ binv b' (rev (map (tickOf b) (takes b ops)) ++ l).
Proof.
  induction ops as [|[now w] ops IH]; intros b l t0 I T O.
  - exists b. repeat split; try apply I.
  - destruct O as [O1 O2]. pose proof (tick_mono b t0 now (bi_f _ _ I) O1) as TM. pose proof (take_inv b l now w I ltac:(lia)) as G.
    destruct (take_static b now w) as (S1 & S2 & S3 & S4 & S5). cbn [takes]. destruct (take b now w) as [b1 d] eqn:E. cbn [fst snd] in *.
    assert (T1 : bTick b1 <= tickOf b1 now) by (rewrite (tickOf_static b b1 now S1 S2); lia).
    destruct (IH b1 _ now G T1 O2) as (b' & R1 & R2 & R3 & R4 & R5). exists b'. rewrite R1, R2, R3, R4. do 4 (split; [assumption|]).
    assert (M : map (tickOf b1) (takes b1 ops) = map (tickOf b) (takes b1 ops)) by (apply map_ext; intro; apply tickOf_static; assumption).
    rewrite M in R5. destruct d as [d|]; [|exact R5]. cbn [map rev]. rewrite <- app_assoc. exact R5.
Qed.
Lemma allowance_static b b' t1 t2 : bStart b' = bStart b -> bFill b' = bFill b -> bQuantum b' = bQuantum b -> bCap b' = bCap b -> allowance b' t1 t2 = allowance b t1 t2.
Proof. intros A B C D. unfold allowance, refills. rewrite A, B, C, D. reflexivity. Qed.
Lemma takes_bound b t0 ops t1 t2 : fresh_bucket b t0 -> in_order t0 ops -> t1 <= t2 -> Z.of_nat (countb (within t1 t2) (takes b ops)) <= allowance b t1 t2.
Proof.
  intros FB O L. destruct (fresh_inv b t0 FB) as (I & K & T). destruct (takes_inv ops b [] t0 I ltac:(lia) O) as (b' & S1 & S2 & S3 & S4 & I').
  rewrite app_nil_r in I'. apply (binv_perm _ _ (map (tickOf b) (takes b ops))) in I'; [|apply Permutation_sym, Permutation_rev].
  rewrite <- (allowance_static b b' t1 t2 S1 S2 S3 S4). apply (binv_bound b' _ (takes b ops) t1 t2 I'); [|exact L].
  apply map_ext. intro. symmetry. apply tickOf_static; assumption.
Qed.

(* the first capacity requests pass at once *)
Lemma burst_gen ops : forall b k t0, 0 < bFill b -> 0 < bQuantum b -> bTick b <= tickOf b t0 -> in_order t0 ops -> Z.of_nat (length ops) <= k -> k <= bAvail b -> bAvail b <= bCap b ->
  takes b ops = map fst ops.
Proof.
  induction ops as [|[now w] ops IH]; intros b k t0 F Q T O L K C; [reflexivity|]. destruct O as [O1 O2]. cbn [length] in L.
  pose proof (tick_mono b t0 now F O1) as TM.
  assert (A : k <= adjust b (tickOf b now) <= bCap b).
  { unfold adjust. destruct (Z.leb_spec (bCap b) (bAvail b)); nia. }
  cbn [takes map fst]. unfold take. cbv zeta. destruct (Z.leb_spec 0 (adjust b (tickOf b now) - 1)); [|lia]. cbn [fst snd]. rewrite Z.add_0_r. f_equal.
  apply (IH _ (k - 1) now); cbn [bFill bQuantum bTick bAvail bCap]; try assumption; try lia. unfold tickOf. cbn. lia.
Qed.
Lemma burst b t0 ops : fresh_bucket b t0 -> in_order t0 ops -> Z.of_nat (length ops) <= bCap b -> takes b ops = map fst ops.
Proof.
  intros FB O L. destruct (fresh_inv b t0 FB) as (I & K & T). apply (burst_gen ops b (bCap b) t0); try apply FB; try assumption; try lia.
  - destruct FB as [E _ _ _ _]. rewrite E. cbn. lia.
  - apply I.
Qed.

(* ---- the filter *)
Definition fwdTimes (m : bs) (cs : list rlcall) : list Z :=
  flat_map (fun c => if bs_eqb (rcMethod c) m then match rcState c with RFwd t => [t] | _ => [] end else []) cs.
Definition svcTimes (cs : list rlcall) : list Z := flat_map (fun c => match rcService c with Some t => [t] | None => [] end) cs.
Lemma count_fwd m t1 t2 cs : countb (forwarded_of m t1 t2) cs = countb (within t1 t2) (fwdTimes m cs).
Proof.
  induction cs as [|c cs IH]; [reflexivity|]. cbn [fwdTimes flat_map]. rewrite countb_cons, countb_app, IH. f_equal. unfold forwarded_of.
  destruct (bs_eqb (rcMethod c) m); [|reflexivity]. destruct (rcState c); cbn [andb]; try reflexivity. unfold countb. cbn. destruct (within t1 t2 at_); reflexivity.
Qed.
Lemma count_svc t1 t2 cs : countb (past_service t1 t2) cs = countb (within t1 t2) (svcTimes cs).
Proof.
  induction cs as [|c cs IH]; [reflexivity|]. cbn [svcTimes flat_map]. rewrite countb_cons, countb_app, IH. f_equal. unfold past_service.
  destruct (rcService c); [|reflexivity]. unfold countb. cbn. destruct (within t1 t2 z); reflexivity.
Qed.
Lemma flat_map_set {A B} (f : A -> list B) l i x y : nth_error l i = Some x -> f x = [] -> Permutation (flat_map f (list_set l i y)) (f y ++ flat_map f l).
Proof.
  revert i. induction l as [|a l IH]; intros [|i] H E; try discriminate H.
  - cbn in H. injection H as ->. cbn. rewrite E. apply Permutation_refl.
  - cbn in H. cbn [list_set flat_map]. eapply perm_trans; [apply Permutation_app_head, (IH i H E)|]. rewrite !app_assoc. apply Permutation_app_tail, Permutation_app_comm.
Qed.
Lemma flat_map_set_same {A B} (f : A -> list B) l i x y : nth_error l i = Some x -> f x = f y -> flat_map f (list_set l i y) = flat_map f l.
Proof.
  revert i. induction l as [|a l IH]; intros [|i] H E; try discriminate H.
  - cbn in H. injection H as ->. cbn. rewrite E. reflexivity.
  - cbn in H. cbn. rewrite (IH i H E). reflexivity.
Qed.
Record same_bucket (b b' : bucket) : Prop := { sb1 : bStart b' = bStart b; sb2 : bFill b' = bFill b; sb3 : bQuantum b' = bQuantum b; sb4 : bCap b' = bCap b }.
Record minv (m : bs) (b0 : bucket) (s : rlsys) (T : Z) : Prop := {
  mi_open : rlOpen (ryF s) = true;
  mi_wait : forall i c m' w t, nth_error (ryCalls s) i = Some c -> rcState c = RWait m' w t -> m' = rcMethod c;
  mi_b : exists b, aget bs_eqb (rlMethods (ryF s)) m = Some b /\ same_bucket b0 b /\ bTick b <= tickOf b T /\ binv b (map (tickOf b) (fwdTimes m (ryCalls s))) }.
Lemma methodPart_inv m b0 f cs T now m' w f' st b : aget bs_eqb (rlMethods f) m = Some b -> same_bucket b0 b -> bTick b <= tickOf b T -> T <= now ->
  binv b (map (tickOf b) (fwdTimes m cs)) -> methodPart f m' w now = (f', st) ->
  (match st with RWait _ _ _ => False | _ => True end) /\ rlOpen f' = rlOpen f /\ rlService f' = rlService f /\ rlServiceMax f' = rlServiceMax f /\
  exists b', aget bs_eqb (rlMethods f') m = Some b' /\ same_bucket b0 b' /\ bTick b' <= tickOf b' now /\
    binv b' (map (tickOf b') ((if bs_eqb m' m then match st with RFwd t => [t] | _ => [] end else []) ++ fwdTimes m cs)).
Proof.
  intros G S K L I E. unfold methodPart in E. pose proof (tick_mono b T now (bi_f _ _ I) L) as TM.
  destruct (bs_eqb m' m) eqn:Em.
  - apply bs_eqb_spec in Em. subst m'. rewrite G in E. pose proof (take_inv b _ now w I ltac:(lia)) as TI. destruct (take_static b now w) as (S1 & S2 & S3 & S4 & S5).
    destruct (take b now w) as [b' d]. cbn [fst snd] in *. injection E as <- <-. split; [destruct d; exact Logic.I|]. split; [reflexivity|]. split; [reflexivity|]. split; [reflexivity|].
    exists b'. cbn [rlMethods]. rewrite (aget_aset bs_eqb bs_eqb_spec), bs_eqb_rfl. split; [reflexivity|].
    split; [destruct S; constructor; congruence|]. split; [rewrite S5, (tickOf_static b b' now S1 S2); lia|].
    assert (M : forall x, tickOf b' x = tickOf b x) by (intro; apply tickOf_static; assumption).
    destruct d as [d|]; cbn [app map]; rewrite ?M; rewrite (map_ext _ _ M); exact TI.
  - destruct (aget bs_eqb (rlMethods f) m') as [b1|] eqn:G1.
    + destruct (take b1 now w) as [b' d]. injection E as <- <-. split; [destruct d; exact Logic.I|]. split; [reflexivity|]. split; [reflexivity|]. split; [reflexivity|].
      exists b. cbn [rlMethods]. rewrite (aget_aset bs_eqb bs_eqb_spec). assert (NE : m <> m') by (intro X; subst; rewrite bs_eqb_rfl in Em; discriminate Em).
      rewrite (bs_eqb_false m m' NE). split; [exact G|]. split; [exact S|]. split; [lia|exact I].
    + injection E as <- <-. split; [exact Logic.I|]. split; [reflexivity|]. split; [reflexivity|]. split; [reflexivity|]. exists b. split; [exact G|]. split; [exact S|]. split; [lia|exact I].
Qed.
Lemma fwdTimes_app m a b : fwdTimes m (a ++ b) = fwdTimes m a ++ fwdTimes m b.
Proof. unfold fwdTimes. apply flat_map_app. Qed.
Lemma svcTimes_app a b : svcTimes (a ++ b) = svcTimes a ++ svcTimes b.
Proof. unfold svcTimes. apply flat_map_app. Qed.
Lemma nth_snoc {A} (l : list A) x i y : nth_error (l ++ [x]) i = Some y -> nth_error l i = Some y \/ (i = length l /\ y = x).
Proof.
  intro H. destruct (Nat.lt_ge_cases i (length l)) as [L|L].
  - rewrite nth_error_app1 in H by exact L. left. exact H.
  - rewrite nth_error_app2 in H by exact L. right. destruct (i - length l)%nat as [|k] eqn:E; [cbn in H; injection H as <-; split; [lia|reflexivity]|destruct k; discriminate H].
Qed.
Lemma set_nth {A} (l : list A) i p q j x : nth_error l i = Some p -> nth_error (list_set l i q) j = Some x -> (j = i /\ x = q) \/ nth_error l j = Some x.
Proof.
  intros H G. assert (L : (i < length l)%nat) by (apply nth_error_Some; congruence). rewrite list_set_nth_error in G by exact L.
  destruct (Nat.eqb_spec j i) as [->|N]; [left; split; [reflexivity|injection G as <-; reflexivity]|right; exact G].
Qed.
Lemma minv_step m b0 s T now o : (forall on, o <> RSwitch on) -> minv m b0 s T -> T <= now -> minv m b0 (rlMove s (now, o)) now.
Proof.
  intros NS [I1 I2 (b & G & S & K & I)] L. pose proof (tick_mono b T now (bi_f _ _ I) L) as TM. unfold rlMove. cbn [fst snd]. destruct o as [m' w|i|on].
  - rewrite I1. destruct (rlService (ryF s)) as [sb|] eqn:Es.
    + destruct (take sb now (rlServiceMax (ryF s))) as [sb' d]. constructor; cbn [ryF ryCalls rlOpen rlMethods].
      * reflexivity.
      * intros i c m2 w2 t H R. destruct (nth_snoc _ _ _ _ H) as [H'|[_ ->]]; [exact (I2 i c m2 w2 t H' R)|]. destruct d; cbn in *; [injection R as <- _ _; reflexivity|discriminate R].
      * exists b. split; [exact G|]. split; [exact S|]. split; [lia|]. rewrite fwdTimes_app. cbn [fwdTimes flat_map].
        replace (if bs_eqb (rcMethod (match d with Some d0 => mkRlcall m' (Some (now + d0)) (RWait m' w (now + d0)) | None => mkRlcall m' None RRefused end)) m
                 then match rcState (match d with Some d0 => mkRlcall m' (Some (now + d0)) (RWait m' w (now + d0)) | None => mkRlcall m' None RRefused end) with RFwd t => [t] | _ => [] end else []) with (@nil Z)
          by (destruct d; cbn; destruct (bs_eqb m' m); reflexivity). rewrite !app_nil_r. exact I.
    + destruct (methodPart (ryF s) m' w now) as [f' st] eqn:E. destruct (methodPart_inv m b0 (ryF s) (ryCalls s) T now m' w f' st b G S K L I E) as (W & P1 & P2 & P3 & b' & G' & S' & K' & I').
      constructor; cbn [ryF ryCalls].
      * congruence.
      * intros i c m2 w2 t H R. destruct (nth_snoc _ _ _ _ H) as [H'|[_ ->]]; [exact (I2 i c m2 w2 t H' R)|]. cbn in R. subst st. contradiction.
      * exists b'. split; [exact G'|]. split; [exact S'|]. split; [exact K'|]. eapply binv_perm; [|exact I']. apply Permutation_map. rewrite fwdTimes_app. cbn [fwdTimes flat_map rcMethod rcState].
        rewrite app_nil_r. apply Permutation_app_comm.
  - assert (SAME : minv m b0 s now) by (constructor; [exact I1|exact I2|exists b; split; [exact G|]; split; [exact S|]; split; [lia|exact I]]).
    destruct (nth_error (ryCalls s) i) as [c|] eqn:E; [|exact SAME]. destruct (rcState c) as [m2 w t|t|] eqn:R; [|exact SAME|exact SAME].
    destruct (t <=? now); [|exact SAME]. destruct (methodPart (ryF s) m2 w now) as [f' st] eqn:EM.
    destruct (methodPart_inv m b0 (ryF s) (ryCalls s) T now m2 w f' st b G S K L I EM) as (W & P1 & P2 & P3 & b' & G' & S' & K' & I').
    pose proof (I2 i c m2 w t E R) as Q. subst m2. constructor; cbn [ryF ryCalls].
    + congruence.
    + intros j c2 m3 w3 t3 H R3. destruct (set_nth _ _ _ _ _ _ E H) as [[_ ->]|H']; [cbn in R3; subst st; contradiction|exact (I2 j c2 m3 w3 t3 H' R3)].
    + exists b'. split; [exact G'|]. split; [exact S'|]. split; [exact K'|]. eapply binv_perm; [|exact I']. apply Permutation_map. unfold fwdTimes.
      apply Permutation_sym. eapply perm_trans; [apply (flat_map_set _ _ _ _ (mkRlcall (rcMethod c) (rcService c) st) E)|].
      * rewrite R. destruct (bs_eqb (rcMethod c) m); reflexivity.
      * cbn [rcMethod rcState]. apply Permutation_refl.
  - exfalso. apply (NS on). reflexivity.
Qed.
Lemma minv_run m b0 os : forall s T, stays_on os -> in_order T os -> minv m b0 s T -> exists T', minv m b0 (rlMoves s os) T'.
Proof.
  induction os as [|[t o] os IH]; intros s T C K I; [exists T; exact I|]. destruct K as [K1 K2]. cbn [rlMoves fold_left]. apply (IH _ t); [|exact K2|].
  - intros t' on H. apply (C t' on). right. exact H.
  - apply (minv_step m b0 s T t o); [|exact I|exact K1]. intros on ->. apply (C t on). left. reflexivity.
Qed.
Lemma method_bound s t0 os m b t1 t2 : new_filter s -> aget bs_eqb (rlMethods (ryF s)) m = Some b -> fresh_bucket b t0 -> stays_on os -> in_order t0 os -> t1 <= t2 ->
  Z.of_nat (countb (forwarded_of m t1 t2) (ryCalls (rlMoves s os))) <= allowance b t1 t2.
Proof.
  intros [N1 N2] G FB ST O L. destruct (fresh_inv b t0 FB) as (I & K & T). destruct (minv_run m b os s t0 ST O) as [T' [_ _ (b' & _ & S & _ & I')]].
  - constructor; [exact N2|intros i c m' w t H; rewrite N1 in H; destruct i; discriminate H|]. exists b. rewrite N1. split; [exact G|]. split; [constructor; reflexivity|]. split; [lia|exact I].
  - rewrite count_fwd. rewrite <- (allowance_static b b' t1 t2) by apply S. apply (binv_bound b' _ _ t1 t2 I' eq_refl L).
Qed.

(* the service bucket *)
Record sinv (b0 : bucket) (s : rlsys) (T : Z) : Prop := {
  si_open : rlOpen (ryF s) = true;
  si_b : exists b, rlService (ryF s) = Some b /\ same_bucket b0 b /\ bTick b <= tickOf b T /\ binv b (map (tickOf b) (svcTimes (ryCalls s)));
  si_calls : forall c, In c (ryCalls s) -> match rcState c with
             | RWait _ _ t => rcService c = Some t | RFwd t => exists t', rcService c = Some t' /\ t' <= t | RRefused => True end }.
Lemma methodPart_fields f m w now : rlOpen (fst (methodPart f m w now)) = rlOpen f /\ rlService (fst (methodPart f m w now)) = rlService f /\
  (match snd (methodPart f m w now) with RWait _ _ _ => False | RFwd t => (forall m b, aget bs_eqb (rlMethods f) m = Some b -> 0 < bFill b /\ 0 < bQuantum b) -> now <= t | RRefused => True end).
Proof.
  unfold methodPart. destruct (aget bs_eqb (rlMethods f) m) as [b|] eqn:G; [|cbn; repeat split; intros; lia].
  destruct (take b now w) as [b' [d|]] eqn:E; cbn; repeat split.
  intro H. destruct (H m b G) as [F Q]. pose proof (take_cases b now w F Q) as C. rewrite E in C. cbn in C. lia.
Qed.
Definition good_buckets (f : rlim) : Prop := forall m b, aget bs_eqb (rlMethods f) m = Some b -> 0 < bFill b /\ 0 < bQuantum b.
Lemma methodPart_good f m w now : good_buckets f -> good_buckets (fst (methodPart f m w now)).
Proof.
  intros H m2 b2. unfold methodPart. destruct (aget bs_eqb (rlMethods f) m) as [b|] eqn:G; [|cbn; apply H].
  destruct (take_static b now w) as (S1 & S2 & S3 & S4 & S5). destruct (take b now w) as [b' d]. cbn [fst rlMethods] in *. rewrite (aget_aset bs_eqb bs_eqb_spec).
  destruct (bs_eqb m2 m); [|apply H]. intro X. injection X as <-. rewrite S2, S3. apply (H m b G).
Qed.
Lemma In_list_set {A} (l : list A) i q x : In x (list_set l i q) -> x = q \/ In x l.
Proof. revert i. induction l as [|a l IH]; intros [|i] H; cbn in *; try contradiction; destruct H as [H|H]; auto. destruct (IH i H); auto. Qed.
Lemma sinv_step b0 s T now o : (forall on, o <> RSwitch on) -> good_buckets (ryF s) -> sinv b0 s T -> T <= now ->
  sinv b0 (rlMove s (now, o)) now /\ good_buckets (ryF (rlMove s (now, o))).
Proof.
  intros NS GB [I1 (b & G & S & K & I) I3] L. pose proof (tick_mono b T now (bi_f _ _ I) L) as TM. unfold rlMove. cbn [fst snd]. destruct o as [m' w|i|on].
  - rewrite I1, G. pose proof (take_inv b _ now (rlServiceMax (ryF s)) I ltac:(lia)) as TI. destruct (take_static b now (rlServiceMax (ryF s))) as (S1 & S2 & S3 & S4 & S5).
    destruct (take b now (rlServiceMax (ryF s))) as [b' d]. cbn [fst snd] in *. assert (M : forall x, tickOf b' x = tickOf b x) by (intro; apply tickOf_static; assumption).
    split; [constructor; cbn [ryF ryCalls rlOpen rlService]|exact GB].
    + reflexivity.
    + exists b'. split; [reflexivity|]. split; [destruct S; constructor; congruence|]. split; [rewrite S5, M; lia|]. rewrite svcTimes_app, (map_ext _ _ M).
      destruct d as [d|]; cbn [svcTimes flat_map rcService app].
      * eapply binv_perm; [|exact TI]. rewrite map_app. cbn [map]. apply Permutation_cons_append.
      * rewrite app_nil_r. exact TI.
    + intros c H. apply in_app_or in H. destruct H as [H|[<-|[]]]; [exact (I3 c H)|]. destruct d; cbn; [reflexivity|exact Logic.I].
  - assert (SAME : sinv b0 s now /\ good_buckets (ryF s)) by (split; [constructor; [exact I1|exists b; split; [exact G|]; split; [exact S|]; split; [lia|exact I]|exact I3]|exact GB]).
    destruct (nth_error (ryCalls s) i) as [c|] eqn:E; [|exact SAME]. destruct (rcState c) as [m2 w t|t|] eqn:R; [|exact SAME|exact SAME].
    destruct (Z.leb_spec t now) as [LT|]; [|exact SAME]. pose proof (methodPart_fields (ryF s) m2 w now) as (P1 & P2 & P3). pose proof (methodPart_good (ryF s) m2 w now GB) as GB'.
    destruct (methodPart (ryF s) m2 w now) as [f' st]. cbn [fst snd] in *. split; [|exact GB']. pose proof (I3 c (nth_error_In _ _ E)) as IC. rewrite R in IC.
    constructor; cbn [ryF ryCalls].
    + congruence.
    + exists b. split; [congruence|]. split; [exact S|]. split; [lia|]. unfold svcTimes. rewrite (flat_map_set_same _ _ _ c); [exact I|exact E|reflexivity].
    + intros c2 H. destruct (In_list_set _ _ _ _ H) as [->|H']; [|exact (I3 c2 H')]. cbn [rcState rcService]. destruct st as [| t2|]; [contradiction| |exact Logic.I].
      exists t. split; [exact IC|]. specialize (P3 GB). lia.
  - exfalso. apply (NS on). reflexivity.
Qed.
Lemma sinv_run b0 os : forall s T, stays_on os -> in_order T os -> good_buckets (ryF s) -> sinv b0 s T -> exists T', sinv b0 (rlMoves s os) T'.
Proof.
  induction os as [|[t o] os IH]; intros s T C K GB I; [exists T; exact I|]. destruct K as [K1 K2]. cbn [rlMoves fold_left].
  destruct (sinv_step b0 s T t o) as [I' GB']; [intros on ->; apply (C t on); left; reflexivity|exact GB|exact I|exact K1|].
  apply (IH _ t); [|exact K2|exact GB'|exact I']. intros t' on H. apply (C t' on). right. exact H.
Qed.
Lemma service_bound s t0 os b t1 t2 : new_filter s -> rlService (ryF s) = Some b -> fresh_bucket b t0 ->
  (forall m b', aget bs_eqb (rlMethods (ryF s)) m = Some b' -> fresh_bucket b' t0) -> stays_on os -> in_order t0 os -> t1 <= t2 ->
  Z.of_nat (countb (past_service t1 t2) (ryCalls (rlMoves s os))) <= allowance b t1 t2 /\
  (forall c t, In c (ryCalls (rlMoves s os)) -> rcState c = RFwd t -> exists t', rcService c = Some t' /\ t' <= t).
Proof.
  intros [N1 N2] G FB FM ST O L. destruct (fresh_inv b t0 FB) as (I & K & T). destruct (sinv_run b os s t0 ST O) as [T' [_ (b' & _ & S & _ & I') IC]].
  - intros m b' H. specialize (FM m b' H). split; apply FM.
  - constructor; [exact N2| |intros c H; rewrite N1 in H; contradiction]. exists b. rewrite N1. split; [exact G|]. split; [constructor; reflexivity|]. split; [lia|exact I].
  - split.
    + rewrite count_svc. rewrite <- (allowance_static b b' t1 t2) by apply S. apply (binv_bound b' _ _ t1 t2 I' eq_refl L).
    + intros c t H E. specialize (IC c H). rewrite E in IC. exact IC.
Qed.

(* ---- configuration *)
Lemma posInt_fresh u k d : fst (getPositiveIntValue (fresh u) k d) = if_positive (int_or u k d) d.
Proof.
  destruct (uexec_ok (fresh u) (OPosInt k d) (fresh_coherent u)) as (_ & _ & E & _). cbn [uexec umean fst cUrl fresh] in E.
  destruct (getPositiveIntValue (fresh u) k d) as [z c]. cbn in *. assert (X : RInt z = RInt (if_positive (int_or u k d) d)) by (apply E; left; split; intro Y; discriminate Y).
  injection X as ->. reflexivity.
Qed.
Lemma methodPosInt_fresh u m e k d : fst (getMethodPositiveIntValue (fresh u) m e k d) = if_positive (method_int_or u m e k d) d.
Proof.
  destruct (uexec_ok (fresh u) (OMethodPosInt m e k d) (fresh_coherent u)) as (_ & _ & E & _). cbn [uexec umean fst cUrl fresh] in E.
  destruct (getMethodPositiveIntValue (fresh u) m e k d) as [z c]. cbn in *. assert (X : RInt z = RInt (if_positive (method_int_or u m e k d) d)) by (apply E; left; split; intro Y; discriminate Y).
  injection X as ->. reflexivity.
Qed.
Lemma defaultCapacity_bounds r : 1000 <= getDefaultCapacity r <= 5000.
Proof.
  unfold getDefaultCapacity. destruct (Qle_bool (1000 # 1) (r * 2)) eqn:A; [destruct (Qle_bool (r * 2) (5000 # 1)) eqn:B|]; cbn [andb negb]; [|lia|lia].
  apply Qle_bool_iff in A. apply Qle_bool_iff in B. unfold Qle in A, B. cbn [Qnum Qden] in A, B.
  split; [apply Z.div_le_lower_bound; lia|]. apply Z.div_le_upper_bound; lia.
Qed.
Lemma prefix_nonempty : methodConfigPrefix <> [].
Proof. intro X. discriminate X. Qed.
Lemma app_first {A} (p a b c : list A) : a ++ p ++ b = p ++ c -> (length a <= 0)%nat -> a = [].
Proof. intros _ H. destruct a; [reflexivity|cbn in H; lia]. Qed.
Lemma split_prefixed p m : p <> [] -> splitStr p (p ++ m) = [] :: splitStr p m.
Proof.
  intro H. rewrite splitStr_eq by exact H. destruct (indexOf (p ++ m) p) as [i|] eqn:E.
  - destruct (indexOf_Some _ _ _ E) as (a & b & _ & L & M). specialize (M [] m eq_refl). cbn in M. assert (i = 0%nat) by lia. subst i. cbn [firstn Nat.add].
    rewrite H0. cbn [firstn]. rewrite Nat.add_0_l. rewrite skipn_app, skipn_all, Nat.sub_diag. reflexivity.
  - exfalso. apply (proj1 (indexOf_None _ _) E [] m). reflexivity.
Qed.
Lemma split_single p m x : p <> [] -> splitStr p m = [x] -> x = m /\ contains m p = false.
Proof.
  intros H E. pose proof (joinStr_split p m H) as J. rewrite E in J. cbn in J. subst x. split; [reflexivity|].
  apply (splitStr_parts p m m H). rewrite E. left. reflexivity.
Qed.
Lemma getKeyValue_spec pf key v m r : getKeyValue pf key v = Some (m, r) <->
  key = methodConfigPrefix ++ m /\ m <> [] /\ contains m methodConfigPrefix = false /\ pf v = Some r /\ Qle_bool r 0 = false.
Proof.
  unfold getKeyValue. split.
  - destruct (hasPrefix key methodConfigPrefix) eqn:P; [|intro X; discriminate X]. apply hasPrefix_spec in P. destruct P as [t ->].
    rewrite (split_prefixed _ _ prefix_nonempty). destruct (splitStr methodConfigPrefix t) as [|x [|y l]] eqn:S; try (intro X; discriminate X).
    destruct (split_single _ _ _ prefix_nonempty S) as [-> C]. destruct (pf v) as [q|]; [|intro X; discriminate X].
    destruct (bs_eqb t []) eqn:E; [intro X; discriminate X|]. destruct (Qle_bool q 0) eqn:Q; cbn [negb andb]; intro X; [discriminate X|]. injection X as <- <-.
    split; [reflexivity|]. split; [intros ->; discriminate E|]. split; [exact C|]. split; [reflexivity|exact Q].
  - intros (-> & N & C & P & Q). assert (HP : hasPrefix (methodConfigPrefix ++ m) methodConfigPrefix = true) by (apply hasPrefix_spec; exists m; reflexivity).
    rewrite HP, (split_prefixed _ _ prefix_nonempty), (splitStr_none _ _ prefix_nonempty C), P, Q. rewrite (bs_eqb_false m [] N). reflexivity.
Qed.
Lemma app_prefix_inj (p a b : bs) : p ++ a = p ++ b -> a = b.
Proof. apply app_inv_head. Qed.
Lemma methodRates_gen pf m l : forall acc, NoDup (akeys l) ->
  aget bs_eqb (fold_left (fun m kv => match getKeyValue pf (fst kv) (snd kv) with Some (k, v) => aset bs_eqb m k v | None => m end) l acc) m =
  match aget bs_eqb l (methodConfigPrefix ++ m) with
  | Some v => match getKeyValue pf (methodConfigPrefix ++ m) v with Some (_, r) => Some r | None => aget bs_eqb acc m end
  | None => aget bs_eqb acc m
  end.
Proof.
  induction l as [|[k v] l IH]; intros acc ND; [reflexivity|]. cbn [akeys map] in ND. inversion ND as [|? ? N1 N2]; subst. cbn [fold_left fst snd]. rewrite IH by exact N2.
  cbn [aget]. destruct (bs_eqb k (methodConfigPrefix ++ m)) eqn:E.
  - apply bs_eqb_spec in E. subst k.
    assert (A : aget bs_eqb l (methodConfigPrefix ++ m) = None) by (apply (aget_None bs_eqb bs_eqb_spec); exact N1). rewrite A.
    rewrite bs_eqb_rfl. destruct (getKeyValue pf (methodConfigPrefix ++ m) v) as [[k2 r]|] eqn:G; [|reflexivity].
    pose proof (proj1 (getKeyValue_spec _ _ _ _ _) G) as (K & _). apply app_prefix_inj in K. subst k2. rewrite (aget_aset bs_eqb bs_eqb_spec), bs_eqb_rfl. reflexivity.
  - assert (E' : bs_eqb (methodConfigPrefix ++ m) k = false) by (apply bs_eqb_false; intros <-; rewrite bs_eqb_rfl in E; discriminate E). rewrite ?E'.
    assert (A : aget bs_eqb (match getKeyValue pf k v with Some (k0, v0) => aset bs_eqb acc k0 v0 | None => acc end) m = aget bs_eqb acc m).
    { destruct (getKeyValue pf k v) as [[k2 r]|] eqn:G; [|reflexivity]. pose proof (proj1 (getKeyValue_spec _ _ _ _ _) G) as (K & _).
      rewrite (aget_aset bs_eqb bs_eqb_spec). rewrite bs_eqb_false; [reflexivity|]. intros ->. subst k. rewrite bs_eqb_rfl in E. discriminate E. }
    rewrite A. reflexivity.
Qed.
Lemma methodRates_spec pf params m r : NoDup (akeys params) ->
  (aget bs_eqb (methodRates pf params) m = Some r <->
   exists v, In (methodConfigPrefix ++ m, v) params /\ m <> [] /\ contains m methodConfigPrefix = false /\ pf v = Some r /\ Qle_bool r 0 = false).
Proof.
  intro ND. unfold methodRates. rewrite methodRates_gen by exact ND. cbn [aget]. split.
  - destruct (aget bs_eqb params (methodConfigPrefix ++ m)) as [v|] eqn:G; [|intro X; discriminate X].
    destruct (getKeyValue pf (methodConfigPrefix ++ m) v) as [[k2 r2]|] eqn:K; [|intro X; discriminate X]. intro X. injection X as <-.
    pose proof (proj1 (getKeyValue_spec _ _ _ _ _) K) as (K1 & K2). apply app_prefix_inj in K1. subst k2. exists v. split; [|exact K2].
    exact (aget_In bs_eqb bs_eqb_spec _ _ _ G).
  - intros (v & I & K). rewrite (In_aget bs_eqb bs_eqb_spec _ _ _ ND I).
    rewrite (proj2 (getKeyValue_spec pf (methodConfigPrefix ++ m) v m r)); [reflexivity|]. split; [reflexivity|exact K].
Qed.
Lemma defaultCapacity_exact r :
  ((r * 2 < 1000 # 1)%Q -> getDefaultCapacity r = 1000) /\ ((5000 # 1 < r * 2)%Q -> getDefaultCapacity r = 5000) /\
  (((1000 # 1) <= r * 2 <= (5000 # 1))%Q -> (inject_Z (getDefaultCapacity r) <= r * 2 < inject_Z (getDefaultCapacity r + 1))%Q).
Proof.
  unfold getDefaultCapacity. set (c := (r * 2)%Q).
  destruct (Qle_bool (1000 # 1) c) eqn:A; [destruct (Qle_bool c (5000 # 1)) eqn:B|]; cbn [andb negb].
  - apply Qle_bool_iff in A. apply Qle_bool_iff in B. split; [intro H; exfalso; apply (Qlt_not_le _ _ H A)|].
    split; [intro H; exfalso; apply (Qlt_not_le _ _ H B)|]. intros _.
    change (Qnum c / Zpos (Qden c)) with (Qnum c / Zpos (Qden c)). destruct c as [p q]. cbn [Qnum Qden].
    split; [exact (Qfloor_le (p # q))|exact (Qlt_floor (p # q))].
  - apply Qle_bool_iff in A. assert (~ (c <= 5000 # 1)%Q) by (intro X; apply Qle_bool_iff in X; congruence).
    split; [intro X; exfalso; apply (Qlt_not_le _ _ X A)|]. split; [reflexivity|]. intros [_ X]. contradiction.
  - assert (N : ~ ((1000 # 1) <= c)%Q) by (intro X; apply Qle_bool_iff in X; congruence).
    split; [reflexivity|]. split; [|intros [X _]; contradiction]. intro X. exfalso. apply N. apply Qlt_le_weak. eapply Qlt_trans; [|exact X]. reflexivity.
Qed.
