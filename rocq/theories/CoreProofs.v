(* CoreProofs.v *)
From Coq Require Import Permutation.
From Verif Require Import Base Lists Strconv UrlProofs CoreModel CoreSpec.
Ltac Zify.zify_post_hook ::= idtac.

(* ---------------------------------------------------------------- association lists *)
Lemma nat_eqb_spec x y : Nat.eqb x y = true <-> x = y.
Proof. apply Nat.eqb_eq. Qed.
Lemma aset_new {V} (m : list (bs * V)) k v : ~ In k (akeys m) -> aset bs_eqb m k v = m ++ [(k, v)].
Proof.
  induction m as [|[k0 v0] m IH]; cbn [aset akeys map fst In app]; intro H; [reflexivity|].
  destruct (bs_eqb k k0) eqn:E; [apply bs_eqb_spec in E; subst; tauto|]. rewrite IH by tauto. reflexivity.
Qed.
Lemma copy_acc {V} (m acc : list (bs * V)) : NoDup (akeys (acc ++ m)) ->
  fold_left (fun a kv => aset bs_eqb a (fst kv) (snd kv)) m acc = acc ++ m.
Proof.
  revert acc. induction m as [|[k v] m IH]; intros acc H; cbn [fold_left fst snd]; [symmetry; apply app_nil_r|].
  rewrite aset_new.
  - rewrite IH; [rewrite <- app_assoc; reflexivity|]. rewrite <- app_assoc. exact H.
  - unfold akeys in *. rewrite map_app in H. cbn in H. apply NoDup_remove_2 in H. rewrite in_app_iff in H. tauto.
Qed.
Lemma copyMap_id {V} (m : list (bs * V)) : NoDup (akeys m) -> copyMap m = m.
Proof. intro H. apply (copy_acc m []). exact H. Qed.
Lemma copyWithout_acc {V} (m acc : list (bs * V)) k : NoDup (akeys (acc ++ m)) ->
  fold_left (fun a kv => if bs_eqb (fst kv) k then a else aset bs_eqb a (fst kv) (snd kv)) m acc = acc ++ adel bs_eqb m k.
Proof.
  revert acc. induction m as [|[k0 v0] m IH]; intros acc H; cbn [fold_left fst snd adel filter]; [symmetry; apply app_nil_r|].
  assert (Eq : bs_eqb k0 k = bs_eqb k k0).
  { destruct (bs_eqb k0 k) eqn:E1; destruct (bs_eqb k k0) eqn:E2; try reflexivity.
    - apply bs_eqb_spec in E1. subst. rewrite (proj2 (bs_eqb_spec k k) eq_refl) in E2. congruence.
    - apply bs_eqb_spec in E2. subst. rewrite (proj2 (bs_eqb_spec k0 k0) eq_refl) in E1. congruence. }
  rewrite Eq. destruct (bs_eqb k k0) eqn:E; cbn [negb].
  - fold (adel bs_eqb m k). apply IH. unfold akeys in *. rewrite map_app in *. cbn in H. apply NoDup_remove_1 in H. exact H.
  - fold (adel bs_eqb m k). rewrite aset_new.
    + rewrite IH; [rewrite <- app_assoc; reflexivity|]. rewrite <- app_assoc. exact H.
    + unfold akeys in *. rewrite map_app in H. cbn in H. apply NoDup_remove_2 in H. rewrite in_app_iff in H. tauto.
Qed.
Lemma copyWithout_adel {V} (m : list (bs * V)) k : NoDup (akeys m) -> copyWithout m k = adel bs_eqb m k.
Proof. intro H. apply (copyWithout_acc m [] k). exact H. Qed.

(* ---------------------------------------------------------------- C37 *)
Lemma fmtN_inj a b : fmtN a = fmtN b -> a = b.
Proof. intro H. rewrite <- (proj1 (fmtN_spec a)), <- (proj1 (fmtN_spec b)), H. reflexivity. Qed.
Lemma colon_free z : ~ In x3a (fmtZ z).
Proof. apply fmtZ_free. reflexivity. Qed.
Lemma split_first (c : byte) a b x y : ~ In c a -> ~ In c b -> a ++ c :: x = b ++ c :: y -> a = b /\ x = y.
Proof.
  revert b. induction a as [|h a IH]; intros [|h' b] Ha Hb E; cbn in *.
  - injection E. auto.
  - injection E as <- _. tauto.
  - injection E as -> _. tauto.
  - injection E as <- E. destruct (IH b) as [-> ->]; tauto.
Qed.
Lemma recordKey_idx i j t u : (0 <= i)%Z -> (0 <= j)%Z -> recordKey i t = recordKey j u -> i = j /\ fmtZ t = fmtZ u.
Proof.
  unfold recordKey. cbn [app]. intros Hi Hj E. apply split_first in E; [|apply colon_free|apply colon_free]. destruct E as [E1 E2]. split; [|exact E2].
  unfold fmtZ in E1. destruct (Z.ltb_spec i 0); [lia|]. destruct (Z.ltb_spec j 0); [lia|]. apply fmtN_inj in E1. lia.
Qed.

Lemma numbered_keys {V} (l : list (Z * V)) : forall i k, In k (akeys (numbered i l)) -> exists j t, (i <= j < i + Z.of_nat (length l))%Z /\ k = recordKey j t.
Proof.
  induction l as [|[t v] l IH]; intros i k H; [destruct H|]. cbn [numbered akeys map fst] in H. destruct H as [<-|H].
  - exists i, t. split; [cbn [length]; lia|reflexivity].
  - destruct (IH _ _ H) as (j & t' & Hj & ->). exists j, t'. split; [cbn [length]; lia|reflexivity].
Qed.
Lemma numbered_nodup {V} (l : list (Z * V)) : forall i, (0 <= i)%Z -> NoDup (akeys (numbered i l)).
Proof.
  induction l as [|[t v] l IH]; intros i Hi; [constructor|]. cbn [numbered akeys map fst]. constructor.
  - intro H. apply numbered_keys in H as (j & t' & Hj & E). apply recordKey_idx in E as [-> _]; lia.
  - apply IH. lia.
Qed.
Lemma numbered_length {V} (l : list (Z * V)) : forall i, length (numbered i l) = length l.
Proof. induction l as [|[t v] l IH]; intro i; cbn; [reflexivity|]. f_equal. apply IH. Qed.

Definition pack {V} (p : Z * V) : option (recItem V) := Some (mkItem (fst p) (snd p)).
Lemma collect_some {V} (l : list (Z * V)) : forall i recs, (0 <= i)%Z ->
  (forall k, In k (akeys recs) -> exists j t, (0 <= j < i)%Z /\ k = recordKey j t) ->
  collect (map pack l) i recs = recs ++ numbered i l.
Proof.
  induction l as [|[t v] l IH]; intros i recs Hi Hk; cbn [map collect numbered pack fst snd itTime itValue]; [symmetry; apply app_nil_r|].
  rewrite aset_new.
  - rewrite IH; [rewrite <- app_assoc; reflexivity|lia|]. intros k H. unfold akeys in H. rewrite map_app in H. apply in_app_or in H as [H|[<-|[]]].
    + destruct (Hk k H) as (j & t' & Hj & ->). exists j, t'. split; [lia|reflexivity].
    + exists i, t. split; [lia|reflexivity].
  - intro H. destruct (Hk _ H) as (j & t' & Hj & E). apply recordKey_idx in E as [-> _]; lia.
Qed.
Lemma collect_none {V} n (r : list (option (recItem V))) i recs : collect (repeat None n ++ r) i recs = collect r i recs.
Proof. induction n as [|n IH]; cbn; auto. Qed.

Lemma skipn_repeat {A} (x : A) n k : skipn k (repeat x n) = repeat x (n - k).
Proof. revert k. induction n as [|n IH]; intros [|k]; cbn; auto. Qed.
Lemma last_n_all {A} n (l : list A) : length l <= n -> last_n n l = l.
Proof. intro H. unfold last_n. replace (length l - n) with 0 by lia. reflexivity. Qed.
Lemma last_n_length {A} n (l : list A) : length (last_n n l) = Nat.min n (length l).
Proof. unfold last_n. rewrite skipn_length. lia. Qed.
Lemma last_n_snoc {A} n (l : list A) x : 0 < n -> n <= length l -> last_n n (l ++ [x]) = tl (last_n n l) ++ [x].
Proof.
  intros Hn Hl. unfold last_n. rewrite app_length. cbn [length]. replace (length l + 1 - n) with (S (length l - n)) by lia.
  rewrite skipn_app. replace (S (length l - n) - length l) with 0 by lia. cbn [skipn]. f_equal.
  generalize (length l - n) as k. clear. induction l as [|h l IH]; intros [|k]; cbn [skipn tl]; auto.
Qed.
Lemma last_n_map {A B} (f : A -> B) n l : last_n n (map f l) = map f (last_n n l).
Proof. unfold last_n. rewrite map_length. symmetry. generalize (length l - n) as k. induction l as [|h l IH]; intros [|k]; cbn; auto. Qed.

Definition ringOf {V} (n : nat) (items : list (Z * V)) : list (option (recItem V)) := last_n n (repeat None n ++ map pack items).
Lemma ring_add {V} n (items : list (Z * V)) t v : 0 < n -> addRecord (ringOf n items) t (Some v) = Some (ringOf n (items ++ [(t, v)])).
Proof.
  intro Hn. unfold ringOf. rewrite map_app, app_assoc. cbn [map]. rewrite last_n_snoc; [|exact Hn|rewrite app_length, repeat_length; lia].
  unfold addRecord. destruct (last_n n (repeat None n ++ map pack items)) as [|h r] eqn:E; [|reflexivity].
  exfalso. apply (f_equal (@length _)) in E. rewrite last_n_length, app_length, repeat_length in E. cbn in E. lia.
Qed.
Lemma ring_all {V} n (l : list (Z * option V)) : 0 < n -> forall items, addAll (ringOf n items) l = Some (ringOf n (items ++ real_items l)).
Proof.
  intro Hn. induction l as [|[t [v|]] l IH]; intro items; cbn [addAll real_items].
  - rewrite app_nil_r. reflexivity.
  - rewrite ring_add by exact Hn. rewrite IH, <- app_assoc. reflexivity.
  - cbn [addRecord]. apply IH.
Qed.
Lemma ring_records {V} n (items : list (Z * V)) : getRecords (ringOf n items) = numbered 0 (last_n n items).
Proof.
  unfold getRecords. assert (E : ringOf n items = repeat None (n - length items) ++ map pack (last_n n items)).
  { unfold ringOf, last_n at 1. rewrite app_length, repeat_length, map_length. rewrite skipn_app, repeat_length, skipn_repeat.
    rewrite <- last_n_map. unfold last_n. rewrite map_length. f_equal; f_equal; lia. }
  rewrite E, collect_none. rewrite collect_some; [reflexivity|lia|]. intros k [].
Qed.
Lemma newRecorder_ring V size : newRecorder V size = ringOf (Z.to_nat size) [].
Proof. unfold newRecorder, ringOf. cbn. rewrite app_nil_r, last_n_all; [reflexivity|]. rewrite repeat_length. lia. Qed.

(* ---------------------------------------------------------------- C38 *)
Section Cow.
Context {V : Type}.
Definition ptr_ok (h : list (@amap V)) (p : option nat) : Prop := match p with None => True | Some a => a < length h end.
Lemma deref_app h p x : ptr_ok h p -> deref (h ++ x) p = deref (V := V) h p.
Proof. destruct p as [a|]; cbn; [intro H; apply app_nth1; exact H|reflexivity]. Qed.
Lemma ptr_ok_app h p x : ptr_ok h p -> ptr_ok (h ++ x) p.
Proof. destruct p; cbn; [rewrite app_length; lia|auto]. Qed.

Record cow_rel (s : @cow V) (m : fmap) (pend : list (nat * @wop V)) (rng : list (nat * fmap)) : Prop := {
  r_cur : lists (deref (cHeap s) (cCur s)) m;
  r_ok : ptr_ok (cHeap s) (cCur s);
  r_pend : forall t, aget Nat.eqb pend t = option_map fst (aget Nat.eqb (cPend s) t);
  r_held : forall t op last, aget Nat.eqb (cPend s) t = Some (op, last) -> last = cCur s /\ cLock s = Some t;
  r_swap : forall t n last, aget Nat.eqb (cPend s) t = Some (WSwap n, last) -> NoDup (akeys n);
  r_rng : forall t p, aget Nat.eqb (cRng s) t = Some p -> ptr_ok (cHeap s) p /\ exists m0, aget Nat.eqb rng t = Some m0 /\ lists (deref (cHeap s) p) m0 }.

Lemma publish_rel s m pend rng t op last x o m' :
  cow_rel s m pend rng -> aget Nat.eqb (cPend s) t = Some (op, last) -> publish (cHeap s) last op = (Some x, o) -> lists x m' ->
  cow_rel (mkCow (cHeap s ++ [x]) (Some (length (cHeap s))) (cLock s) (adel Nat.eqb (cPend s) t) (cRng s)) m' (adel Nat.eqb pend t) rng.
Proof.
  intros [R1 R2 R3 R4 R5 R6] Hp Hx Hl. constructor; cbn [cHeap cCur cLock cPend cRng].
  - cbn [deref]. rewrite app_nth2 by lia. rewrite Nat.sub_diag. exact Hl.
  - cbn. rewrite app_length. cbn. lia.
  - intro t'. rewrite !(aget_adel Nat.eqb nat_eqb_spec). destruct (Nat.eqb t' t); [reflexivity|apply R3].
  - intros t' op' last' H. rewrite (aget_adel Nat.eqb nat_eqb_spec) in H. destruct (Nat.eqb_spec t' t) as [|Hne]; [discriminate|].
    destruct (R4 _ _ _ H) as [_ L1]. destruct (R4 _ _ _ Hp) as [_ L2]. congruence.
  - intros t' n last' H. rewrite (aget_adel Nat.eqb nat_eqb_spec) in H. destruct (Nat.eqb t' t); [discriminate|]. apply (R5 _ _ _ H).
  - intros t' p H. destruct (R6 _ _ H) as (P & m0 & Hm & Hm'). split; [apply ptr_ok_app, P|]. exists m0. split; [exact Hm|]. rewrite deref_app by exact P. exact Hm'.
Qed.
Lemma publish_none_rel s m pend rng t :
  cow_rel s m pend rng -> cow_rel (mkCow (cHeap s) (cCur s) (cLock s) (adel Nat.eqb (cPend s) t) (cRng s)) m (adel Nat.eqb pend t) rng.
Proof.
  intros [R1 R2 R3 R4 R5 R6]. constructor; cbn [cHeap cCur cLock cPend cRng]; auto.
  - intro t'. rewrite !(aget_adel Nat.eqb nat_eqb_spec). destruct (Nat.eqb t' t); [reflexivity|apply R3].
  - intros t' op' last' H. rewrite (aget_adel Nat.eqb nat_eqb_spec) in H. destruct (Nat.eqb t' t); [discriminate|]. apply (R4 _ _ _ H).
  - intros t' n last' H. rewrite (aget_adel Nat.eqb nat_eqb_spec) in H. destruct (Nat.eqb t' t); [discriminate|]. apply (R5 _ _ _ H).
Qed.

Lemma lists_set l m k v : lists l m -> lists (aset bs_eqb l k v) (f_set m k v : @fmap V).
Proof. intros [H1 H2]. split; [apply (NoDup_aset bs_eqb bs_eqb_spec), H1|]. intro k'. rewrite (aget_aset bs_eqb bs_eqb_spec). unfold f_set. rewrite H2. reflexivity. Qed.
Lemma lists_del l m k : lists l m -> lists (adel bs_eqb l k) (f_del m k : @fmap V).
Proof. intros [H1 H2]. split; [apply NoDup_adel, H1|]. intro k'. rewrite (aget_adel bs_eqb bs_eqb_spec). unfold f_del. rewrite H2. reflexivity. Qed.
Lemma lists_ext l m m' : lists l m -> (forall k, m k = m' k :> option V) -> lists l m'.
Proof. intros [H1 H2] H. split; [exact H1|]. intro k. rewrite H2. apply H. Qed.

Lemma cow_refines es : forall s m pend rng s' tr, cow_rel s m pend rng -> Forall map_argument es -> cowRun true s es = Some (s', tr) -> explains m pend rng tr.
Proof.
  induction es as [|e es IH]; intros s m pend rng s' tr R Ha E; cbn [cowRun] in E; [injection E as _ <-; exact I|].
  destruct (cowStep true s e) as [[s1 o]|] eqn:E1; [|discriminate E]. destruct (cowRun true s1 es) as [[s2 tr']|] eqn:E2; [|discriminate E]. injection E as _ <-.
  apply Forall_cons_iff in Ha as [Ha Has]. pose proof R as [R1 R2 R3 R4 R5 R6]. destruct e as [t|t|t op|t|t k|t|t|t]; cbn [cowStep] in E1; cbn [explains].
  - destruct (cLock s) as [t'|] eqn:El; [discriminate|]. injection E1 as <- <-. split; [reflexivity|]. refine (IH _ _ _ _ _ _ _ Has E2).
    constructor; cbn [cHeap cCur cLock cPend cRng]; auto. intros t' op last H. destruct (R4 _ _ _ H) as [_ L]. discriminate L.
  - destruct (cLock s) as [t'|] eqn:El; [|discriminate E1]. destruct (Nat.eqb_spec t t') as [<-|]; [|discriminate E1].
    destruct (aget Nat.eqb (cPend s) t) as [|] eqn:Ep; [discriminate E1|]. injection E1 as <- <-. split; [reflexivity|]. refine (IH _ _ _ _ _ _ _ Has E2).
    constructor; cbn [cHeap cCur cLock cPend cRng]; auto. intros t' op last H. destruct (R4 _ _ _ H) as [_ L]. injection L as <-. congruence.
  - destruct (aget Nat.eqb (cPend s) t) as [|] eqn:Ep; [discriminate E1|]. cbn [negb andb] in E1. rewrite orb_false_r in E1.
    destruct (cLock s) as [t'|] eqn:El; [|discriminate E1]. destruct (Nat.eqb_spec t t') as [<-|]; [|discriminate E1]. injection E1 as <- <-.
    split; [reflexivity|]. refine (IH _ _ _ _ _ _ _ Has E2). constructor; cbn [cHeap cCur cLock cPend cRng]; auto.
    + intro t'. rewrite !(aget_aset Nat.eqb nat_eqb_spec). destruct (Nat.eqb t' t); [reflexivity|apply R3].
    + intros t' op' last H. rewrite (aget_aset Nat.eqb nat_eqb_spec) in H. destruct (Nat.eqb_spec t' t) as [->|Hne]; [injection H as _ <-; auto|apply (R4 _ _ _ H)].
    + intros t' n last H. rewrite (aget_aset Nat.eqb nat_eqb_spec) in H. destruct (Nat.eqb_spec t' t) as [->|Hne]; [|apply (R5 _ _ _ H)].
      injection H as -> <-. exact Ha.
  - destruct (aget Nat.eqb (cPend s) t) as [[op last]|] eqn:Ep; [|discriminate E1]. rewrite R3, Ep. cbn [option_map fst].
    destruct (R4 _ _ _ Ep) as [-> _]. destruct R1 as [N1 G1].
    destruct op as [k v|k|n]; cbn [publish] in E1.
    + injection E1 as <- <-. split; [reflexivity|]. refine (IH _ _ _ _ _ _ _ Has E2). eapply publish_rel; [exact R|exact Ep|reflexivity|].
      rewrite copyMap_id by exact N1. apply lists_set. split; assumption.
    + destruct (aget bs_eqb (deref (cHeap s) (cCur s)) k) as [v|] eqn:Eg; injection E1 as <- <-.
      * split; [rewrite <- G1, Eg; reflexivity|]. refine (IH _ _ _ _ _ _ _ Has E2).
        eapply publish_rel; [exact R|exact Ep|cbn [publish]; rewrite Eg; reflexivity|]. rewrite copyWithout_adel by exact N1. apply lists_del. split; assumption.
      * split; [rewrite <- G1, Eg; reflexivity|]. refine (IH _ _ _ _ _ _ _ Has E2).
        pose proof (publish_none_rel s m pend rng t R) as [Q1 Q2 Q3 Q4 Q5 Q6]. constructor; auto. eapply lists_ext; [exact Q1|].
        intro k'. unfold f_del. destruct (bs_eqb k' k) eqn:Ek; [|reflexivity]. apply bs_eqb_spec in Ek. subst k'. rewrite <- G1. exact Eg.
    + injection E1 as <- <-. split; [eexists; split; [reflexivity|split; assumption]|]. refine (IH _ _ _ _ _ _ _ Has E2).
      eapply publish_rel; [exact R|exact Ep|reflexivity|]. split; [apply (R5 _ _ _ Ep)|reflexivity].
  - injection E1 as <- <-. split; [f_equal; apply R1|]. apply (IH _ _ _ _ _ _ R Has E2).
  - injection E1 as <- <-. split; [exists (deref (cHeap s) (cCur s)); split; [exact R1|reflexivity]|]. apply (IH _ _ _ _ _ _ R Has E2).
  - injection E1 as <- <-. split; [reflexivity|]. refine (IH _ _ _ _ _ _ _ Has E2). constructor; cbn [cHeap cCur cLock cPend cRng]; auto.
    intros t' p H. rewrite (aget_aset Nat.eqb nat_eqb_spec) in H. rewrite (aget_aset Nat.eqb nat_eqb_spec). destruct (Nat.eqb t' t); [|apply (R6 _ _ H)]. injection H as <-. split; [exact R2|]. exists m. split; [reflexivity|exact R1].
  - destruct (aget Nat.eqb (cRng s) t) as [p|] eqn:Er; [|discriminate E1]. injection E1 as <- <-.
    destruct (R6 _ _ Er) as (_ & m0 & H1 & H2). split; [exists (deref (cHeap s) p), m0; auto|]. apply (IH _ _ _ _ _ _ R Has E2).
Qed.
Lemma cow_rel_init : cow_rel cowInit (fun _ => None) [] [].
Proof. constructor; cbn; try discriminate; auto. split; [constructor|reflexivity]. Qed.
End Cow.

(* ---------------------------------------------------------------- C39 *)
Definition sw_view (s : swState) (n : bs) : option (bool * list nat) := option_map (fun sw => (swValue sw, swListeners sw)) (aget bs_eqb (swMap s) n).

Lemma flat_map_list_set {A B} (f : A -> list B) (l : list A) i a b x : nth_error l i = Some a -> f a = x :: f b ->
  Permutation (flat_map f l) (x :: flat_map f (list_set l i b)).
Proof.
  revert i. induction l as [|h l IH]; intros [|i] Hn Hf; cbn [nth_error] in Hn; try discriminate.
  - injection Hn as ->. cbn [flat_map list_set]. rewrite Hf. reflexivity.
  - cbn [flat_map list_set]. rewrite (IH i Hn Hf). symmetry. apply Permutation_middle.
Qed.

Record sw_rel (h : list swOp) (s : swState) : Prop := {
  w_view : forall n, sw_view s n = sw_known h n;
  w_empty : aget bs_eqb (swMap s) [] = None;
  w_nodup : NoDup (akeys (swMap s)) }.

Lemma owed_app h1 : forall before h2, owed before (h1 ++ h2) = owed before h1 ++ owed (before ++ h1) h2.
Proof.
  induction h1 as [|o h1 IH]; intros before h2; cbn [app owed]; [rewrite app_nil_r; reflexivity|].
  rewrite IH, <- app_assoc, <- app_assoc. reflexivity.
Qed.
Lemma eqb_refl_bs n : bs_eqb n n = true.
Proof. apply bs_eqb_spec. reflexivity. Qed.
Lemma eqb_sym_bs a b : bs_eqb a b = bs_eqb b a.
Proof.
  destruct (bs_eqb a b) eqn:E1; destruct (bs_eqb b a) eqn:E2; try reflexivity.
  - apply bs_eqb_spec in E1. subst. rewrite eqb_refl_bs in E2. congruence.
  - apply bs_eqb_spec in E2. subst. rewrite eqb_refl_bs in E1. congruence.
Qed.

Lemma sw_step_rel h s o s' : sw_rel h s -> swStep s o = Some s' ->
  sw_rel (h ++ [o]) s' /\ Permutation (swTold s' ++ waiting s') ((swTold s ++ waiting s) ++ owed h [o]).
Proof.
  intros [W1 W2 W3] E.
  assert (VIEW : forall m n v l, aget bs_eqb (aset bs_eqb m n (mkSw v l)) [] = if bs_eqb [] n then Some (mkSw v l) else aget bs_eqb m []) by (intros; apply (aget_aset bs_eqb bs_eqb_spec)).
  assert (KNOWN : forall n, sw_known (h ++ [o]) n = sw_after n (sw_known h n) o) by (intro; unfold sw_known; rewrite fold_left_app; reflexivity).
  destruct o as [n v ls|n v|n ls|i]; cbn [swStep] in E.
  - injection E as <-. cbn [owed]. unfold swRegister. destruct (bs_eqb n []) eqn:En.
    { split; [|rewrite !app_nil_r; reflexivity]. constructor; auto. intro n'. rewrite KNOWN. cbn [sw_after]. rewrite En, andb_false_r. apply W1. }
    destruct (aget bs_eqb (swMap s) n) as [sw|] eqn:Eg.
    { split; [|rewrite !app_nil_r; reflexivity]. constructor; auto. intro n'. rewrite KNOWN. cbn [sw_after]. rewrite En. cbn [negb]. rewrite andb_true_r.
      destruct (bs_eqb n n') eqn:E'; [|apply W1]. apply bs_eqb_spec in E'. subst n'. rewrite <- W1. unfold sw_view. rewrite Eg. reflexivity. }
    split; [|cbn; rewrite !app_nil_r; reflexivity]. constructor; cbn [swMap].
    + intro n'. rewrite KNOWN. cbn [sw_after]. rewrite En. cbn [negb]. rewrite andb_true_r. unfold sw_view. cbn [swMap]. rewrite (aget_aset bs_eqb bs_eqb_spec), eqb_sym_bs.
      destruct (bs_eqb n n') eqn:E'; [|apply W1]. apply bs_eqb_spec in E'. subst n'. rewrite <- W1. unfold sw_view. rewrite Eg. reflexivity.
    + rewrite VIEW, eqb_sym_bs, En. exact W2.
    + apply (NoDup_aset bs_eqb bs_eqb_spec), W3.
  - unfold swSet in E. destruct (aget bs_eqb (swMap s) n) as [sw|] eqn:Eg.
    + rewrite Eg in E. injection E as <-. assert (Ek : sw_known h n = Some (swValue sw, swListeners sw)) by (rewrite <- W1; unfold sw_view; rewrite Eg; reflexivity).
      assert (En : bs_eqb [] n = false) by (destruct (bs_eqb [] n) eqn:En; [apply bs_eqb_spec in En; subst n; congruence|reflexivity]).
      cbn [owed]. rewrite Ek. rewrite app_nil_r. unfold swSetValue.
      assert (Ev : Bool.eqb v (swValue sw) = Bool.eqb (swValue sw) v) by (destruct v, (swValue sw); reflexivity). rewrite Ev.
      destruct (Bool.eqb (swValue sw) v) eqn:Eb.
      * apply Bool.eqb_prop in Eb. split; [|rewrite app_nil_r; reflexivity]. constructor; auto. intro n'. rewrite KNOWN. cbn [sw_after].
        destruct (bs_eqb n n') eqn:E'; [|apply W1]. apply bs_eqb_spec in E'. subst n'. rewrite Ek. rewrite <- Eb. rewrite W1. exact Ek.
      * split.
        -- constructor; cbn [swMap].
           ++ intro n'. rewrite KNOWN. cbn [sw_after]. unfold sw_view. cbn [swMap]. rewrite (aget_aset bs_eqb bs_eqb_spec), eqb_sym_bs.
              destruct (bs_eqb n n') eqn:E'; [|apply W1]. apply bs_eqb_spec in E'. subst n'. rewrite Ek. reflexivity.
           ++ rewrite VIEW, En. exact W2.
           ++ apply (NoDup_aset bs_eqb bs_eqb_spec), W3.
        -- unfold waiting. cbn [swGo swTold]. rewrite flat_map_app. cbn [flat_map fst snd]. rewrite app_nil_r, app_assoc. reflexivity.
    + unfold swRegister in E. destruct (bs_eqb n []) eqn:En; [rewrite Eg in E; discriminate E|]. rewrite Eg in E. cbn [swMap] in E.
      rewrite (aget_aset bs_eqb bs_eqb_spec), eqb_refl_bs in E. injection E as <-. unfold swSetValue. cbn [swValue]. rewrite Bool.eqb_reflx.
      assert (Ek : sw_known h n = None) by (rewrite <- W1; unfold sw_view; rewrite Eg; reflexivity).
      cbn [owed]. rewrite Ek. split; [|cbn; rewrite !app_nil_r; reflexivity]. constructor; cbn [swMap].
      * intro n'. rewrite KNOWN. cbn [sw_after]. unfold sw_view. cbn [swMap]. rewrite (aget_aset bs_eqb bs_eqb_spec), eqb_sym_bs.
        destruct (bs_eqb n n') eqn:E'; [|apply W1]. apply bs_eqb_spec in E'. subst n'. rewrite Ek. reflexivity.
      * rewrite VIEW, eqb_sym_bs, En. exact W2.
      * apply (NoDup_aset bs_eqb bs_eqb_spec), W3.
  - injection E as <-. cbn [owed]. unfold swWatch. destruct (aget bs_eqb (swMap s) n) as [sw|] eqn:Eg.
    + assert (En : bs_eqb [] n = false) by (destruct (bs_eqb [] n) eqn:En; [apply bs_eqb_spec in En; subst n; congruence|reflexivity]).
      split; [|cbn; rewrite !app_nil_r; reflexivity]. constructor; cbn [swMap].
      * intro n'. rewrite KNOWN. cbn [sw_after]. unfold sw_view. cbn [swMap]. rewrite (aget_aset bs_eqb bs_eqb_spec), eqb_sym_bs.
        destruct (bs_eqb n n') eqn:E'; [|apply W1]. apply bs_eqb_spec in E'. subst n'. rewrite <- W1. unfold sw_view. rewrite Eg. reflexivity.
      * rewrite VIEW, En. exact W2.
      * apply (NoDup_aset bs_eqb bs_eqb_spec), W3.
    + split; [|rewrite !app_nil_r; reflexivity]. constructor; auto. intro n'. rewrite KNOWN. cbn [sw_after].
      destruct (bs_eqb n n') eqn:E'; [|apply W1]. apply bs_eqb_spec in E'. subst n'. rewrite <- W1. unfold sw_view. rewrite Eg. reflexivity.
  - injection E as <-. cbn [owed]. rewrite !app_nil_r. unfold swTell.
    assert (G : sw_rel (h ++ [STell i]) s) by (constructor; auto; intro n'; rewrite KNOWN; apply W1).
    destruct (nth_error (swGo s) i) as [[[n v] [|x rest]]|] eqn:En; try (split; [exact G|reflexivity]).
    split; [destruct G; constructor; auto|]. unfold waiting. cbn [swGo swTold]. rewrite <- app_assoc. apply Permutation_app_head. symmetry. cbn [app].
    eapply flat_map_list_set; [exact En|]. reflexivity.
Qed.

Lemma sw_run_rel os : forall h s s', sw_rel h s -> swRun s os = Some s' ->
  sw_rel (h ++ os) s' /\ Permutation (swTold s' ++ waiting s') ((swTold s ++ waiting s) ++ owed h os).
Proof.
  induction os as [|o os IH]; intros h s s' R E; cbn [swRun] in E.
  - injection E as <-. cbn [owed]. rewrite !app_nil_r. split; [exact R|reflexivity].
  - destruct (swStep s o) as [s1|] eqn:E1; [|discriminate E]. destruct (sw_step_rel _ _ _ _ R E1) as [R1 P1]. destruct (IH _ _ _ R1 E) as [R2 P2].
    split; [rewrite <- app_assoc in R2; exact R2|]. rewrite P2, P1. change (o :: os) with ([o] ++ os). rewrite owed_app, <- app_assoc. reflexivity.
Qed.
Lemma sw_rel_init : sw_rel [] swInit.
Proof. constructor; cbn; auto. constructor. Qed.

Lemma sw_run_total os s h : sw_rel h s -> (forall n v, In (SSet n v) os -> n <> []) -> exists s', swRun s os = Some s'.
Proof.
  revert s h. induction os as [|o os IH]; intros s h R H; cbn [swRun]; [eauto|].
  assert (exists s1, swStep s o = Some s1) as [s1 E1].
  { destruct o as [n v ls|n v|n ls|i]; cbn [swStep]; eauto. unfold swSet. destruct (aget bs_eqb (swMap s) n) as [sw|] eqn:Eg; [rewrite Eg; eauto|].
    unfold swRegister. destruct (bs_eqb n []) eqn:En; [apply bs_eqb_spec in En; exfalso; exact (H n v (or_introl eq_refl) En)|]. rewrite Eg. cbn [swMap].
    rewrite (aget_aset bs_eqb bs_eqb_spec), eqb_refl_bs. eauto. }
  rewrite E1. destruct (sw_step_rel _ _ _ _ R E1) as [R1 _]. apply (IH s1 _ R1). intros n v Hin. apply (H n v). right. exact Hin.
Qed.
