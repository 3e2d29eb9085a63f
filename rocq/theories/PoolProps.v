(* PoolProps.v: the channel pool (C29). *)
From Coq Require Import Lia.
From Verif Require Import Base PoolModel PoolSpec PoolProofs EpProofs EpProofs2.

(* As long as the pool is not being closed, every slot is in the queue or with exactly one Get under way. *)
Theorem C29_slots : forall s0 ops s, preach s0 ops s -> pPtr s = true -> length (pQ s) + countb holds (pGet s) = pCap s.
Proof.
  intros s0 ops s R P. pose proof (reach_pinv s0 ops s R) as I. pose proof (pv_full s I P) as F. unfold slots in F. pose proof (pv_once s I) as O. rewrite P in O. cbn in O.
  assert (C : pQClosed s = false) by (destruct (pQClosed s); [cbn in O; lia|reflexivity]). pose proof (pv_drain s I) as D. rewrite C in *. cbn in D. pose proof (ct_le_drains (pClose s)).
  replace (countb holds (pGet s)) with (countb (wt false) (pGet s)); [lia|]. apply countb_ext_in. intros g Hg. destruct g as [| | |[c|]|c| | |]; try reflexivity.
  apply In_nth_error in Hg. destruct Hg as [i Hi]. exfalso. exact (pv_err s I C i c Hi).
Qed.
Print Assumptions C29_slots.
(* Giving a slot back never blocks. *)
Theorem C29_put_never_blocks : forall s0 ops s i c, preach s0 ops s -> nth_error (pGet s) i = Some (GPut c) -> pstep s (PPut i) <> None.
Proof.
  intros s0 ops s i c R H. pose proof (reach_pinv s0 ops s R) as I. cbn [pstep]. rewrite H. destruct (pQClosed s) eqn:C; [discriminate|].
  destruct (Nat.ltb_spec (length (pQ s)) (pCap s)) as [L|L]; [discriminate|]. pose proof (pv_slots s I) as S. unfold slots in S. rewrite C in S.
  assert (W : wt false (GPut c) = true) by (destruct c; reflexivity). pose proof (countb_pos (wt false) _ _ _ H W). lia.
Qed.
Print Assumptions C29_put_never_blocks.
(* A Get only waits while another Get holds a slot, and that one can take its next action. *)
Theorem C29_waits_for_a_holder : forall s0 ops s i, preach s0 ops s -> pPtr s = true -> nth_error (pGet s) i = Some GRecv -> pstep s (PRecv i) = None ->
  exists j s', (exists g, nth_error (pGet s) j = Some g /\ holds g = true) /\ (pstep s (PMake j true) = Some s' \/ pstep s (PPut j) = Some s').
Proof.
  intros s0 ops s i R P H B. pose proof (reach_pinv s0 ops s R) as I. pose proof (C29_slots s0 ops s R P) as S. cbn [pstep] in B. rewrite H in B.
  destruct (pQ s) as [|[c|] q] eqn:Q; try discriminate B. cbn in S. pose proof (pv_cap s I). destruct (countb_ex holds (pGet s) ltac:(lia)) as (j & g & Hj & W). exists j.
  destruct g as [| | |c|c| | |]; try discriminate W.
  - eexists. split; [exists GMake; split; [exact Hj|reflexivity]|]. left. cbn [pstep]. rewrite Hj, (pv_fac s I P). reflexivity.
  - pose proof (C29_put_never_blocks s0 ops s j c R Hj) as N. destruct (pstep s (PPut j)) as [s'|] eqn:E; [|contradiction]. exists s'. split; [exists (GPut c); split; [exact Hj|reflexivity]|]. right. reflexivity.
Qed.
Print Assumptions C29_waits_for_a_holder.
(* There are never more live channels than the capacity of the pool, not even while it is being closed. *)
Theorem C29_at_most_capacity : forall s0 ops s, preach s0 ops s -> liveChannels s <= pCap s.
Proof. intros s0 ops s R. exact (live_bound s (reach_pinv s0 ops s R)). Qed.
Print Assumptions C29_at_most_capacity.
(* A channel returned by Get was open at some moment during that Get. *)
Theorem C29_returned_channel_was_open : forall s0 ops s i c, preach s0 ops s -> nth_error (pGet s) i = Some (GOk c) ->
  exists p q s1 g1, ops = p ++ q /\ pruns s0 p = Some s1 /\ nth_error (pGet s1) i = Some g1 /\ inProgress g1 = true /\ isOpen s1 c = true.
Proof.
  intros s0 ops s i c ((cap & lz & conns & op & N) & E) H. apply (carries_open s0 ops s i (GOk c) c E); [|exact H|right; right; reflexivity].
  unfold newPool in N. destruct (cap <=? 0)%Z; [discriminate N|]. destruct lz; [injection N as <- _; reflexivity|]. destruct (fillPool (Z.to_nat cap) conns 0) as [b [|]]; [injection N as <- _; reflexivity|discriminate N].
Qed.
Print Assumptions C29_returned_channel_was_open.
(* Get calls started after Close began return an error. *)
Theorem C29_get_after_close_fails : forall s0 p q s s', preach s0 p s -> pPtr s = false -> pruns s (PGet :: q) = Some s' ->
  exists g, nth_error (pGet s') (length (pGet s)) = Some g /\ (g = GRead \/ g = GFail).
Proof.
  intros s0 p q s s' R P E. cbn in E. apply (get_closed _ q s' (length (pGet s)) GRead E); [exact P|apply nth_snoc_end|left; reflexivity].
Qed.
Print Assumptions C29_get_after_close_fails.
(* Once a Close has got through and no Get is under way any more, every channel ever built is closed. *)
Theorem C29_no_leak : forall s0 ops s, preach s0 ops s -> (exists k, nth_error (pClose s) k = Some CDone) ->
  (forall k c, nth_error (pClose s) k = Some c -> c = CDone) -> (forall i g, nth_error (pGet s) i = Some g -> inProgress g = false) ->
  liveChannels s = 0.
Proof.
  intros s0 ops s R (k0 & Hk0) K G. pose proof (reach_pinv s0 ops s R) as I.
  assert (P : pPtr s = false).
  { destruct R as ((cap & lz & conns & op & N) & E). clear K G I. 
    assert (Z : pClose s0 = [] /\ True).
    { split; [|exact Logic.I]. unfold newPool in N. destruct (cap <=? 0)%Z; [discriminate N|]. destruct lz; [injection N as <- _; reflexivity|]. destruct (fillPool (Z.to_nat cap) conns 0) as [b [|]]; [injection N as <- _; reflexivity|discriminate N]. }
    destruct Z as [Z _]. clear N.
    assert (G : forall k c, nth_error (pClose s) k = Some c -> c <> CStart -> pPtr s = false).
    { clear k0 Hk0. revert s E. induction ops as [|o l IH] using rev_ind; intros s E k c H N.
      - injection E as <-. rewrite Z in H. destruct k; discriminate H.
      - apply pruns_snoc in E. destruct E as (s1 & E1 & E2). specialize (IH s1 E1).
        destruct o; cbn [pstep] in E2; destr E2; injection E2 as <-; cbn in H |- *; try exact (IH k c H N); try reflexivity; try congruence;
          try (match goal with X : nth_error (pClose s1) ?j = Some ?y |- _ => apply (IH j y X); discriminate end).
        destruct (nth_snoc_inv _ _ _ _ H) as [[_ X]|[_ X]]; [exact (IH k c X N)|contradiction]. }
    apply (G k0 CDone Hk0). discriminate. }
  pose proof (closed_all s I P) as A. unfold liveChannels. destruct (countb (fun b => b) (pOpen s)) eqn:C; [reflexivity|]. exfalso.
  destruct (countb_ex (fun b => b) (pOpen s) ltac:(lia)) as (i & b & Hi & Hb). cbn in Hb. subst b.
  assert (X : isOpen s i = false).
  { apply A; [intros k c H; left; exact (K k c H)|]. intros j g Hj. specialize (G j g Hj). destruct g; try discriminate G; split; try reflexivity; discriminate. }
  unfold isOpen in X. rewrite (nth_error_nth _ _ _ Hi) in X. discriminate X.
Qed.
Print Assumptions C29_no_leak.
(* The queue is closed at most once: concurrent Closes never close it twice. *)
Theorem C29_closed_once : forall s0 ops s k s', preach s0 ops s -> pstep s (PShut k) = Some s' -> pQClosed s = false.
Proof.
  intros s0 ops s k s' R E. pose proof (pv_once s (reach_pinv s0 ops s R)) as O. cbn in E. destruct (nth_error (pClose s) k) as [[| | | |?|]|] eqn:H; try discriminate E.
  pose proof (countb_pos pre _ _ _ H eq_refl). destruct (pQClosed s); [cbn in O; lia|reflexivity].
Qed.
Print Assumptions C29_closed_once.
(* A healthy pooled channel is handed out as it is: a new connection is only made for an empty slot or a closed channel. *)
Theorem C29_reuses : forall s i c q s', nth_error (pGet s) i = Some GRecv -> pQ s = Some c :: q -> isOpen s c = true -> pstep s (PRecv i) = Some s' ->
  nth_error (pGet s') i = Some (GPut (Some c)).
Proof. intros s i c q s' H Q O E. cbn in E. rewrite H, Q, O in E. injection E as <-. cbn. rewrite (nth_set _ _ _ _ _ H), Nat.eqb_refl. reflexivity. Qed.
Print Assumptions C29_reuses.
(* A panic needs a Close: without one no Get panics. *)
Theorem C29_no_close_no_panic : forall s0 ops s i, preach s0 ops s -> ~ In PClose ops -> nth_error (pGet s) i <> Some GPanic.
Proof.
  intros s0 ops s i ((cap & lz & conns & op & N) & E) NC.
  assert (Z : pClose s0 = [] /\ pGet s0 = [] /\ pFac s0 = true).
  { unfold newPool in N. destruct (cap <=? 0)%Z; [discriminate N|]. destruct lz; [injection N as <- _; repeat split|]. destruct (fillPool (Z.to_nat cap) conns 0) as [b [|]]; [injection N as <- _; repeat split|discriminate N]. }
  clear N. destruct Z as (Z1 & Z2 & Z3).
  assert (G : pClose s = [] /\ pFac s = true /\ forall j, nth_error (pGet s) j <> Some GPanic); [|apply G].
  revert s E. induction ops as [|o l IH] using rev_ind; intros s E.
  - injection E as <-. split; [exact Z1|]. split; [exact Z3|]. rewrite Z2. intros j H. destruct j; discriminate H.
  - apply pruns_snoc in E. destruct E as (s1 & E1 & E2). destruct (IH ltac:(intro X; apply NC, in_or_app; left; exact X) s1 E1) as (A & B & C).
    assert (NL : forall A k, nth_error (@nil A) k = None) by (intros ? k; destruct k; reflexivity).
    assert (S : forall v j g0, nth_error (pGet s1) j = Some g0 -> v <> GPanic -> forall k, nth_error (list_set (pGet s1) j v) k <> Some GPanic).
    { intros v j g0 Hj V k Hk. rewrite (nth_set _ _ _ _ _ Hj) in Hk. destruct (Nat.eqb k j); [congruence|exact (C k Hk)]. }
    destruct o; cbn [pstep] in E2; try (rewrite A, NL in E2; discriminate E2).
    + injection E2 as <-. split; [exact A|]. split; [exact B|]. intros j H. cbn in H. destruct (nth_snoc_inv _ _ _ _ H) as [[_ X]|[_ X]]; [exact (C j X)|discriminate X].
    + exfalso. apply NC. apply in_or_app. right. left. reflexivity.
    + destr E2; injection E2 as <-; (split; [exact A|split; [exact B|]]). cbn. apply (S _ _ _ E). destruct (pPtr s1); discriminate.
    + destr E2; injection E2 as <-; (split; [exact A|split; [exact B|]]); cbn; apply (S _ _ _ E); try discriminate. destruct (isOpen s1 n); discriminate.
    + rewrite B in E2. destr E2; injection E2 as <-; (split; [exact A|split; [exact B|]]); cbn; apply (S _ _ _ E); discriminate.
    + destr E2; injection E2 as <-; (split; [exact A|split; [exact B|]]); cbn; apply (S _ _ _ E); destruct c; discriminate.
    + destr E2; injection E2 as <-; (split; [exact A|split; [exact B|]]); cbn; apply (S _ _ _ E); discriminate.
    + destr E2; injection E2 as <-; (split; [exact A|split; [exact B|]]); exact C.
Qed.
Print Assumptions C29_no_close_no_panic.
(* Building: a lazy pool makes no connection; another one makes exactly as many as its capacity, or none survives. *)
Theorem C29_new : forall cap conns,
  ((cap <= 0)%Z -> forall lz, newPool cap lz conns = (None, [])) /\
  ((0 < cap)%Z -> (exists s, newPool cap true conns = (Some s, []) /\ length (pQ s) = Z.to_nat cap /\ liveChannels s = 0) /\
    (forallb (fun b => b) (firstn (Z.to_nat cap) conns) = true /\ Z.to_nat cap <= length conns ->
       exists s op, newPool cap false conns = (Some s, op) /\ length (pQ s) = Z.to_nat cap /\ liveChannels s = Z.to_nat cap) /\
    (~ (forallb (fun b => b) (firstn (Z.to_nat cap) conns) = true /\ Z.to_nat cap <= length conns) ->
       exists op, newPool cap false conns = (None, op) /\ countb (fun b => b) op = 0)).
Proof.
  intros cap conns. split.
  - intros L lz. unfold newPool. destruct (Z.leb_spec cap 0); [reflexivity|lia].
  - intro L. unfold newPool. destruct (Z.leb_spec cap 0); [lia|]. split; [|split].
    + eexists. split; [reflexivity|]. cbn. rewrite repeat_length. split; reflexivity.
    + intros (F & B). rewrite fillPool_spec, F. rewrite (proj2 (Nat.leb_le _ _) B). cbn [andb]. eexists. eexists. split; [reflexivity|]. split; [cbn; rewrite map_length, seq_length; reflexivity|apply countb_repeat_true].
    + intro F. rewrite fillPool_spec. destruct (forallb (fun x => x) (firstn (Z.to_nat cap) conns)) eqn:F1, (Nat.leb_spec (Z.to_nat cap) (length conns)) as [F2|F2]; cbn [andb];
      try (exfalso; apply F; split; [reflexivity|exact F2]); (eexists; split; [reflexivity|]); generalize (fst (fillPool (Z.to_nat cap) conns 0)) as n; intro n; induction n as [|n IH]; try reflexivity; cbn [repeat]; rewrite countb_cons, IH; reflexivity.
Qed.
Print Assumptions C29_new.

Definition pool2 : pool := mkPool 2 [Some 0; Some 1] false true true false [true; true] [] [].
Definition life_ops : list pop := [PGet; PGet; PRead 0; PRead 1; PRecv 0; PBreak 1; PRecv 1; PPut 0; PMake 1 true; PPut 1;
  PClose; PNil 0; PFac 0; PShut 0; PDrain 0; PShutOne 0; PDrain 0; PShutOne 0; PDrain 0].
Example C29_example : exists s, preach pool2 life_ops s /\ nth_error (pGet s) 0 = Some (GOk 0) /\ nth_error (pGet s) 1 = Some (GOk 2) /\ liveChannels s = 0 /\ nth_error (pClose s) 0 = Some CDone.
Proof.
  eexists. split; [split|].
  - exists 2%Z, false, [true; true], [true; true]. reflexivity.
  - vm_compute. reflexivity.
  - vm_compute. repeat split.
Qed.
Example C29_example_waiting : exists s, preach (mkPool 1 [None] false true true false [] [] []) [PGet; PGet; PRead 0; PRead 1; PRecv 0] s /\ pstep s (PRecv 1) = None /\ pPtr s = true.
Proof.
  eexists. split; [split|].
  - exists 1%Z, true, [], []. reflexivity.
  - vm_compute. reflexivity.
  - vm_compute. repeat split.
Qed.
(* A Get racing with Close may call the factory after it was set to nil: it panics. *)
Theorem C29_panic_refuted : ~ (forall s0 ops s i, preach s0 ops s -> nth_error (pGet s) i <> Some GPanic).
Proof.
  intro H. destruct (pruns (mkPool 1 [None] false true true false [] [] []) [PGet; PRead 0; PRecv 0; PClose; PNil 0; PFac 0; PMake 0 true]) as [s|] eqn:E; [|vm_compute in E; discriminate E].
  specialize (H (mkPool 1 [None] false true true false [] [] []) [PGet; PRead 0; PRecv 0; PClose; PNil 0; PFac 0; PMake 0 true] s 0).
  apply H; [split; [exists 1%Z, true, [], []; reflexivity|exact E]|]. vm_compute in E. injection E as <-. reflexivity.
Qed.
Print Assumptions C29_panic_refuted.
(* And a Get that overlaps with Close may return a channel that is already closed, without an error. *)
Theorem C29_closed_returned_refuted : ~ (forall s0 ops s s' i c, preach s0 ops s -> ~ In (PBreak c) ops -> pstep s (PErr i) = Some s' \/ pstep s (PPut i) = Some s' -> nth_error (pGet s') i = Some (GOk c) -> isOpen s' c = true).
Proof.
  intro H. pose (o := [PGet; PRead 0; PRecv 0; PClose; PNil 0; PFac 0; PShut 0; PPut 0]).
  destruct (pruns (mkPool 1 [Some 0] false true true false [true] [] []) o) as [s|] eqn:E; [|vm_compute in E; discriminate E].
  specialize (H (mkPool 1 [Some 0] false true true false [true] [] []) o s). vm_compute in E. injection E as <-.
  assert (X : isOpen (mkPool 1 [] true false false false [false] [GOk 0] [CDrain]) 0 = true).
  { apply (H _ 0 0); [split; [exists 1%Z, false, [true], [true]; reflexivity|reflexivity]| |left; reflexivity|reflexivity]. cbn. intros [X|[X|[X|[X|[X|[X|[X|[X|[]]]]]]]]]; discriminate X. }
  discriminate X.
Qed.
Print Assumptions C29_closed_returned_refuted.
