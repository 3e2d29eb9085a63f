(* CountProps.v: C43, counts across snapshots. *)
From Verif Require Import Base UrlModel MetricModel CountModel CountSpec CountProofs.
Open Scope Z_scope.

(* Whatever the callers, the processors and the reporters do in whatever order: of everything that was sent for a key, each
   event is in the registry of exactly one snapshot, in the live registry, waiting, being processed, or was refused because
   the bus was full. *)
Theorem C43_conserved : forall k item key cap os s,
  k <> KGauge -> mruns cap minit os = Some s -> only k item key (mSent s) ->
  same64 (added k item key (mSent s))
         (collected s item key + liveCount s item key + added k item key (mBus s) + added k item key (in_flight s) + added k item key (mDropped s)).
Proof. exact @conserved. Qed.
Print Assumptions C43_conserved.

(* Once nobody who loaded the registry before the snapshot is still at work, the snapshot never changes again. *)
Theorem C43_settled : forall cap os s os' s' r,
  mruns cap minit os = Some s -> snapshot_of s r -> settled s r -> mruns cap s os' = Some s' -> regOf s' r = regOf s r.
Proof.
  intros cap os s os' s' r H SN ST H'. exact (@settled_runs cap os' s s' r (@part_runs cap os _ _ part_init H) SN ST H').
Qed.
Print Assumptions C43_settled.

(* If the reporter looks at snapshots only then, the reports add up: every event is reported once, or is still to be. *)
Theorem C43_reported : forall k item key cap os s,
  k <> KGauge -> careful cap minit os s -> only k item key (mSent s) ->
  same64 (added k item key (mSent s))
         (reported s item key + liveCount s item key + added k item key (mBus s) + added k item key (in_flight s) + added k item key (mDropped s)).
Proof. exact @all_reported. Qed.
Print Assumptions C43_reported.

Theorem C43_quiet : forall k item key cap os s,
  k <> KGauge -> careful cap minit os s -> only k item key (mSent s) -> mBus s = [] -> in_flight s = [] -> mDropped s = [] ->
  same64 (added k item key (mSent s)) (reported s item key + liveCount s item key).
Proof.
  intros k I K cap os s NG H ON B F D. pose proof (@all_reported k I K cap os s NG H ON) as X. rewrite B, F, D in X.
  destruct X as [q X]. exists q. unfold added in X at 2 3 4. cbn [map] in X. change (total []) with 0 in X. lia.
Qed.
Print Assumptions C43_quiet.

(* What a snapshot has once answered for a key, it answers for ever. *)
Theorem C43_stable_answer : forall cap s o s' i r c key x,
  mstep cap s o = Some s' -> nth_error (mSnaps s) i = Some (r, c) -> aget bs_eqb c key = Some x ->
  exists c', nth_error (mSnaps s') i = Some (r, c') /\ aget bs_eqb c' key = Some x.
Proof. exact @cached_stays. Qed.
Print Assumptions C43_stable_answer.

(* two callers, a snapshot between, a second one after: 3 + 4 are reported as 3 and 4 *)
Definition ex_i := s2b "motan-client:item".
Definition ex_k := s2b "req.total_count".
Definition ex_e (z : Z) := mkMev KCounter ex_i ex_k z.
Definition ex_run : list mop :=
  [OSend (ex_e 3); OSend (ex_e 4); OTake; OTake;
   OStep 0; OStep 1; OStep 0; OStep 1; OStep 0; OStep 0; OStep 0; OStep 0; OStep 0;
   OSnap ex_i; OStep 1; OStep 1; OStep 1; OStep 1; OStep 1; ORead 0 ex_k; OSnap ex_i; ORead 1 ex_k]%nat.
Definition ex_final : mst :=
  mkMst [] [(ex_i, 2%nat)] [(ex_i, [(ex_k, EC 3)]); (ex_i, [(ex_k, EC 4)]); (ex_i, [])]
        [mkJob (ex_e 3) PDone; mkJob (ex_e 4) PDone] [(0%nat, [(ex_k, EC 3)]); (1%nat, [(ex_k, EC 4)])] [ex_e 3; ex_e 4] [] [].
Example C43_nonvacuous :
  careful 10 minit ex_run ex_final /\ only KCounter ex_i ex_k (mSent ex_final) /\ snapshot_of ex_final 0 /\ settled ex_final 0 /\
  added KCounter ex_i ex_k (mSent ex_final) = 7 /\ reported ex_final ex_i ex_k = 7.
Proof.
  assert (S : forall s r, forallb (fun j => match jPc j with PReg r' | PReg2 r' | PObj r' => negb (Nat.eqb r' r) | _ => true end) (mJobs s) = true -> settled s r).
  { intros s r H j X Y. rewrite forallb_forall in H. specialize (H _ X). unfold holds in Y.
    destruct (jPc j); try contradiction; subst; rewrite Nat.eqb_refl in H; discriminate H. }
  split; [|split; [|split; [|split; [|split]]]].
  - unfold ex_run.
    repeat (eapply cf_cons; [vm_compute; reflexivity| |]);
      try (intros i key r c H; discriminate H);
      try (intros i key r c H X; injection H as <- _; cbn in X; injection X as <- _; apply S; vm_compute; reflexivity).
    apply cf_nil.
  - intros e [<-|[<-|[]]] _ _; reflexivity.
  - eexists. left. reflexivity.
  - apply S. reflexivity.
  - vm_compute. reflexivity.
  - vm_compute. reflexivity.
Qed.

(* FINDING: SnapshotAndClear swaps the registry and the reporter may read it while an adder that loaded it before is still
   between the lookup and the Inc.  The snapshot keeps the copy it took, so the event is in no report, ever. *)
Theorem C43_lost_refuted :
  exists os s, mruns 10 minit os = Some s /\ added KCounter ex_i ex_k (mSent s) = 4 /\
    mBus s = [] /\ in_flight s = [] /\ mDropped s = [] /\ mPanicked s = [] /\ reported s ex_i ex_k + liveCount s ex_i ex_k = 0.
Proof.
  exists [OSend (ex_e 4); OTake; OStep 0; OStep 0; OStep 0; OStep 0; OStep 0; OStep 0; OSnap ex_i; ORead 0 ex_k; OStep 0]%nat.
  eexists. split; [vm_compute; reflexivity|]. repeat split.
Qed.
Print Assumptions C43_lost_refuted.

(* FINDING: events are dropped without a trace when the bus is full. *)
Theorem C43_full_bus_refuted : forall cap, exists os s, mruns cap minit os = Some s /\ length (mSent s) = S cap /\ length (mDropped s) = 1%nat.
Proof.
  intro cap.
  assert (G : forall n s, (length (mBus s) + n = cap)%nat -> exists s', mruns cap s (repeat (OSend (ex_e 1)) n) = Some s' /\
     length (mBus s') = cap /\ length (mSent s') = (length (mSent s) + n)%nat /\ mDropped s' = mDropped s).
  { induction n as [|n IH]; intros s E; cbn [repeat mruns].
    - exists s. split; [reflexivity|]. split; [lia|]. split; [lia|reflexivity].
    - cbn [mstep]. assert (L : Nat.ltb (length (mBus s)) cap = true) by (apply Nat.ltb_lt; lia). rewrite L.
      edestruct IH as [s' [A [B [C D]]]]; [|exists s'; split; [exact A|split; [exact B|split; [rewrite C|exact D]]]];
        cbn [mBus mSent]; rewrite app_length; cbn [length]; lia. }
  destruct (G cap minit) as [s [A [B [C D]]]]; [cbn; lia|].
  exists (repeat (OSend (ex_e 1)) cap ++ [OSend (ex_e 1)]). eexists. split.
  - assert (R : forall a b s s1, mruns cap s a = Some s1 -> mruns cap s (a ++ b) = mruns cap s1 b).
    { induction a as [|o a IH]; intros b s0 s1 H; cbn [app mruns] in *; [injection H as ->; reflexivity|].
      destruct (mstep cap s0 o); [exact (IH _ _ _ H)|discriminate H]. }
    rewrite (R _ _ _ _ A). cbn [mruns mstep]. rewrite B, Nat.ltb_irrefl. reflexivity.
  - cbn [mSent mDropped]. rewrite !app_length, C, D. cbn. split; lia.
Qed.
Print Assumptions C43_full_bus_refuted.

(* FINDING: a key first used as a gauge refuses every counter event of the same name: processEvent panics and the event is gone. *)
Theorem C43_kind_clash_refuted :
  exists os s, mruns 10 minit os = Some s /\ mPanicked s = [ex_e 4] /\ in_flight s = [] /\ mDropped s = [] /\ liveCount s ex_i ex_k = 0.
Proof.
  exists [OSend (mkMev KGauge ex_i ex_k 1); OTake; OStep 0; OStep 0; OStep 0; OStep 0; OStep 0; OStep 0; OStep 0;
          OSend (ex_e 4); OTake; OStep 1; OStep 1; OStep 1; OStep 1]%nat.
  eexists. split; [vm_compute; reflexivity|]. repeat split.
Qed.
Print Assumptions C43_kind_clash_refuted.
