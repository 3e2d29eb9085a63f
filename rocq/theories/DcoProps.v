(* DcoProps.v: C123, what a dead server costs callers that make their calls at the same time. *)
From Verif Require Import Base Strconv UrlModel EpModel LbModel DthModel DthSpec DcoModel DcoSpec DcoProofs.
Open Scope nat_scope.

(* With round robin or random selection and W callers at once: an endpoint on which every call fails is selected at most W - 1 times more than its threshold, and as often again
   for every heartbeat it answers, however attempts begin and end. *)
Theorem C123_tries : forall lb W thr n i evs counter, 0 < W -> i < n -> (0 < thr i)%Z -> ends_badly i evs ->
  began_at i (oRun lb W thr evs (idle_cluster n counter)) <= (Z.to_nat (thr i) + (W - 1)) * S (heartbeats i evs).
Proof. intros. apply began_le; assumption. Qed.
Print Assumptions C123_tries.

(* With one endpoint that always answers, whatever the others do, the attempts that find no endpoint or one of the dead ones are bounded
   over all the calls ever made. *)
Theorem C123_dead_servers : forall lb W thr n g ds evs counter, 0 < W -> g < n -> ends_well g evs ->
  (forall i, In i ds -> i < n /\ (0 < thr i)%Z /\ dead_server i evs) ->
  wasted ds (oRun lb W thr evs (idle_cluster n counter)) <= sum_with W thr ds.
Proof. exact wasted_le. Qed.
Print Assumptions C123_dead_servers.

(* two callers, a dead endpoint with a threshold of two: it is selected three times, and never again *)
Definition o_thr : nat -> Z := fun _ => 2%Z.
Definition o_good : nat -> bool := fun i => Nat.eqb i 0.
Definition o_evs : list oev := [Start 0 0; Start 0 0; Finish 0 o_good; Start 0 0; Finish 0 o_good; Start 0 0; Finish 0 o_good; Start 0 0;
  Start 0 0; Finish 1 o_good; Finish 0 o_good; Start 1 1; Finish 0 o_good; Start 1 1; Start 3 1].
Example C123_example :
  ends_well 0 o_evs /\ (forall i, In i [1] -> i < 2 /\ (0 < o_thr i)%Z /\ dead_server i o_evs) /\
  oRun ByRoundRobin 2 o_thr o_evs (idle_cluster 2 0) = [Some 1; Some 0; Some 1; Some 0; Some 1; Some 0; Some 0; Some 0] /\
  wasted [1] (oRun ByRoundRobin 2 o_thr o_evs (idle_cluster 2 0)) = 3 /\ sum_with 2 o_thr [1] = 3.
Proof.
  assert (G : forall k g, In (Finish k g) o_evs -> g = o_good) by (intros k g H; cbn in H; intuition congruence).
  split; [intros k g H; rewrite (G _ _ H); reflexivity|]. split; [|vm_compute; repeat split].
  intros i [<-|[]]. split; [lia|]. split; [reflexivity|]. split; [intros k g H; rewrite (G _ _ H); reflexivity|reflexivity].
Qed.
Example C123_random_example :
  oRun ByRandom 2 o_thr [Start 1 0; Start 3 0; Start 0 0; Finish 0 o_good; Start 5 0; Finish 1 o_good; Start 1 1; Finish 1 o_good; Start 1 0] (idle_cluster 2 0) =
    [Some 1; Some 1; Some 1; Some 0; Some 0].
Proof. vm_compute. reflexivity. Qed.
(* it answers a heartbeat: tried again *)
Example C123_tries_example :
  let evs := [Start 0 0; Finish 0 (fun _ => false); Start 0 0; Finish 0 (fun _ => false); Start 0 0; OBeatOk 0; Start 0 0] in
  ends_badly 0 evs /\ heartbeats 0 evs = 1 /\ oRun ByRoundRobin 1 o_thr evs (idle_cluster 1 5) = [Some 0; Some 0; None; Some 0].
Proof.
  cbv zeta. split; [|vm_compute; repeat split]. intros k g H. cbn in H. decompose [or] H; try contradiction; try discriminate;
    match goal with E : Finish _ _ = Finish _ _ |- _ => injection E as <- <-; reflexivity end.
Qed.

(* ------------------------------------------------------------ finding *)

(* The threshold alone is no bound: calls begun while an endpoint has not yet failed all go to it, even with a threshold of one. *)
Theorem C123_overlap_refuted : forall lb bound, exists W evs counter, dead_server 0 evs /\
  began_at 0 (oRun lb W (fun _ => 1%Z) evs (idle_cluster 1 counter)) = bound.
Proof.
  intros lb n. exists n, (repeat (Start 0 0) n), 0%N. split; [split|apply starts; cbn; lia].
  - intros k g H. apply repeat_spec in H. discriminate H.
  - unfold heartbeats. induction n as [|n IH]; [reflexivity|exact IH].
Qed.
Print Assumptions C123_overlap_refuted.
