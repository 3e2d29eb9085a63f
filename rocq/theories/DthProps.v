(* DthProps.v: C122, what a dead server costs the callers of a cluster. *)
From Verif Require Import Base Strconv UrlModel EpModel LbModel DthModel DthSpec DthProofs.
Open Scope nat_scope.

(* An endpoint on which every call fails is tried at most errorCountThreshold times, and as often again for every heartbeat it answers,
   however many calls are made, whatever the other endpoints do and whatever is drawn at random. *)
Theorem C122_tries : forall thr n i evs counter, i < n -> (0 < thr i)%Z -> always_fails i evs ->
  tries_at i (clusterRun thr evs counter (all_fresh n)) <= Z.to_nat (thr i) * S (beats_of i evs).
Proof. intros. apply tries_le; assumption. Qed.
Print Assumptions C122_tries.

(* With one endpoint that always answers and every other endpoint either always answering or dead, the attempts that are not answered,
   over all the calls ever made, are no more than the thresholds of the dead endpoints together: from then on every attempt is answered. *)
Theorem C122_dead_servers : forall thr n g ds evs counter, g < n -> always_answers g evs ->
  (forall i, In i ds -> i < n /\ (0 < thr i)%Z /\ dead i evs) -> (forall i, i < n -> always_answers i evs \/ In i ds) ->
  unanswered (clusterRun thr evs counter (all_fresh n)) <= sum_of thr ds.
Proof. exact unanswered_le. Qed.
Print Assumptions C122_dead_servers.

(* three endpoints, the second dead with a threshold of two: the bound is reached, the attempts after that are all answered *)
Definition d_thr : nat -> Z := fun _ => 2%Z.
Definition d_good : nat -> bool := fun i => negb (Nat.eqb i 1).
Definition d_evs : list cev := [Attempt 0 0 d_good; Attempt 0 0 d_good; Attempt 0 0 d_good; Attempt 0 0 d_good; Beat 2; Attempt 0 0 d_good; Attempt 0 0 d_good; Attempt 5 2 d_good].
Example C122_example :
  always_answers 0 d_evs /\ always_answers 2 d_evs /\ dead 1 d_evs /\ (forall i, In i [1] -> i < 3 /\ (0 < d_thr i)%Z /\ dead i d_evs) /\
  (forall i, i < 3 -> always_answers i d_evs \/ In i [1]) /\
  clusterRun d_thr d_evs 0 (all_fresh 3) = [(Some 1, false); (Some 2, true); (Some 0, true); (Some 1, false); (Some 2, true); (Some 0, true); (Some 2, true)] /\
  tries_at 1 (clusterRun d_thr d_evs 0 (all_fresh 3)) = 2 /\ sum_of d_thr [1] = 2.
Proof.
  assert (G : forall r1 r2 g, In (Attempt r1 r2 g) d_evs -> g = d_good) by (intros r1 r2 g H; cbn in H; intuition congruence).
  assert (A0 : always_answers 0 d_evs) by (intros r1 r2 g H; rewrite (G _ _ _ H); reflexivity).
  assert (A2 : always_answers 2 d_evs) by (intros r1 r2 g H; rewrite (G _ _ _ H); reflexivity).
  assert (D1 : dead 1 d_evs) by (split; [intros r1 r2 g H; rewrite (G _ _ _ H)|]; reflexivity).
  split; [exact A0|]. split; [exact A2|]. split; [exact D1|]. split; [|split].
  - intros i [<-|[]]. split; [lia|]. split; [reflexivity|exact D1].
  - intros [|[|[|i]]] H; [left; exact A0|right; left; reflexivity|left; exact A2|lia].
  - vm_compute. repeat split.
Qed.
(* an endpoint that fails but answers a heartbeat is tried again *)
Example C122_tries_example :
  let evs := [Attempt 0 0 (fun _ => false); Attempt 0 0 (fun _ => false); Attempt 0 0 (fun _ => false); Beat 0; Attempt 0 0 (fun _ => false)] in
  always_fails 0 evs /\ beats_of 0 evs = 1 /\ clusterRun d_thr evs 7 (all_fresh 1) = [(Some 0, false); (Some 0, false); (None, false); (Some 0, false)].
Proof.
  cbv zeta. split; [|vm_compute; repeat split]. intros r1 r2 g H. cbn in H. decompose [or] H; try contradiction; try discriminate;
    match goal with E : Attempt _ _ _ = Attempt _ _ _ |- _ => injection E as <- <- <-; reflexivity end.
Qed.

(* The endpoints of this cluster are those of C28, taken one call at a time: from any state of an endpoint, an answer, and an error with
   what its goroutine does then, change the counter and the availability as here. *)
Theorem C122_same_endpoint : forall thr s x, eHand s = [] ->
  (exists s', eruns thr s [OOk] = Some s' /\ mkEpc (eCount s') (eAvail s') = afterAttempt thr true (mkEpc (eCount s) (eAvail s))) /\
  (exists later s', eruns thr s (OErr x :: later) = Some s' /\ (later = [] \/ later = [OHand 0; OHand 0; OHand 0]) /\
    (forall h, In h (eHand s') -> h = EEnd) /\ mkEpc (eCount s') (eAvail s') = afterAttempt thr false (mkEpc (eCount s) (eAvail s))).
Proof.
  intros thr s x H. split; [eexists; split; reflexivity|]. unfold afterAttempt. cbn [ecCount ecUp eruns estep].
  destruct (0 <? thr)%Z; [cbv zeta; destruct (thr32 thr <=? w32 (eCount s + 1))%N|].
  - exists [OHand 0; OHand 0; OHand 0]. eexists. rewrite H. split; [reflexivity|]. split; [right; reflexivity|].
    split; [cbn; intros h [<-|[]]; reflexivity|reflexivity].
  - exists []. eexists. split; [reflexivity|]. split; [left; reflexivity|]. split; [cbn; rewrite H; intros h []|reflexivity].
  - exists []. eexists. split; [reflexivity|]. split; [left; reflexivity|]. split; [rewrite H; intros h []|reflexivity].
Qed.
Print Assumptions C122_same_endpoint.
(* and so does a heartbeat answered to the keepalive goroutine of an endpoint that is down *)
Theorem C122_same_heartbeat : forall thr s j i eps, nth_error (eKeep s) j = Some KLoop -> eProfile s = false -> eChans s = true -> eAvail s = false ->
  nth_error eps i = Some (mkEpc (eCount s) (eAvail s)) ->
  exists s', eruns thr s [OBeat j true; OUp j; ORst j] = Some s' /\ nth_error (beat i eps) i = Some (mkEpc (eCount s') (eAvail s')) /\
    forall k, k <> i -> nth_error (beat i eps) k = nth_error eps k.
Proof.
  intros thr s j i eps K P C A E. assert (L : j < length (eKeep s)) by (apply nth_error_Some; congruence).
  cbn [eruns estep]. rewrite K, P, C. cbn [negb]. eexists. split; [|split].
  - unfold setKeep at 1. cbn [eKeep setK]. rewrite list_set_nth_error, Nat.eqb_refl by exact L. cbn [setKeep setK setA eKeep setC].
    rewrite list_set_nth_error by (rewrite list_set_length; exact L). rewrite Nat.eqb_refl. reflexivity.
  - rewrite beat_at, E, Nat.eqb_refl. cbn [ecUp]. rewrite A. reflexivity.
  - intros k N. rewrite beat_at. destruct (nth_error eps k); [|reflexivity]. destruct (Nat.eqb_spec k i); [contradiction|reflexivity].
Qed.
Print Assumptions C122_same_heartbeat.
Example C122_same_example :
  let s := mkEp true 1 false false false 0 true IEnd [] [] in let x := mkExc false 1002 false in
  eHand s = [] /\ afterAttempt 2 false (mkEpc (eCount s) (eAvail s)) = mkEpc 2 false /\
  exists s1, eruns 2 s [OErr x; OHand 0; OHand 0; OHand 0; OKeep 0] = Some s1 /\ nth_error (eKeep s1) 0 = Some KLoop /\ eProfile s1 = false /\
    eChans s1 = true /\ eAvail s1 = false /\ eCount s1 = 2%N.
Proof. vm_compute. split; [reflexivity|]. split; [reflexivity|]. eexists. split; [reflexivity|]. repeat split. Qed.

(* ------------------------------------------------------------ findings *)

(* An answer resets the counter, so an endpoint that fails every second call is never taken down: calls go on failing without bound. *)
Theorem C122_flapping_refuted : forall bound, exists thr evs counter, (0 < thr 0%nat)%Z /\ beats_of 0 evs = 0 /\
  bound <= unanswered (clusterRun thr evs counter (all_fresh 1)).
Proof.
  intro n. exists (fun _ => 2%Z), (times_n n [Attempt 0 0 (fun _ => false); Attempt 0 0 (fun _ => true)]), 0%N.
  split; [reflexivity|]. split; [apply beats_none; reflexivity|apply flap_run].
Qed.
Print Assumptions C122_flapping_refuted.
(* With a threshold of zero or less a dead endpoint is tried without bound. *)
Theorem C122_disabled_refuted : forall thr, (thr 0%nat <= 0)%Z -> forall bound, exists evs counter, dead 0 evs /\
  unanswered (clusterRun thr evs counter (all_fresh 1)) = bound.
Proof.
  intros thr H n. exists (times_n n [Attempt 0 0 (fun _ => false)]), 0%N. split; [split|apply off_run, H].
  - intros r1 r2 g Hg. apply in_times in Hg. destruct Hg as [E|[]]. injection E as <- <- <-. reflexivity.
  - apply beats_none. reflexivity.
Qed.
Print Assumptions C122_disabled_refuted.
(* A server that answers heartbeats while every call to it fails comes back each time: calls go on failing without bound. *)
Theorem C122_heartbeat_refuted : forall bound, exists thr evs counter, (0 < thr 0%nat)%Z /\ always_fails 0 evs /\
  unanswered (clusterRun thr evs counter (all_fresh 1)) = bound.
Proof.
  intro n. exists (fun _ => 1%Z), (times_n n [Attempt 0 0 (fun _ => false); Beat 0]), 0%N. split; [reflexivity|]. split; [|apply beat_run].
  intros r1 r2 g Hg. apply in_times in Hg. destruct Hg as [E|[E|[]]]; [injection E as <- <- <-; reflexivity|discriminate E].
Qed.
Print Assumptions C122_heartbeat_refuted.
