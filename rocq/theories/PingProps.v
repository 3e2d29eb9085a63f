(* PingProps.v *)
From Coq Require Import Lia.
From Verif Require Import Base PingModel PingSpec PingProofs.

(* the times kept are those of the answers with the id of this pinger, in the order they came, of all packets looked at so far; never more
   requests are sent nor more answers counted than asked for, and the loop is left when there are enough *)
Theorem C100_results : forall count id s, reached count id s -> exists done rest, p_read s = done ++ rest /\ p_got s = Z.of_nat (length (mine id done)) /\ p_rtts s = times (mine id done) /\
  length rest <= 6 /\ (0 < count -> 0 <= p_sent s <= count /\ p_got s <= count /\ (p_main s = MLoop -> p_got s < count))%Z.
Proof. exact results. Qed.
Print Assumptions C100_results.
(* when the loop has been left the receiving goroutine takes at most three more steps, can go on unless it stands before a full channel,
   and Ping returns when it is gone *)
Theorem C100_leave : forall count id s, reached count id s -> p_panic s = false -> p_main s <> MLoop ->
  (forall os s', forallb recv_op os = true -> pingrun s os = Some s' -> length os <= 3) /\
  (p_recv s <> RGone -> (forall p, p_recv s = RSending p -> length (p_ch s) < 5) -> exists o, recv_op o = true /\ pingstep s o <> None) /\
  (p_main s = MWait -> p_recv s = RGone -> exists s', pingstep s PReturn = Some s' /\ p_main s' = MDone).
Proof. exact leave. Qed.
Print Assumptions C100_leave.
(* which it does not while at most five packets have been read *)
Theorem C100_few : forall count id s p, reached count id s -> length (p_read s) <= 5 -> p_recv s = RSending p -> length (p_ch s) < 5.
Proof. exact few. Qed.
Print Assumptions C100_few.

(* with more packets, from others too, Ping can wait for ever: no step is possible *)
Definition stuckOps : list pop := flat_map (fun _ => [PCheck; PGet POther; PPush]) [1; 2; 3; 4; 5] ++ [PCheck; PGet POther; PTimeout].
Theorem C100_stuck_refuted : exists s, reached 5 77 s /\ p_panic s = false /\ p_main s = MWait /\ forall o, pingstep s o = None.
Proof.
  destruct (pingrun (pinginit 5 77 true) stuckOps) as [s|] eqn:E; [|vm_compute in E; discriminate].
  exists s. split; [exists true, stuckOps; exact E|]. vm_compute in E. injection E as <-. split; [reflexivity|]. split; [reflexivity|].
  intros o. destruct o; try reflexivity.
Qed.
Print Assumptions C100_stuck_refuted.
(* and a failing read at the time of the timeout closes the channel a second time, which panics *)
Theorem C100_close_twice_refuted : exists s, reached 5 77 s /\ p_panic s = true.
Proof.
  destruct (pingrun (pinginit 5 77 true) [PCheck; PFail; PTimeout]) as [s|] eqn:E; [|vm_compute in E; discriminate].
  exists s. split; [exists true, [PCheck; PFail; PTimeout]; exact E|]. vm_compute in E. injection E as <-. reflexivity.
Qed.
Print Assumptions C100_close_twice_refuted.

Definition exPing : list pop :=
  [PTick true; PCheck; PGet (PEcho 77 (Some 120%Z)); PPush; PTick true; PCheck; PTake; PGet (PEcho 12 (Some 5%Z)); PPush; PCheck; PGet (PEcho 77 None); PPush; PTake; PTick true;
   PCheck; PTake; PGet (PEcho 77 (Some 90%Z)); PPush; PTake].
Example C100_example : exists s, pingrun (pinginit 3 77 true) exPing = Some s /\ reached 3 77 s /\ p_panic s = false /\ p_main s = MWait /\ p_sent s = 3%Z /\ p_got s = 3%Z /\ p_rtts s = [120; 90]%Z
  /\ length (p_read s) = 4.
Proof.
  destruct (pingrun (pinginit 3 77 true) exPing) as [s|] eqn:E; [|vm_compute in E; discriminate].
  exists s. split; [reflexivity|]. split; [exists true, exPing; exact E|]. vm_compute in E. injection E as <-. repeat split.
Qed.
