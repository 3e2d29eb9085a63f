(* LsnProps.v: the theorems of C118. *)
From Coq Require Import Sorted.
From Verif Require Import Base GoStrings GoStrings2 LsnModel LsnSpec LsnProofs.

(* A server that is open goes on accepting whatever errors it met before: its loop has not ended, and the connection that waits longest is
   accepted within two of the loop's own steps. *)
Theorem C118_keeps_accepting : forall s k, lreach s -> isListening s k ->
  ~ loop_over s k /\
  forall c r, v_pend (p_srv s k) = c :: r ->
    exists os s', lruns s os = Some s' /\ forallb (own_step k) os = true /\ length os <= 2 /\ p_conns s' k = p_conns s k ++ [c] /\ p_phase s' c = Spawned.
Proof. exact keeps_running. Qed.
Print Assumptions C118_keeps_accepting.

(* Connections are accepted in the order in which they were established, and each at most once. *)
Theorem C118_in_order : forall s k, lreach s -> StronglySorted lt (p_conns s k ++ v_pend (p_srv s k)).
Proof. exact in_order. Qed.
Print Assumptions C118_in_order.

(* Destroy does not block, however often it is called. *)
Theorem C118_destroy_returns : forall s k, lreach s ->
  (v_lis (p_srv s k) = Listening -> exists s', lstep s (LDestroy k) = Some s' /\ v_lis (p_srv s' k) = Shut) /\
  (v_lis (p_srv s k) = Shut -> lstep s (LDestroy k) = Some s) /\
  (v_closing (p_srv s k) <> 0 -> exists s', lstep s (LSignal k) = Some s' /\ destroyed s' k).
Proof.
  intros s k H. split; [|split].
  - intro E. cbn [lstep]. rewrite E. eexists. split; [reflexivity|]. cbn [setSrv p_srv]. rewrite upd_eq. reflexivity.
  - intro E. cbn [lstep]. rewrite E. reflexivity.
  - exact (signal_goes s k H).
Qed.
Print Assumptions C118_destroy_returns.

(* Once Destroy has returned the loop takes at most two more steps, can always take the next, and has then returned. *)
Theorem C118_stops : forall s k os s', lreach s -> destroyed s k -> lruns s os = Some s' ->
  length (filter (own_step k) os) <= 2 /\ (loop_over s' k \/ exists o s'', own_step k o = true /\ lstep s' o = Some s'').
Proof. exact stops. Qed.
Print Assumptions C118_stops.

(* From the moment the listener is closed nothing more is accepted. *)
Theorem C118_nothing_after : forall s k os s', v_lis (p_srv s k) = Shut -> lruns s os = Some s' -> p_conns s' k = p_conns s k.
Proof. intros s k os s' H R. exact (proj2 (shut_runs os s s' k H R)). Qed.
Print Assumptions C118_nothing_after.

(* An accepted connection is left alone by everything but its own goroutine, also by Destroy: calls in flight are still answered. *)
Theorem C118_left_alone : forall s o s' k c, lreach s -> In c (p_conns s k) -> lstep s o = Some s' -> o <> LStart c -> o <> LFinish c ->
  p_phase s' c = p_phase s c /\ In c (p_conns s' k).
Proof. exact left_alone. Qed.
Print Assumptions C118_left_alone.

(* The number of connections reported is at any time the number of those being handled, of all servers of the process. *)
Theorem C118_count : forall s, lreach s -> p_count s = Z.of_nat (length (handled s)) /\ (forall c, p_phase s c = Handling <-> In c (handled s)).
Proof. exact counted. Qed.
Print Assumptions C118_count.

(* The host of a request over a connection that is not TCP: what is before the colon of its address, or all of it if there is none or nothing is before it. *)
Theorem C118_remote_ip : (forall host port, host <> [] -> ~ In x3a host -> getRemoteIP (host ++ x3a :: port) = host) /\
  (forall a, ~ In x3a a -> getRemoteIP a = a) /\ (forall port, getRemoteIP (x3a :: port) = x3a :: port).
Proof. split; [exact remote_ip|]. split; [exact remote_ip_whole|]. intros []; reflexivity. Qed.
Print Assumptions C118_remote_ip.

(* Refuted: errors are not logged a bounded number of times.  Between the two steps of Destroy, and while Accept keeps failing, the loop
   goes round without waiting. *)
Theorem C118_logged_refuted : forall n, exists s k os s',
  lreach s /\ v_lis (p_srv s k) = Shut /\ v_logged (p_srv s k) = 0 /\ forallb (own_step k) os = true /\ lruns s os = Some s' /\ v_logged (p_srv s' k) = n.
Proof.
  intro n. destruct (lruns proc0 [LOpen 3; LDestroy 3]) as [s|] eqn:E; [|discriminate E].
  assert (Hs : v_loop (p_srv s 3) = AtAccept /\ v_tok (p_srv s 3) = 0 /\ v_lis (p_srv s 3) = Shut /\ v_logged (p_srv s 3) = 0) by (injection E as <-; cbn; auto).
  destruct Hs as (H1 & H2 & H3 & H4). destruct (spins_more n s 3 H1 H2) as (os & s' & Q1 & Q2 & Q3 & Q4); [congruence|].
  exists s, 3, os, s'. split; [exists [LOpen 3; LDestroy 3]; exact E|]. split; [exact H3|]. split; [exact H4|]. split; [exact Q1|]. split; [exact Q2|]. rewrite Q3, H4. lia.
Qed.
Print Assumptions C118_logged_refuted.
(* Refuted: the host of an IPv6 address, were it not TCP, would be a bracket. *)
Theorem C118_ipv6_refuted : getRemoteIP (s2b "[::1]:80") = s2b "[".
Proof. reflexivity. Qed.
Print Assumptions C118_ipv6_refuted.

(* Two servers, three connections, an accept error, and one server destroyed twice while a connection is being handled. *)
Definition l_ops : list lop :=
  [LOpen 0; LOpen 1; LDial 0; LDial 1; LDial 0; LAcceptErr 0; LSelect 0; LAcceptOk 0; LAcceptOk 1; LStart 0; LStart 1; LDestroy 0; LAcceptErr 0; LSelect 0; LDestroy 0; LSignal 0].
Definition l_seen (s : proc) :=
  (v_loop (p_srv s 0), v_loop (p_srv s 1), (p_conns s 0, p_conns s 1), v_logged (p_srv s 0), v_closing (p_srv s 0), map (p_phase s) [0; 1; 2], p_count s).
Example C118_example :
  option_map l_seen (lruns proc0 l_ops) = Some (AtAccept, AtAccept, ([0], [1]), 2, 0, [Handling; Handling; Ended], 2%Z) /\
  option_map l_seen (lruns proc0 (l_ops ++ [LAcceptErr 0; LSelect 0; LFinish 0])) = Some (Returned, AtAccept, ([0], [1]), 2, 0, [Ended; Handling; Ended], 1%Z) /\
  lruns proc0 (l_ops ++ [LDial 0]) = None /\ lruns proc0 (l_ops ++ [LAcceptOk 0]) = None /\
  option_map (fun s => v_pend (p_srv s 0)) (lruns proc0 (firstn 5 l_ops)) = Some [0; 2].
Proof. vm_compute. repeat split. Qed.
