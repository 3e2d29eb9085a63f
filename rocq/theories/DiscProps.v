(* DiscProps.v: C78, the caches of a registry's services and groups. *)
From Verif Require Import Base DiscModel DiscSpec DiscProofs.
Open Scope Z_scope.

(* whether a service is in a group is answered by the newest list the registry gave for that group (or, while that is being stored, the one
   before it); failed queries change nothing; without any list, nothing is in the group *)
Theorem C78_newest os s reg grp svc b : druns dinit os = Some s -> noclash ((reg, grp) :: pairs os) -> inGroup s reg grp svc = Some b ->
  says (newest (answers reg grp (dLog s))) svc b \/ dWork s <> WIdle /\ says (newest (tl (answers reg grp (dLog s)))) svc b.
Proof. exact (answer_last os s reg grp svc b). Qed.
Print Assumptions C78_newest.
(* the registry gives a list for a group at most once an hour, whatever the number of asks *)
Theorem C78_apart os s reg grp n m a b : druns dinit os = Some s -> nth_error (answers reg grp (dLog s)) n = Some a -> nth_error (answers reg grp (dLog s)) m = Some b ->
  (n < m)%nat -> aTime b + 3600 <= aTime a.
Proof. exact (queries_apart os s reg grp n m a b). Qed.
Print Assumptions C78_apart.
(* groups without underscores do not clash *)
Theorem C78_noclash ps : (forall r g, In (r, g) ps -> ~ In x5f g) -> noclash ps.
Proof. exact (no_underscore ps). Qed.
Print Assumptions C78_noclash.
(* the queue of refreshes is bounded; an old list that is asked for is queued if there is room, and then refreshed when its turn comes *)
Theorem C78_queue os s : druns dinit os = Some s -> (length (dQueue s) <= 100)%nat.
Proof. intro R. refine (queue_bound os dinit s R _). cbn. lia. Qed.
Print Assumptions C78_queue.
Theorem C78_refresh os s reg grp now s' k i : druns dinit os = Some s -> dstep s (DAsk reg grp now) = Some s' ->
  aget bs_eqb (dKeys s) (key reg grp) = Some k -> nth_error (dInfo s) k = Some i -> stale now (iTime i) = true -> (length (dQueue s) < 100)%nat -> In k (dQueue s').
Proof. intros R H K E St L. rewrite (asked os s reg grp now s' i k R H K E St L). apply in_app_iff. right. left. reflexivity. Qed.
Print Assumptions C78_refresh.
Theorem C78_refreshed s k q i l now : dWork s = WIdle -> dQueue s = k :: q -> nth_error (dInfo s) k = Some i -> aget bs_eqb (dKeys s) (key (iReg i) (iGrp i)) = Some k ->
  stale now (iTime i) = true -> dNow s <= now ->
  exists s', druns s [DTake now; DAnswer (Some l) now; DMap now; DTime now] = Some s' /\ dWork s' = WIdle /\ dQueue s' = q /\
    forall svc, inGroup s' (iReg i) (iGrp i) svc = Some (existsb (bs_eqb svc) l).
Proof. exact (refreshed s k q i l now). Qed.
Print Assumptions C78_refreshed.
(* the first ask after a long time still gets the old list *)
Theorem C78_old_refuted : exists os s reg grp svc a, druns dinit os = Some s /\ inGroup s reg grp svc = Some true /\ answers reg grp (dLog s) = [a] /\ dNow s - aTime a = 1000000.
Proof.
  exists [DCreate (s2b "r") (s2b "g") (Some [s2b "s"]) 0; DAsk (s2b "r") (s2b "g") 1000000]. eexists. exists (s2b "r"), (s2b "g"), (s2b "s"). eexists.
  split; [vm_compute; reflexivity|]. split; [vm_compute; reflexivity|]. split; vm_compute; reflexivity.
Qed.
Print Assumptions C78_old_refuted.
(* two groups of two registries can share a key: then the one is answered with the services of the other *)
Theorem C78_clash_refuted : exists os s r g r' g' svc, druns dinit os = Some s /\ (r, g) <> (r', g') /\ answers r' g' (dLog s) = [] /\ inGroup s r' g' svc = Some true.
Proof.
  exists [DCreate (s2b "zk://h:1/p?group=x") (s2b "y_z") (Some [s2b "s"]) 0; DAsk (s2b "zk://h:1/p?group=x_y") (s2b "z") 5]. eexists.
  exists (s2b "zk://h:1/p?group=x"), (s2b "y_z"), (s2b "zk://h:1/p?group=x_y"), (s2b "z"), (s2b "s").
  split; [vm_compute; reflexivity|]. split; [discriminate|]. split; vm_compute; reflexivity.
Qed.
Print Assumptions C78_clash_refuted.
(* asks for one group whose registry does not answer fill the queue, so that no other group is refreshed *)
Theorem C78_starved_refuted : exists os s k s', druns dinit os = Some s /\ aget bs_eqb (dKeys s) (key (s2b "r") (s2b "b")) = Some k /\
  dstep s (DAsk (s2b "r") (s2b "b") 7200) = Some s' /\ ~ In k (dQueue s') /\ dQueue s' = repeat 0%nat 100.
Proof.
  exists (DCreate (s2b "r") (s2b "a") None 0 :: DCreate (s2b "r") (s2b "b") (Some []) 0 :: repeat (DAsk (s2b "r") (s2b "a") 1) 100). eexists. eexists. eexists.
  split; [vm_compute; reflexivity|]. split; [vm_compute; reflexivity|]. split; [vm_compute; reflexivity|]. split; [|vm_compute; reflexivity].
  cbn [dQueue]. intro H. change (In 1%nat (repeat 0%nat 100)) in H. apply repeat_spec in H. discriminate H.
Qed.
Print Assumptions C78_starved_refuted.

(* the groups of a registry: the answer is the newest list, at most an hour old unless the registry has just refused *)
Theorem C78_groups os s o s' t l : gruns ginit os = Some s -> gstep s o = Some s' -> nth_error (gAsks s') t = Some (GDone l) -> nth_error (gAsks s) t <> Some (GDone l) ->
  l = newestGroups (gLog s') /\ ((exists u, gLog s' = (l, u) :: tl (gLog s') /\ gNow s' - u <= 3600) \/ exists now, o = GQuery t None now).
Proof. exact (groups_answer os s o s' t l). Qed.
Print Assumptions C78_groups.
(* but asks that come together all query the registry *)
Theorem C78_groups_apart_refuted : forall n, exists os s, gruns ginit os = Some s /\ length (gLog s) = n /\ gNow s = 0.
Proof. exact many_queries. Qed.
Print Assumptions C78_groups_apart_refuted.

Definition ex_ops : list dop :=
  [DCreate (s2b "r") (s2b "g") (Some [s2b "a"]) 10; DCreate (s2b "r") (s2b "h") None 10; DAsk (s2b "r") (s2b "g") 3611; DAsk (s2b "r") (s2b "g") 3612;
   DTake 3612; DAnswer None 3613; DTake 3613; DAnswer (Some [s2b "b"; s2b "c"]) 3614; DMap 3614; DTime 3615; DAsk (s2b "r") (s2b "g") 3616].
Example C78_example : exists s, druns dinit ex_ops = Some s /\ inGroup s (s2b "r") (s2b "g") (s2b "a") = Some false /\ inGroup s (s2b "r") (s2b "g") (s2b "c") = Some true /\
  length (answers (s2b "r") (s2b "g") (dLog s)) = 2%nat /\ noclash ((s2b "r", s2b "g") :: pairs ex_ops).
Proof.
  eexists. split; [vm_compute; reflexivity|]. split; [vm_compute; reflexivity|]. split; [vm_compute; reflexivity|]. split; [vm_compute; reflexivity|].
  apply C78_noclash. intros r g H. assert (E : g = s2b "g" \/ g = s2b "h") by (vm_compute in H; vm_compute; intuition congruence).
  destruct E as [-> | ->]; cbn; intuition discriminate.
Qed.
