(* DynProps.v: C44 (status after a crash), C45 (unexporting), C73 (run-time registrations after a crash). *)
From Verif Require Import Base Strconv GoStrings2 UrlModel UrlSpec UrlProofs DynModel DynSpec DynProofs.

(* ---- C73 *)
(* A crash at any moment at which the snapshot is not just being written, then a start in recover mode: every registration and
   every subscription is exactly as before, unless a request had changed it and not yet saved. *)
Theorem C73_survives : forall regSuffix subSuffix static refers os s oks,
  Forall recovering os -> druns (dinit regSuffix subSuffix static refers) os = Some s -> ~ being_written s ->
  (forall u, ~ changing s (inl (identReg u)) -> (registered (restart s true oks) u <-> registered s u)) /\
  (forall u, ~ changing s (inr (ident u)) -> (subscribed (restart s true oks) u <-> subscribed s u)).
Proof. exact survives. Qed.
Print Assumptions C73_survives.

(* A request that has been answered has saved all it changed. *)
Theorem C73_answered_saved : forall regSuffix subSuffix static refers os s j x,
  Forall recovering os -> druns (dinit regSuffix subSuffix static refers) os = Some s ->
  nth_error (dJobs s) j = Some x -> jTodo x = [] -> jMod x = [].
Proof. exact answered_saved. Qed.
Print Assumptions C73_answered_saved.
(* Clusters are made for run-time subscriptions once for each service, and none for a service the configuration refers to. *)
Theorem C73_clusters : forall regSuffix subSuffix static refers os s, druns (dinit regSuffix subSuffix static refers) os = Some s ->
  NoDup (map ident (dClusters s)) /\
  (forall u, In u (dClusters s) <-> subscribed s u /\ ~ exists r, In r refers /\ ident r = ident u).
Proof. exact one_cluster. Qed.
Print Assumptions C73_clusters.

(* So when all requests have been answered nothing at all is lost. *)
Theorem C73_quiet : forall regSuffix subSuffix static refers os s oks,
  Forall recovering os -> druns (dinit regSuffix subSuffix static refers) os = Some s -> all_answered s ->
  forall u, (registered (restart s true oks) u <-> registered s u) /\ (subscribed (restart s true oks) u <-> subscribed s u).
Proof.
  intros rsf ssf st rf os s oks F H Q u. destruct (@answered_quiet rsf ssf st rf os s F H Q) as [NW NC].
  destruct (@survives rsf ssf st rf os s oks F H NW) as [A B]. split; [apply A, NC|apply B, NC].
Qed.
Print Assumptions C73_quiet.

(* The identity that registrations are kept under. *)
Theorem C73_keys : forall u, ident u = identity_of u /\ identReg u = identity_of u ++ s2b "&registry=" ++ str_or u RegistryKey [].
Proof. intro u. split; [apply ident_eq|apply identReg_eq]. Qed.
Print Assumptions C73_keys.

(* ---- a concrete history *)
Definition exS (path group : string) : url := mkUrl (s2b "motan2") (s2b "10.0.0.1") 8100 (s2b path) (s2b group) (Some [(s2b "registry", s2b "r")]).
Definition exP (path group v : string) : url := mkUrl (s2b "motan2") (s2b "10.0.0.1") 8100 (s2b path) (s2b group) (Some [(s2b "registry", s2b "r"); (s2b "v", s2b v)]).
Definition steps (j n : nat) : list dop := repeat (JobStep j) n.
Definition ex_init : dst := dinit [] [] [exS "static" "g"] [].
Definition ex_os : list dop := [Request (Register [(exS "a" "g", true); (exS "b" "g", true)]); Request (Subscribe [exS "c" "g"])] ++ steps 0 1 ++ steps 1 4 ++ steps 0 7.
Example C73_nonvacuous : Forall recovering ex_os /\ exists s, druns ex_init ex_os = Some s /\ all_answered s /\ listing s = ([exS "a" "g"; exS "b" "g"], [exS "c" "g"]) /\
  listing (restart s true (fun _ => true)) = listing s.
Proof.
  split; [repeat constructor|]. eexists. split; [vm_compute; reflexivity|]. split; [repeat constructor|]. split; vm_compute; reflexivity.
Qed.

(* FINDING: the snapshot is not written atomically: a crash while a later request writes it loses registrations that had long
   been acknowledged. *)
Theorem C73_crash_while_writing_refuted : exists s u,
  druns ex_init ([Request (Register [(u, true)])] ++ steps 0 4 ++ [Request (Register [(exS "b" "g", true)])] ++ steps 1 3) = Some s /\
  (exists x, nth_error (dJobs s) 0 = Some x /\ jTodo x = []) /\ registered s u /\ listing (restart s true (fun _ => true)) = ([], []).
Proof.
  eexists. exists (exS "a" "g"). split; [vm_compute; reflexivity|]. split; [eexists; split; reflexivity|]. split; [left; reflexivity|vm_compute; reflexivity].
Qed.
Print Assumptions C73_crash_while_writing_refuted.

(* FINDING: a start that is not in recover mode leaves the old snapshot in place; if the agent crashes before the next
   request, a start in recover mode brings back registrations of the time before. *)
Theorem C73_revived_refuted : exists s u,
  druns ex_init ([Request (Register [(u, true)])] ++ steps 0 4 ++ [Crash false (fun _ => true)]) = Some s /\ all_answered s /\
  ~ registered s u /\ registered (restart s true (fun _ => true)) u.
Proof.
  eexists. exists (exS "a" "g"). split; [vm_compute; reflexivity|]. split; [repeat constructor|]. split; [intros []|left; vm_compute; reflexivity].
Qed.
Print Assumptions C73_revived_refuted.

(* ---- C45 *)
(* Unregistering takes the service off the list at once, ... *)
Theorem C45_unlisted : forall regSuffix subSuffix static refers os s j x u r s',
  Forall recovering os -> druns (dinit regSuffix subSuffix static refers) os = Some s ->
  nth_error (dJobs s) j = Some x -> jTodo x = DoUnreg u :: r -> dstep s (JobStep j) = Some s' ->
  forall v, identReg v = identReg u -> ~ registered s' v.
Proof. exact unregister_unlisted. Qed.
Print Assumptions C45_unlisted.
(* ... and after the next start in recover mode exactly the services of the configuration and the registered services that
   can be exported are exported. *)
Theorem C45_exported_after_restart : forall regSuffix subSuffix static refers os s oks k,
  Forall recovering os -> druns (dinit regSuffix subSuffix static refers) os = Some s -> ~ being_written s -> ~ changing s (inl k) ->
  exported (restart s true oks) k <-> configured s k \/ exists u, registered s u /\ oks u = true /\ identReg u = k.
Proof. exact exported_after. Qed.
Print Assumptions C45_exported_after_restart.
(* FINDING, for every history: until the next start no service is ever unexported, whatever is unregistered, as long as no
   identity has the text "&registry=" in it. *)
Theorem C45_never_unexported : forall regSuffix subSuffix static refers os1 s1 os2 s2 k u,
  Forall ordinary (os1 ++ os2) -> Forall no_crash os2 ->
  druns (dinit regSuffix subSuffix static refers) os1 = Some s1 -> druns s1 os2 = Some s2 ->
  aget bs_eqb (dExp s1) k = Some u -> aget bs_eqb (dExp s2) k = Some u.
Proof. exact never_unexported. Qed.
Print Assumptions C45_never_unexported.

Definition ex_un : list dop := [Request (Register [(exS "a" "g", true)])] ++ steps 0 4 ++ [Request (Unregister [exS "a" "g"])] ++ steps 1 4.
Example C45_nonvacuous : Forall ordinary ex_un /\ Forall recovering ex_un /\ exists s, druns ex_init ex_un = Some s /\
  all_answered s /\ ~ exported (restart s true (fun _ => true)) (identReg (exS "a" "g")) /\ exported (restart s true (fun _ => true)) (identReg (exS "static" "g")).
Proof.
  split; [repeat constructor|]. split; [repeat constructor|]. eexists. split; [vm_compute; reflexivity|]. split; [repeat constructor|]. split.
  - intro X. vm_compute in X. apply X. reflexivity.
  - unfold exported. vm_compute. discriminate.
Qed.
(* The claim itself: registered, unregistered, both acknowledged; not on the list, and still exported. *)
Theorem C45_unexport_refuted : exists s u,
  druns ex_init ([Request (Register [(u, true)])] ++ steps 0 4 ++ [Request (Unregister [u])] ++ steps 1 4) = Some s /\ all_answered s /\
  ~ registered s u /\ exported s (identReg u).
Proof.
  eexists. exists (exS "a" "g"). split; [vm_compute; reflexivity|]. split; [repeat constructor|]. split; [intros []|unfold exported; vm_compute; discriminate].
Qed.
Print Assumptions C45_unexport_refuted.
(* FINDING: with a group suffix in the environment, unregistering what was registered does not even take it off the list. *)
Theorem C45_suffix_refuted : exists s u v,
  druns (dinit (s2b "_eu") [] [] []) ([Request (Register [(u, true)])] ++ steps 0 4 ++ [Request (Unregister [u])] ++ steps 1 4) = Some s /\ all_answered s /\
  registered s v /\ v = suffixed (s2b "_eu") u.
Proof.
  eexists. exists (exS "a" "g"). eexists. split; [vm_compute; reflexivity|]. split; [repeat constructor|]. split; [left; reflexivity|vm_compute; reflexivity].
Qed.
Print Assumptions C45_suffix_refuted.
(* FINDING: a service that is registered again with other parameters goes on being exported with the old ones. *)
Theorem C45_stale_refuted : exists s u v,
  druns ex_init ([Request (Register [(u, true)])] ++ steps 0 4 ++ [Request (Unregister [u])] ++ steps 1 4 ++ [Request (Register [(v, true)])] ++ steps 2 4) = Some s /\ all_answered s /\
  u <> v /\ listing s = ([v], []) /\ aget bs_eqb (dExp s) (identReg v) = Some u.
Proof.
  eexists. exists (exP "a" "g" "1"), (exP "a" "g" "2"). split; [vm_compute; reflexivity|]. split; [repeat constructor|]. split; [discriminate|]. split; vm_compute; reflexivity.
Qed.
Print Assumptions C45_stale_refuted.
(* FINDING: a registration of which the export failed is acknowledged and listed, and registering again does not export it. *)
Theorem C45_no_retry_refuted : exists s u,
  druns ex_init ([Request (Register [(u, false)])] ++ steps 0 4 ++ [Request (Register [(u, true)])] ++ steps 1 4) = Some s /\ all_answered s /\
  registered s u /\ ~ exported s (identReg u).
Proof.
  eexists. exists (exS "a" "g"). split; [vm_compute; reflexivity|]. split; [repeat constructor|]. split; [left; reflexivity|]. intro X. apply X. vm_compute. reflexivity.
Qed.
Print Assumptions C45_no_retry_refuted.

(* ---- C44 *)
(* Once a call to make the services available has returned, and no call is just writing the file, a crash and a start in
   recover mode make the agent and its services available again, whatever happened before and at the same time. *)
Theorem C44_available_survives : forall os s, truns tinit os = Some s -> In (true, SDone) (tJobs s) -> Forall status_written (tJobs s) ->
  exists s', tstep s (TCrash true) = Some s' /\ tStatus s' = 200%Z /\ tServices s' = true.
Proof. intros os s H I W. exact (@recovered_status os s _ H I eq_refl W). Qed.
Print Assumptions C44_available_survives.
(* A start that is not in recover mode is unavailable, and so is one in recover mode of which the file cannot be read. *)
Theorem C44_fresh_unavailable : forall s s', tstep s (TCrash false) = Some s' -> tStatus s' = 503%Z /\ tServices s' = false.
Proof. intros s s' H. injection H as <-. split; reflexivity. Qed.
Print Assumptions C44_fresh_unavailable.
(* An agent is unavailable, and has told the registries nothing else, until somebody makes it available or it recovers that. *)
Theorem C44_unavailable_first : forall os s, truns tinit os = Some s -> ~ In (TCall true) os -> ~ In (TCrash true) os ->
  tStatus s = 503%Z /\ tServices s = false.
Proof. exact unavailable_first. Qed.
Print Assumptions C44_unavailable_first.
(* Whatever the status file contains, a start in recover mode is available exactly if it is the text of the number 200. *)
Theorem C44_recover_exact : forall s s', tstep s (TCrash true) = Some s' ->
  (tStatus s' = 200%Z /\ tServices s' = true \/ tStatus s' = 503%Z /\ tServices s' = false) /\
  (tStatus s' = 200%Z <-> exists f, tFile s = Some f /\ parseInt64 f = (200%Z, NumOk)).
Proof.
  intros s s' H. injection H as <-. cbn [tStatus tServices]. unfold recovered. destruct (tFile s) as [f|].
  - destruct (parseInt64 f) as [z e] eqn:E. destruct e; try (split; [right; split; reflexivity|]; split; [discriminate|intros (f' & F & P); injection F as <-; rewrite E in P; discriminate P]).
    destruct (Z.eqb_spec z 200) as [->|N]; (split; [auto|]); (split; [|]); try discriminate; try reflexivity.
    + intros _. exists f. auto.
    + intros (f' & F & P). injection F as <-. rewrite E in P. injection P as ->. contradiction.
  - split; [right; split; reflexivity|]. split; [discriminate|]. intros (f & F & _). discriminate F.
Qed.
Print Assumptions C44_recover_exact.
(* Calls that do not overlap do what they say. *)
Theorem C44_sequential : forall s b s', truns s (TCall b :: repeat (TStep (length (tJobs s))) 4) = Some s' ->
  tStatus s' = statusOf b /\ tServices s' = b /\ nth_error (tJobs s') (length (tJobs s)) = Some (b, SDone).
Proof.
  intros s b s' H. cbn [truns tstep repeat tJobs] in H.
  repeat (rewrite nth_error_app2 in H by lia; rewrite Nat.sub_diag in H; cbn [nth_error tJobs tStatus tFile tServices] in H).
  assert (Y : forall l (x : bool * spc), length l = S (length (tJobs s)) -> nth_error (list_set l (length (tJobs s)) x) (length (tJobs s)) = Some x).
  { intros l x L. apply set_same. lia. }
  assert (LL : length (tJobs s ++ [(b, SStart)]) = S (length (tJobs s))) by (rewrite app_length; cbn [length]; lia).
  repeat (rewrite Y in H by (rewrite ?list_set_length; exact LL); cbn [tJobs tStatus tFile tServices] in H).
  injection H as <-. cbn [tStatus tServices tJobs]. split; [reflexivity|]. split; [reflexivity|]. apply Y. rewrite ?list_set_length. exact LL.
Qed.
Print Assumptions C44_sequential.
Example C44_nonvacuous : exists s, truns tinit (TCall false :: TCall true :: repeat (TStep 0) 4 ++ repeat (TStep 1) 4) = Some s /\
  In (true, SDone) (tJobs s) /\ Forall status_written (tJobs s).
Proof. eexists. split; [vm_compute; reflexivity|]. split; [right; left; reflexivity|]. repeat constructor; discriminate. Qed.
(* FINDING, for every history: an agent that was set unavailable comes back available: the file always says 200. *)
Theorem C44_unavailable_forgotten : forall os s, truns tinit os = Some s -> In (false, SDone) (tJobs s) -> Forall status_written (tJobs s) ->
  exists s', tstep s (TCrash true) = Some s' /\ tStatus s' = 200%Z /\ tServices s' = true.
Proof. intros os s H I W. exact (@recovered_status os s _ H I eq_refl W). Qed.
Print Assumptions C44_unavailable_forgotten.
Theorem C44_unavailable_refuted : exists s s', truns tinit (TCall false :: repeat (TStep 0) 4) = Some s /\ tJobs s = [(false, SDone)] /\
  tStatus s = 503%Z /\ tServices s = false /\ tstep s (TCrash true) = Some s' /\ tStatus s' = 200%Z /\ tServices s' = true.
Proof. eexists. eexists. split; [vm_compute; reflexivity|]. split; [reflexivity|]. split; [reflexivity|]. split; [reflexivity|]. split; [reflexivity|]. split; vm_compute; reflexivity. Qed.
Print Assumptions C44_unavailable_refuted.
(* FINDING: the two calls are not protected against each other: the agent may say it is available while its services are not. *)
Theorem C44_overlap_refuted : exists os s, truns tinit os = Some s /\ Forall finished (tJobs s) /\ tStatus s = 200%Z /\ tServices s = false.
Proof.
  exists [TCall true; TCall false; TStep 0; TStep 1; TStep 1; TStep 0; TStep 0; TStep 0; TStep 1; TStep 1]. eexists.
  split; [vm_compute; reflexivity|]. split; [repeat constructor|]. split; reflexivity.
Qed.
Print Assumptions C44_overlap_refuted.
