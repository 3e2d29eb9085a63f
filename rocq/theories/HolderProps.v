(* HolderProps.v: C77, the clusters behind an http domain. *)
From Verif Require Import Base HolderModel HolderSpec HolderProofs.

(* a call gets a cluster of the service it asked for *)
Theorem C77_service os s svc oc : hruns hinit os = Some s -> got s svc oc -> exists c x, oc = Some c /\ nth_error (hClu s) c = Some x /\ cSvc x = svc.
Proof.
  intros R (j & J). exact (i_done (hruns_inv _ _ _ R inv_init) _ _ _ J eq_refl).
Qed.
Print Assumptions C77_service.
(* as long as the domain is not destroyed, all calls for a service share one cluster, and no other is made *)
Theorem C77_shared os s : hruns hinit os = Some s -> ~ In HDestroy os ->
  (forall svc c c', got s svc c -> got s svc c' -> c = c') /\
  (forall c c' x x', nth_error (hClu s) c = Some x -> nth_error (hClu s) c' = Some x' -> cSvc x = cSvc x' -> c = c') /\
  (forall c, c < length (hClu s) -> alive s c).
Proof.
  intros R N. pose proof (hruns_inv _ _ _ R inv_init) as I. pose proof (ninv_runs _ _ _ R N ninv_init) as J. split; [|split].
  - intros svc c c' G G'. destruct (C77_service _ _ _ _ R G) as (d & x & -> & X & E). destruct (C77_service _ _ _ _ R G') as (d' & x' & -> & X' & E').
    f_equal. apply (one_cluster _ _ _ _ _ I J X X'). congruence.
  - intros c c' x x' X X' E. exact (one_cluster _ _ _ _ _ I J X X' E).
  - intros c L. apply nth_error_Some in L. destruct (nth_error (hClu s) c) as [x|] eqn:X; [|contradiction]. exists x. split; [exact X|apply (n_live J _ _ X)].
Qed.
Print Assumptions C77_shared.
(* no cluster is destroyed twice *)
Theorem C77_destroyed_once os s c x : hruns hinit os = Some s -> nth_error (hClu s) c = Some x -> cDead x <= 1.
Proof. intros R. exact (i_dead (hruns_inv _ _ _ R inv_init) c x). Qed.
Print Assumptions C77_destroyed_once.
(* destroying the domain while no call is getting its cluster destroys every cluster, also when calls come in meanwhile *)
Theorem C77_destroy os s s1 os2 s2 s3 : hruns hinit os = Some s -> ~ In HDestroy os -> quiet s -> hstep s HDestroy = Some s1 ->
  hruns s1 os2 = Some s2 -> ~ In HEnd os2 -> hstep s2 HEnd = Some s3 -> forall c, ~ alive s3 c.
Proof. exact (destroy_all os s s1 os2 s2 s3). Qed.
Print Assumptions C77_destroy.
(* but a call that is getting its cluster makes a new one, which no later Destroy finds *)
Theorem C77_leak_refuted : exists os s c, hruns hinit os = Some s /\ alive s c /\ hKilling s = None /\ hMap s = [] /\
  forall n s', hruns s (concat (repeat [HDestroy; HEnd] n)) = Some s' -> alive s' c.
Proof.
  exists [HCall (s2b "a"); HStep 0; HStep 0; HStep 0; HDestroy; HKill 0; HEnd; HStep 0]. eexists. exists 0.
  split; [vm_compute; reflexivity|]. split; [eexists; split; reflexivity|]. split; [reflexivity|]. split; [reflexivity|].
  induction n as [|n IH]; intros s' H.
  - injection H as <-. eexists; split; reflexivity.
  - apply IH. exact H.
Qed.
Print Assumptions C77_leak_refuted.

Definition ex_ops : list hop := [HCall (s2b "a"); HCall (s2b "a"); HCall (s2b "b"); HStep 0; HStep 1; HStep 2; HStep 1; HStep 0; HStep 0; HStep 1; HStep 2; HStep 1; HStep 0; HStep 2; HStep 2].
Example C77_example : exists s s3, hruns hinit ex_ops = Some s /\ got s (s2b "a") (Some 0) /\ got s (s2b "b") (Some 1) /\ quiet s /\ length (hClu s) = 2 /\
  hruns s [HDestroy; HKill 1; HCall (s2b "b"); HKill 0; HEnd] = Some s3 /\ map cDead (hClu s3) = [1; 1].
Proof.
  eexists. eexists. split; [vm_compute; reflexivity|]. split; [exists 0; reflexivity|]. split; [exists 2; reflexivity|].
  split; [intros x [<-|[<-|[<-|[]]]]; exact I|]. split; [reflexivity|]. split; vm_compute; reflexivity.
Qed.
