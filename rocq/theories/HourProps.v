(* HourProps.v: C109, the hourly rotation of a log and the goroutine that tidies old files. *)
From Coq Require Import Lia.
From Verif Require Import Base LogModel HourModel HourSpec HourProofs.
Local Open Scope Z_scope.

(* whenever the sleeps end, at most one rotation in an hour of the wall clock, and none in the hour of the start *)
Theorem C109_once_an_hour (zone t : Z) (l : list wake) : Forall orderly l ->
  increasing (map (wall_hour zone) (hRot (hruns zone (hinit zone t) l))) /\
  forall q, In q (hRot (hruns zone (hinit zone t) l)) -> wall_hour zone t < wall_hour zone q.
Proof. exact (once_an_hour zone t l). Qed.
Print Assumptions C109_once_an_hour.
(* so no backup takes the name of another *)
Theorem C109_names (c : lcfg) (t : Z) (l : list wake) (i j : nat) (qi qj : Z) : (forall x y, l_stamp c x = l_stamp c y -> x = y) -> l_perHour c = true ->
  Forall orderly l -> i <> j ->
  nth_error (hRot (hruns (l_zone c) (hinit (l_zone c) t) l)) i = Some qi -> nth_error (hRot (hruns (l_zone c) (hinit (l_zone c) t) l)) j = Some qj ->
  backupName c qi <> backupName c qj.
Proof. exact (names_differ c t l i j qi qj). Qed.
Print Assumptions C109_names.
(* sleeps that end more than 0 and at most d ns late: every one is followed by a rotation, at most d after an hour began *)
Theorem C109_prompt (zone d t : Z) (l : list wake) : prompt zone d (hinit zone t) l ->
  hRot (hruns zone (hinit zone t) l) = map wName l /\ forall w, In w l -> exists h, (h + zone) mod 3600000000000 = 0 /\ h < wTime w <= h + d.
Proof. intro P. destruct (prompt_run zone d l _ (pinv_init zone t) P) as [A B]. split; [exact A|exact B]. Qed.
Print Assumptions C109_prompt.
(* 00:10, zone +8: wakes 5 ns after 01:00, 2 us after 02:00 *)
Definition exWakes : list wake := [mkWake 3600000000005 3600000000006 3600000000009; mkWake 7200000002000 7200000002001 7200000002500].
Example C109_ex : Forall orderly exWakes /\ prompt 28800000000000 5000 (hinit 28800000000000 600000000000) exWakes /\
  hRot (hruns 28800000000000 (hinit 28800000000000 600000000000) exWakes) = [3600000000006; 7200000002001].
Proof.
  split; [unfold orderly, exWakes; repeat constructor; cbn; lia|]. split; [|vm_compute; reflexivity]. vm_compute. repeat split; try reflexivity; discriminate.
Qed.
(* refuted: a sleep that ends at the very moment the hour begins is soon followed by the rotation.  It sleeps the whole time again: here
   from 00:00:01 on the rotation of 01:00:00 comes at 01:59:59, with what was logged for nearly two hours *)
Theorem C109_exact_refuted : exists zone t l, Forall orderly l /\
  (forall n, (n < length l)%nat -> wTime (nth n l (mkWake 0 0 0)) = hSlept (hruns zone (hinit zone t) (firstn n l)) + hDur (hruns zone (hinit zone t) (firstn n l))) /\
  t = 1000000000 /\ hRot (hruns zone (hinit zone t) (firstn 1 l)) = [] /\ hRot (hruns zone (hinit zone t) l) = [7199000000000].
Proof.
  exists 0, 1000000000, [mkWake 3600000000000 3600000000000 3600000000000; mkWake 7199000000000 7199000000000 7199000000000].
  split; [unfold orderly; repeat constructor; cbn; lia|]. split.
  - intros n L. destruct n as [|[|n]]; [reflexivity|reflexivity|cbn in L; lia].
  - repeat split.
Qed.
Print Assumptions C109_exact_refuted.
(* refuted: once an hour whatever the clock does.  Set back after a rotation, the next one is in the same hour and takes the name of the first *)
Theorem C109_set_back_refuted : exists c t l q1 q2, l_perHour c = true /\ hRot (hruns (l_zone c) (hinit (l_zone c) t) l) = [q1; q2] /\
  backupName c q1 = backupName c q2 /\ wName (nth 0 l (mkWake 0 0 0)) > wAgain (nth 0 l (mkWake 0 0 0)).
Proof.
  exists (mkLcfg (s2b "a.log") 0 0 0 false true 0 (fun h => if Z.eqb h 0 then s2b "0" else s2b "1") (fun _ => None)), 1000000000,
    [mkWake 3600000000100 3600000000200 3599000000000; mkWake 3600000000001 3600000000002 3600000000003], 3600000000200, 3600000000002.
  split; [reflexivity|]. split; [vm_compute; reflexivity|]. split; [vm_compute; reflexivity|]. cbn. lia.
Qed.
Print Assumptions C109_set_back_refuted.

(* the tidying goroutine: one is started, no request is lost - when none is queued, a run began after every request *)
Theorem C109_mill (l : list millop) (s : millst) : millruns millinit l = Some s ->
  (mlCh s = false -> served (mlLog s)) /\ (In MMill l -> mlStarted s = 1%nat) /\ (mlStarted s <= 1)%nat /\
  (mlCh s = true -> mlRunning s = false -> exists s', millstep s MReceive = Some s' /\ mlRunning s' = true) /\
  length (filter (fun e => match e with MRequest => true | _ => false end) (mlLog s)) = length (filter (fun o => match o with MMill => true | _ => false end) l).
Proof.
  intro R. destruct (minv_run _ _ _ minv_init R) as (A & B & C). split; [exact A|]. pose proof (log_requests _ _ _ R) as L. cbn [millinit mlLog filter length plus] in L. split; [|split; [|split]].
  - intro HI. destruct (mlOnce s) eqn:E; [apply B; reflexivity|]. destruct (C eq_refl) as [_ K]. rewrite K in L. cbn in L.
    assert (Q : In MMill (filter (fun o => match o with MMill => true | _ => false end) l)) by (apply filter_In; split; [exact HI|reflexivity]).
    destruct (filter (fun o => match o with MMill => true | _ => false end) l); [destruct Q|discriminate].
  - destruct (mlOnce s); [rewrite (B eq_refl); lia|destruct (C eq_refl) as [-> _]; lia].
  - intros HC HR. pose proof (ch_once l millinit s ltac:(discriminate) R HC) as HO. cbn [millstep]. rewrite HC, HR, HO. eexists. split; reflexivity.
  - exact L.
Qed.
Print Assumptions C109_mill.
Example C109_mill_ex : exists s, millruns millinit [MMill; MMill; MReceive; MMill; MMill; MFinish; MReceive; MFinish] = Some s /\
  mlLog s = [MRequest; MRequest; MBegin; MRequest; MRequest; MBegin] /\ mlCh s = false /\ served (mlLog s).
Proof. eexists. split; [vm_compute; reflexivity|]. split; [reflexivity|]. split; [reflexivity|]. cbn. intuition. Qed.
