(* BrrProps.v: C121, the reply variable of a call with backup requests. *)
From Verif Require Import Base Strconv UrlModel UrlSpec HaModel HaSpec BrrModel BrrSpec BrrProofs.
Open Scope nat_scope.

(* Whatever calls are made at once and however their requests, timers and answers interleave: a reply variable holds nothing but a value
   an endpoint answered this very call with. *)
Theorem C121_own_answer : forall start es s m c v, replyRun (sysInit start) untouched es = Some (s, m) -> m c = Some v ->
  exists b, nth_error (sCalls s) c = Some b /\ answered_with b v.
Proof. exact some_answer. Qed.
Print Assumptions C121_own_answer.

(* When a call has returned a value and all endpoints that have answered it so far with a value agree, its reply variable holds the
   value of the response returned, then and for as long as they agree. *)
Theorem C121_agreeing : forall start es s m c b r, replyRun (sysInit start) untouched es = Some (s, m) -> nth_error (sCalls s) c = Some b ->
  bPhase b = HDone r -> rExc r = None -> agree b -> m c = Some (rValue r).
Proof. exact same_value. Qed.
Print Assumptions C121_agreeing.

(* Following the variables changes nothing of the calls. *)
Theorem C121_same_system : forall es s m, option_map fst (replyRun s m es) = sysRun s es.
Proof. exact replyRun_sys. Qed.
Print Assumptions C121_same_system.

Definition brA : resp := mkResp 7 (s2b "first server") None.
Definition brB : resp := mkResp 7 (s2b "backup server") None.
Definition br_sent : list ev := [EStart 7 2 15; EHead 0 10 true; ETimer 0; EHead 0 11 true].

Example C121_example : exists s m b,
  replyRun (sysInit 0) untouched (br_sent ++ [EReply 0 1 (Some brB); ESuccess 0; EReply 0 0 (Some brB)]) = Some (s, m) /\
  nth_error (sCalls s) 0 = Some b /\ bPhase b = HDone brB /\ agree b /\ length (bHeard b) = 2 /\ m 0 = Some (s2b "backup server").
Proof.
  eexists. eexists. eexists. split; [vm_compute; reflexivity|]. split; [reflexivity|]. split; [reflexivity|]. split; [|split; reflexivity].
  intros v w (x & X1 & _ & <-) (y & Y1 & _ & <-). cbn in X1, Y1. destruct X1 as [<-|[<-|[]]], Y1 as [<-|[<-|[]]]; reflexivity.
Qed.

(* ------------------------------------------------------------ findings *)

(* The requests of a call share its reply variable: the call can return one server's response while the variable holds what another
   server answered ... *)
Theorem C121_returned_value_refuted : exists es s m b r,
  replyRun (sysInit 0) untouched es = Some (s, m) /\ nth_error (sCalls s) 0 = Some b /\ bPhase b = HDone r /\ rExc r = None /\
  m 0 <> Some (rValue r).
Proof.
  exists (br_sent ++ [EReply 0 1 (Some brB); EReply 0 0 (Some brA); ESuccess 0]). eexists. eexists. eexists. eexists.
  split; [vm_compute; reflexivity|]. split; [reflexivity|]. split; [reflexivity|]. split; [reflexivity|]. vm_compute. discriminate.
Qed.
Print Assumptions C121_returned_value_refuted.

(* ... and the variable can change under the caller's hands after the call has returned ... *)
Theorem C121_settled_refuted : exists es late s m s' m' b b' r,
  replyRun (sysInit 0) untouched es = Some (s, m) /\ nth_error (sCalls s) 0 = Some b /\ bPhase b = HDone r /\ m 0 = Some (rValue r) /\
  replyRun s m [late] = Some (s', m') /\ nth_error (sCalls s') 0 = Some b' /\ bPhase b' = HDone r /\ m' 0 <> m 0.
Proof.
  exists (br_sent ++ [EReply 0 1 (Some brB); ESuccess 0]), (EReply 0 0 (Some brA)). eexists. eexists. eexists. eexists. eexists. eexists. eexists.
  split; [vm_compute; reflexivity|]. split; [reflexivity|]. split; [reflexivity|]. split; [reflexivity|].
  split; [vm_compute; reflexivity|]. split; [reflexivity|]. split; [reflexivity|]. vm_compute. discriminate.
Qed.
Print Assumptions C121_settled_refuted.

(* ... even that of a call that returned an error. *)
Theorem C121_error_untouched_refuted : exists es s m b r,
  replyRun (sysInit 0) untouched es = Some (s, m) /\ nth_error (sCalls s) 0 = Some b /\ bPhase b = HDone r /\ rExc r <> None /\ m 0 <> None.
Proof.
  exists (br_sent ++ [EDeadline 0; EReply 0 0 (Some brA)]). eexists. eexists. eexists. eexists.
  split; [vm_compute; reflexivity|]. split; [reflexivity|]. split; [reflexivity|]. split; [discriminate|]. vm_compute. discriminate.
Qed.
Print Assumptions C121_error_untouched_refuted.
