(* RrfProps.v: C120, with round robin and enough retries a call reaches a working server. *)
From Verif Require Import Base BytesModel BytesSpec Strconv ProtoModel ProtoSpec ConvModel ConvSpec SimpleModel SimpleSpec UrlModel UrlSpec
  ServerModel ServerSpec ProvModel ProvSpec ProvProofs ProvProps FoModel FoSpec FoProps LbModel LbSpec RrfModel RrfSpec RrfProofs.
Open Scope nat_scope.

(* At least as many attempts as endpoints, an endpoint that works and says it is available, and every other endpoint either failing or
   working: the call returns the value of a working endpoint, within as many attempts as there are endpoints, whatever the others say
   about their availability and whatever is drawn at random in place of those that say no. *)
Theorem C120_reaches : forall c avs rs counter eps u reply q noEp l0 v0, ordinary q -> args_ok (qArgs q) ->
  (counter + N.of_nat (length eps) < 2 ^ 32)%N -> length eps <= S (retries u q) ->
  In l0 eps -> works_with c reply q l0 v0 -> (forall i t, avs i t l0 = true) ->
  (forall l, In l eps -> fails_there c reply q l \/ exists v, works_with c reply q l v) ->
  exists k l v, k < length eps /\ In l eps /\ works_with c reply q l v /\
    rrTrip c avs rs counter undisturbed eps u reply q noEp = (Value v (assigned reply v), S k).
Proof. exact reaches. Qed.
Print Assumptions C120_reaches.

(* While one endpoint says it is available, every attempt of every call finds an endpoint of the list that said so: the caller is
   never told that there is none. *)
Theorem C120_selects : forall avs rs counter others eps l0 i, In l0 eps -> (forall i t, avs i t l0 = true) ->
  exists l, rrLink avs rs counter others eps i = Some l /\ In l eps /\ exists t, avs i t l = true.
Proof. exact rrLink_in. Qed.
Print Assumptions C120_selects.

(* ------------------------------------------------------------ a concrete cluster *)

Definition r_url (n : bs) : url := mkUrl (s2b "motan2") (s2b "h") 80 (s2b "svc") (s2b "grp") (Some [(s2b "retries", n)]).
Definition r_eps : list link := [f_link p_server NotReached; f_link f_old Passes; f_link p_server Passes].
Definition r_q : mrequest value := f_req (s2b "add") [VInt 40; VI64 2].
(* the first endpoint says it is not available *)
Definition r_avs : nat -> nat -> link -> bool := fun _ _ l => match lk_wire l with NotReached => false | _ => true end.

Example C120_example :
  (2 + N.of_nat (length r_eps) < 2 ^ 32)%N /\ length r_eps <= S (retries (r_url (s2b "2")) r_q) /\
  In (f_link p_server Passes) r_eps /\ works_with p_client TPInt64 r_q (f_link p_server Passes) (VI64 42) /\
  (forall i t, r_avs i t (f_link p_server Passes) = true) /\
  (forall l, In l r_eps -> fails_there p_client TPInt64 r_q l \/ exists v, works_with p_client TPInt64 r_q l v) /\
  rrTrip p_client r_avs (fun _ => (1, 1)%N) 2 undisturbed r_eps (r_url (s2b "2")) TPInt64 r_q [] = (Value (VI64 42) (Some (VI64 42)), 3).
Proof.
  destruct C119_example as (_ & _ & _ & Hf & Hs & _). fold r_q in Hs.
  split; [reflexivity|]. split; [vm_compute; lia|]. split; [right; right; left; reflexivity|]. split; [split; [reflexivity|exact Hs]|].
  split; [reflexivity|]. split; [|vm_compute; reflexivity].
  intros l [<-|[<-|[<-|[]]]]; [left; left; reflexivity| |right; exists (VI64 42); split; [reflexivity|exact Hs]].
  left. destruct (Hf 2 ltac:(lia)) as (l & L1 & L2). injection L1 as <-. exact L2.
Qed.

(* ------------------------------------------------------------ findings *)

(* The counter is shared by the calls of a cluster: another call between two attempts can take the working endpoint's turn, so that
   both attempts go to the endpoint that does not answer. *)
Theorem C120_shared_counter_refuted : exists eps others,
  length eps = 2 /\ retries (r_url (s2b "1")) r_q = 1 /\ (exists l, In l eps /\ works_with p_client TPInt64 r_q l (VI64 42)) /\
  rrTrip p_client (fun _ _ _ => true) (fun _ => (0, 0)%N) 1 others eps (r_url (s2b "1")) TPInt64 r_q [] = (Error (s2b "channel call error:closed"), 2).
Proof.
  exists [f_link p_server NotReached; f_link p_server Passes], (fun i => i). split; [reflexivity|]. split; [vm_compute; reflexivity|]. split; [|vm_compute; reflexivity].
  exists (f_link p_server Passes). split; [right; left; reflexivity|]. exact (proj1 (proj2 (proj2 (proj2 C120_example)))).
Qed.
Print Assumptions C120_shared_counter_refuted.

(* Once in 2^32 selections the counter starts again, which can skip the working endpoint's turn, too. *)
Theorem C120_wrap_refuted : exists eps,
  length eps = 3 /\ retries (r_url (s2b "2")) r_q = 2 /\ (exists l, In l eps /\ works_with p_client TPInt64 r_q l (VI64 42)) /\
  rrTrip p_client (fun _ _ _ => true) (fun _ => (0, 0)%N) 4294967294 undisturbed eps (r_url (s2b "2")) TPInt64 r_q [] =
    (Error (s2b "channel call error:closed"), 3).
Proof.
  exists [f_link p_server NotReached; f_link p_server NotReached; f_link p_server Passes]. split; [reflexivity|]. split; [vm_compute; reflexivity|]. split; [|vm_compute; reflexivity].
  exists (f_link p_server Passes). split; [right; right; left; reflexivity|]. exact (proj1 (proj2 (proj2 (proj2 C120_example)))).
Qed.
Print Assumptions C120_wrap_refuted.
