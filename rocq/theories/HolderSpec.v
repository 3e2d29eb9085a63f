(* HolderSpec.v: for C77. *)
From Verif Require Import Base HolderModel.

(* a call for a service got a cluster *)
Definition got (s : hst) (svc : bs) (c : option nat) : Prop := exists j, nth_error (hJobs s) j = Some (mkJob svc (JDone c)).
(* no call is between finding its holder and getting the cluster *)
Definition quiet (s : hst) : Prop := forall x, In x (hJobs s) -> match jPc x with JHold _ | JRead _ | JSlow _ => False | _ => True end.
Definition alive (s : hst) (c : nat) : Prop := exists x, nth_error (hClu s) c = Some x /\ cDead x = 0.
