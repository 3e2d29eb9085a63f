(* LsnSpec.v: what a server's life should look like from outside, for C118. *)
From Coq Require Import Sorted.
From Verif Require Import Base GoStrings GoStrings2 LsnModel.

Definition lreach (s : proc) : Prop := exists os, lruns proc0 os = Some s.
Definition isListening (s : proc) (k : nat) : Prop := v_lis (p_srv s k) = Listening.
(* Destroy has been called and has returned *)
Definition destroyed (s : proc) (k : nat) : Prop := v_lis (p_srv s k) = Shut /\ v_closing (p_srv s k) = 0.
Definition loop_over (s : proc) (k : nat) : Prop := v_loop (p_srv s k) = Returned.
(* the steps of the accept loop of server k *)
Definition own_step (k : nat) (o : lop) : bool :=
  match o with LAcceptOk j | LAcceptErr j | LSelect j => Nat.eqb j k | _ => false end.
(* the connections being handled, of those established so far *)
Definition handled (s : proc) : list nat :=
  filter (fun c => match p_phase s c with Handling => true | _ => false end) (seq 0 (p_next s)).
