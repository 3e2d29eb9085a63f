(* DthSpec.v: vocabulary of C122. *)
From Verif Require Import Base DthModel.

(* [n] endpoints, all available, no errors counted yet *)
Definition all_fresh (n : nat) : list epc := repeat (mkEpc 0 true) n.
(* how many attempts went to endpoint [i] *)
Definition tries_at (i : nat) (tr : list (option nat * bool)) : nat :=
  length (filter (fun o => match fst o with Some j => Nat.eqb j i | None => false end) tr).
(* how many attempts were not answered by a service *)
Definition unanswered (tr : list (option nat * bool)) : nat := length (filter (fun o => negb (snd o)) tr).
(* how many heartbeats of endpoint [i] were answered *)
Definition beats_of (i : nat) (evs : list cev) : nat :=
  length (filter (fun e => match e with Beat j => Nat.eqb j i | Attempt _ _ _ => false end) evs).
(* calls to endpoint [i] always fail, or always succeed *)
Definition always_fails (i : nat) (evs : list cev) : Prop := forall r1 r2 good, In (Attempt r1 r2 good) evs -> good i = false.
Definition always_answers (i : nat) (evs : list cev) : Prop := forall r1 r2 good, In (Attempt r1 r2 good) evs -> good i = true.
(* a dead server: calls fail and no heartbeat is answered *)
Definition dead (i : nat) (evs : list cev) : Prop := always_fails i evs /\ beats_of i evs = 0.
Definition sum_of (thr : nat -> Z) (is : list nat) : nat := fold_right (fun i s => Z.to_nat (thr i) + s) 0 is.
