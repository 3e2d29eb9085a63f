(* DcoSpec.v: vocabulary of C123. *)
From Verif Require Import Base DthModel DthSpec DcoModel.

(* [n] endpoints, all available, no errors counted, no attempt under way *)
Definition idle_cluster (n : nat) (counter : N) : ost := mkOst counter (all_fresh n) [].
(* how many attempts began at endpoint [i] *)
Definition began_at (i : nat) (tr : list (option nat)) : nat :=
  length (filter (fun o => match o with Some j => Nat.eqb j i | None => false end) tr).
(* how many attempts found no endpoint, or one of [ds] *)
Definition wasted (ds : list nat) (tr : list (option nat)) : nat :=
  length (filter (fun o => match o with Some j => existsb (Nat.eqb j) ds | None => true end) tr).
Definition heartbeats (i : nat) (evs : list oev) : nat :=
  length (filter (fun e => match e with OBeatOk j => Nat.eqb j i | _ => false end) evs).
(* attempts on endpoint [i] end with a failure, or with an answer *)
Definition ends_badly (i : nat) (evs : list oev) : Prop := forall k good, In (Finish k good) evs -> good i = false.
Definition ends_well (i : nat) (evs : list oev) : Prop := forall k good, In (Finish k good) evs -> good i = true.
Definition dead_server (i : nat) (evs : list oev) : Prop := ends_badly i evs /\ heartbeats i evs = 0.
(* the thresholds of [ds], with W - 1 more for each *)
Definition sum_with (W : nat) (thr : nat -> Z) (ds : list nat) : nat := fold_right (fun i s => (Z.to_nat (thr i) + (W - 1)) + s) 0 ds.
