(* AsyncSpec.v: told from the history alone *)
From Verif Require Import Base.
From Verif Require Export AsyncModel.
(* the sends of the history, in order *)
Definition sends (os : list aop) : list nat := concat (map (fun o => match o with ASent k => [k] | _ => [] end) os).
(* the answer of the cluster to a call *)
Definition answer (os : list aop) (k : nat) : option (option bs) :=
  fold_left (fun r o => match o with AAnswer k' e => if (k' =? k)%nat then Some e else r | _ => r end) os None.
(* the channel the program finds in the result of call k *)
Definition done_of (s : ast) (k : nat) : option nat := option_map aChan (nth_error (aCalls s) k).
(* results ever put into a channel: received first, then still there *)
Definition through (s : ast) (c : nat) : list nat := match nth_error (aChans s) c with Some ch => aGot ch ++ aQueue ch | None => [] end.
Definition received (s : ast) (c : nat) : list nat := match nth_error (aChans s) c with Some ch => aGot ch | None => [] end.
(* the calls whose result names this channel *)
Definition calls_on (s : ast) (c : nat) : list nat :=
  filter (fun k => match done_of s k with Some d => (d =? c)%nat | None => false end) (seq 0 (length (aCalls s))).
