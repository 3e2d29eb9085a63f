(* AfSpec.v: what the users of the asynchronous log filters rely on *)
From Verif Require Import Base AfModel.

(* [l] with some elements left out, order kept *)
Inductive subseq {A} : list A -> list A -> Prop :=
| sub_nil l : subseq [] l
| sub_keep x a l : subseq a l -> subseq (x :: a) (x :: l)
| sub_skip x a l : subseq a l -> subseq a (x :: l).
(* every element of [l] goes to exactly one of [a] and [b], order kept *)
Inductive shuffle {A} : list A -> list A -> list A -> Prop :=
| sh_nil : shuffle [] [] []
| sh_l x a b l : shuffle a b l -> shuffle (x :: a) b (x :: l)
| sh_r x a b l : shuffle a b l -> shuffle a (x :: b) (x :: l).
(* what was put in a channel for the filter called n, what could not be, what went into channel c, what its reader received *)
Definition sentAs (s : ast) (n : bs) : list item := map snd (filter (fun e => bs_eqb (fst (fst e)) n) (a_sent s)).
Definition missed (s : ast) (n : bs) : list item := map snd (filter (fun e => bs_eqb (fst e) n) (a_miss s)).
Definition sentTo (s : ast) (c : nat) : list item := map snd (filter (fun e => Nat.eqb (snd (fst e)) c) (a_sent s)).
Definition readFrom (s : ast) (c : nat) : list item := map snd (filter (fun e => Nat.eqb (fst e) c) (a_read s)).
Definition registered (s : ast) (n : bs) : Prop := In n (akeys (a_filters s)).
(* the channel the filter called n reads from, when it can take one more item *)
Definition canTake (s : ast) (n : bs) (c : nat) : Prop :=
  aget bs_eqb (a_filters s) n = Some c /\ exists k, nth_error (a_chans s) c = Some k /\ k_bad k = false /\ length (k_items k) < k_cap k.
(* what a log call may change: the queue, the items it took and those it did not *)
Definition sameBut (s s' : ast) : Prop :=
  a_cap s' = a_cap s /\ a_filters s' = a_filters s /\ a_chans s' = a_chans s /\ a_cons s' = a_cons s /\ a_taken s' = a_taken s
  /\ a_sent s' = a_sent s /\ a_read s' = a_read s /\ a_miss s' = a_miss s.
