(* PoolSpec.v: vocabulary of C29. *)
From Verif Require Import Base PoolModel.

(* a pool as NewChannelPool returns it and what goroutines made of it *)
Definition preach (s0 : pool) (ops : list pop) (s : pool) : Prop :=
  (exists cap lz conns opens, newPool cap lz conns = (Some s0, opens)) /\ pruns s0 ops = Some s.
(* a Get that has taken a slot and not yet given it back *)
Definition holds (g : gpc) : bool := match g with GMake | GPut _ => true | _ => false end.
(* a Get that has not returned (or panicked) *)
Definition inProgress (g : gpc) : bool := match g with GOk _ | GFail | GPanic => false | _ => true end.
Definition liveChannels (s : pool) : nat := countb (fun b => b) (pOpen s).
