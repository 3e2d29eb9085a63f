(* AcmdSpec.v: the words of C106. *)
From Verif Require Import Base UrlModel AcmdModel.

(* the last command a cluster was told, the empty one if none *)
Definition last_told (told : list (nat * bs)) (k : nat) : bs :=
  match find (fun p => Nat.eqb (fst p) k) told with Some p => snd p | None => [] end.
Definition quiet (s : ast) : Prop := aPh s = RDone /\ aQueue s = [] /\ aPush s = TIdle /\ aInit s = TIdle.
(* no handler of the application serves commands *)
Definition no_handlers (hs : list (bs -> hres)) : Prop := forall h c, In h hs -> h c = HNo.
Definition is_change (o : aop) : Prop := exists c, o = AChange c.
Definition adds (o : aop) : Prop := exists k, o = ACluster k.
(* the commands the registry had *)
Definition changes (ops : list aop) : list bs := flat_map (fun o => match o with AChange c => [c] | _ => [] end) ops.
