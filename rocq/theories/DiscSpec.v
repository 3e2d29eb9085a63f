(* DiscSpec.v: for C78. *)
From Verif Require Import Base DiscModel.

(* the registry's answers for a group, newest first *)
Definition answers (reg grp : bs) (log : list answered) : list answered := filter (fun a => bs_eqb (aReg a) reg && bs_eqb (aGrp a) grp) log.
(* what a list of services says *)
Definition says (l : list bs) (svc : bs) (b : bool) : Prop := b = true <-> In svc l.
(* the groups asked for *)
Definition pairOf (o : dop) : list (bs * bs) := match o with DCreate r g _ _ | DAsk r g _ => [(r, g)] | _ => [] end.
Definition pairs (os : list dop) : list (bs * bs) := concat (map pairOf os).
(* no two of them have the same key *)
Definition noclash (ps : list (bs * bs)) : Prop := forall r g r' g', In (r, g) ps -> In (r', g') ps -> key r g = key r' g' -> r = r' /\ g = g'.
(* the newest of the answers; no services if there are none *)
Definition newest (l : list answered) : list bs := match l with [] => [] | a :: _ => aList a end.
(* the groups a registry answered last *)
Definition newestGroups (l : list (list bs * Z)) : list bs := match l with [] => [] | (g, _) :: _ => g end.
