(* GrpSpec.v *)
From Coq Require Import Permutation.
From Verif Require Import Base GoStrings2 UrlModel GrpModel.

(* [x] is [g] with [v] for the first ${idc} *)
Definition with_idc (g v x : bs) : Prop :=
  exists a b, g = a ++ s2b "${idc}" ++ b /\ (forall a' b', g = a' ++ s2b "${idc}" ++ b' -> length a <= length a') /\ x = a ++ v ++ b.
(* the registry has nodes for the group, and lists it if it lists groups *)
Definition usable (r : regv) (x : bs) : Prop := (forall gs, rv_groups r = Some gs -> In x gs) /\ rv_nodes r x <> [].
(* the mean of what is left when one smallest and one largest time are taken away *)
Definition trimmed_mean (l : list Z) (m : Z) : Prop :=
  exists mn mx rest, Permutation l (mn :: mx :: rest) /\ (forall x, In x l -> mn <= x <= mx)%Z /\ m = Z.quot (fold_right Z.add 0%Z rest) (Z.of_nat (length rest)).
(* no candidate made from the idc of this process can be used *)
Definition no_exact (lo up : bs -> bs) (idc : bs) (r : regv) (g : bs) : Prop :=
  idc = [] \/ (forall v x, In v [idc; lo idc; up idc] -> with_idc g v x -> ~ usable r x).
(* the group names that match, in the order of the registry *)
Definition the_last {A} (l : list A) (P : A -> Prop) (x : A) : Prop := exists a b, l = a ++ x :: b /\ P x /\ forall y, In y b -> ~ P y.
Definition sumL (l : list Z) : Z := fold_right Z.add 0%Z l.
(* the registries a cluster gets: known in the context and made by the factory *)
Definition okReg (known : bs -> option bool) (r : bs) : bool := match known r with Some b => b | None => false end.
(* the group used at each of them: looked for there, starting from the group used before *)
Fixpoint groupsAt (sg : bs -> bs -> bs) (g : bs) (rs : list bs) : list (bs * bs) :=
  match rs with [] => [] | r :: rest => (r, sg r g) :: groupsAt sg (sg r g) rest end.
(* the registries subscribed to, each with the group *)
Definition subsOf (evs : list gev) : list (bs * bs) := flat_map (fun e => match e with ESub r g => [(r, g)] | _ => [] end) evs.
