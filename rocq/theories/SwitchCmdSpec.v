(* SwitchCmdSpec.v: vocabulary of C59. *)
From Coq Require Import Permutation.
From Verif Require Import Base GoStrings UrlModel SwitchCmdModel.

(* the value a command asks for: the last piece "name:bool" naming the switcher *)
Definition commanded (cmd : option bs) (n : bs) : option bool :=
  match cmd with
  | None => None
  | Some p => fold_left (fun acc piece => match entryOf piece with Some (m, b) => if bs_eqb m n then Some b else acc | None => acc end) (splitOn x2c p) None
  end.
(* the value a switcher was registered with first *)
Definition registered (os : list swcop) (n : bs) : option bool :=
  fold_left (fun acc o => match o, acc with SwReg m v, None => if bs_eqb m n && negb (bs_eqb n []) then Some v else acc | _, _ => acc end) os None.
Definition isOpenNow (s : swst) (n : bs) : option bool := aget bs_eqb (sVals s) n.
Definition anyOrder (ord : list (bs * bool) -> list (bs * bool)) : Prop := forall l, Permutation l (ord l).
(* actions of several clusters of one process *)
Definition clusterValue (ord : list (bs * bool) -> list (bs * bool)) (os : list (nat * swcop)) (n : bs) : option bool := isOpenNow (swcrun ord (map snd os)) n.
Definition currentCommand (os : list (nat * swcop)) (c : nat) : option bs :=
  fold_left (fun acc o => match o with (k, SwCmd p) => if Nat.eqb k c then p else acc | _ => acc end) os None.
