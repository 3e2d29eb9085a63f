(* MetaSpec.v: for C79. *)
From Verif Require Import Base GoStrings MetaModel.

(* the last change of a key, if any *)
Fixpoint lastChange (k : bs) (os : list dynop) (acc : option bs) : option bs :=
  match os with
  | [] => acc
  | MPut k' v :: r => lastChange k r (if bs_eqb k' k then Some v else acc)
  | MDel k' :: r => lastChange k r (if bs_eqb k' k then None else acc)
  end.
Definition orElse {A} (a b : option A) : option A := match a with Some _ => a | None => b end.
(* the variable name=value *)
Definition isVar (env k v : bs) : Prop := env = k ++ s2b "=" ++ v /\ ~ In x3d k.
Definition var (kv : bs * bs) : bs := fst kv ++ s2b "=" ++ snd kv.
Definition plainVar (kv : bs * bs) : Prop := ~ In x3d (fst kv) /\ ~ In x3d (snd kv).
(* the asks that ended *)
Definition ended (s : mst) (t : nat) (e : mep) (o : mout) : Prop := nth_error (mAsks s) t = Some (mkMask e (PDone o)).
