(* CoreSpec.v: vocabulary of C37, C38 and C39. *)
From Verif Require Import Base Lists Strconv CoreModel.

(* ---- C37: the last n elements of a list, oldest first, and their numbering *)
Definition last_n {A} (n : nat) (l : list A) : list A := skipn (length l - n) l.
Fixpoint numbered {V} (i : Z) (l : list (Z * V)) : list (bs * V) :=
  match l with [] => [] | (t, v) :: r => (fmtZ i ++ s2b ":" ++ fmtZ t, v) :: numbered (i + 1)%Z r end.
Fixpoint real_items {V} (l : list (Z * option V)) : list (Z * V) :=
  match l with [] => [] | (t, Some v) :: r => (t, v) :: real_items r | (_, None) :: r => real_items r end.

(* ---- C38: an ordinary map is a function from keys to optional values *)
Section Cow.
Context {V : Type}.
Definition fmap := bs -> option V.
Definition f_set (m : fmap) (k : bs) (v : V) : fmap := fun k' => if bs_eqb k' k then Some v else m k'.
Definition f_del (m : fmap) (k : bs) : fmap := fun k' => if bs_eqb k' k then None else m k'.
(* a Go map value lists exactly the bindings of a map *)
Definition lists (l : list (bs * V)) (m : fmap) : Prop := NoDup (akeys l) /\ forall k, aget bs_eqb l k = m k.

(* [explains m pend rng trace]: the outputs of the trace are those of an ordinary map with content m, where every write takes
   effect at the moment it is published and an iteration lists the map as it was when the iteration began *)
Fixpoint explains (m : fmap) (pend : list (nat * @wop V)) (rng : list (nat * fmap)) (tr : list (@cev V * @cout V)) : Prop :=
  match tr with
  | [] => True
  | (CLock _, o) :: r | (CUnlock _, o) :: r => o = OUnit /\ explains m pend rng r
  | (CRead t op, o) :: r => o = OUnit /\ explains m (aset Nat.eqb pend t op) rng r
  | (CPublish t, o) :: r =>
      let pend' := adel Nat.eqb pend t in
      match aget Nat.eqb pend t with
      | None => False
      | Some (WStore k v) => o = OUnit /\ explains (f_set m k v) pend' rng r
      | Some (WDelete k) => o = OVal (m k) /\ explains (f_del m k) pend' rng r
      | Some (WSwap n) => (exists l, o = OMap l /\ lists l m) /\ explains (aget bs_eqb n) pend' rng r
      end
  | (CLoad _ k, o) :: r => o = OVal (m k) /\ explains m pend rng r
  | (CLen _, o) :: r => (exists l, lists l m /\ o = OLen (length l)) /\ explains m pend rng r
  | (CRange t, o) :: r => o = OUnit /\ explains m pend (aset Nat.eqb rng t m) r
  | (CSee t, o) :: r => (exists l m0, aget Nat.eqb rng t = Some m0 /\ o = OMap l /\ lists l m0) /\ explains m pend rng r
  end.
(* the map handed to Swap is a map *)
Definition map_argument (e : @cev V) : Prop := match e with CRead _ (WSwap n) => NoDup (akeys n) | _ => True end.
End Cow.

(* ---- C39: what a history of operations says about a switcher: (value, listeners), None if unknown *)
Definition sw_after (name : bs) (now : option (bool * list nat)) (o : swOp) : option (bool * list nat) :=
  match o with
  | SRegister n v ls => if bs_eqb n name && negb (bs_eqb n []) then match now with None => Some (v, ls) | k => k end else now
  | SSet n v => if bs_eqb n name then match now with None => Some (v, []) | Some (_, ls) => Some (v, ls) end else now
  | SWatch n ls => if bs_eqb n name then match now with None => None | Some (v, l) => Some (v, l ++ ls) end else now
  | STell _ => now
  end.
Definition sw_known (h : list swOp) (name : bs) : option (bool * list nat) := fold_left (sw_after name) h None.
(* the notifications owed: at each change of a value, one per listener watching at that time *)
Fixpoint owed (before : list swOp) (h : list swOp) : list (bs * bool * nat) :=
  match h with
  | [] => []
  | o :: r =>
      match o with
      | SSet n v => match sw_known before n with
                    | Some (old, ls) => if Bool.eqb old v then [] else map (fun x => (n, v, x)) ls
                    | None => []
                    end
      | _ => []
      end ++ owed (before ++ [o]) r
  end.
Definition waiting (s : swState) : list (bs * bool * nat) := flat_map (fun g => map (fun x => (fst (fst g), snd (fst g), x)) (snd g)) (swGo s).
