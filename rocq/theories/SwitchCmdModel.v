(* SwitchCmdModel.v: switcher commands, /repo/cluster/command.go 524-553 processSwitcherCommand and the global
   oldSwitcherMap (line 47).  Listeners of switchers are modelled in CoreModel.v; here a switcher is its value.
   Go ranges over oldSwitcherMap in an arbitrary order: [ord] reorders it. *)
From Verif Require Import Base GoStrings UrlModel.

(* all switchers of the process, and oldSwitcherMap: the values before a command touched them *)
Record swst := mkSwst { sVals : list (bs * bool); sOld : list (bs * bool) }.
Definition swst0 : swst := mkSwst [] [].

(* 529-532: one piece of the pattern *)
Definition entryOf (piece : bs) : option (bs * bool) :=
  match splitOn x3a piece with
  | name :: v :: _ => match parseBool v with Some b => Some (name, b) | None => None end
  | _ => None
  end.
(* 533-539; GetSwitcher returns nil for an unknown name *)
Definition applyEntry (st : swst * list (bs * bool)) (piece : bs) : swst * list (bs * bool) :=
  let (s, new) := st in
  match entryOf piece with
  | Some (name, b) =>
      match aget bs_eqb (sVals s) name with
      | Some cur =>
          let old := match aget bs_eqb (sOld s) name with Some _ => sOld s | None => aset bs_eqb (sOld s) name cur end in
          (mkSwst (aset bs_eqb (sVals s) name b) old, aset bs_eqb new name true)
      | None => (s, new)
      end
  | None => (s, new)
  end.
(* 544-550; GetSwitcher(name) cannot be nil here: switchers are never removed *)
Definition restoreOne (st : list (bs * bool) * list (bs * bool)) (e : bs * bool) : list (bs * bool) * list (bs * bool) :=
  let (vals, new) := st in
  match aget bs_eqb new (fst e) with
  | None => (aset bs_eqb vals (fst e) (snd e), new)
  | Some _ => (vals, aset bs_eqb new (fst e) (snd e))
  end.
Section Order.
Variable ord : list (bs * bool) -> list (bs * bool).
Definition processSwitcher (s : swst) (cmd : option bs) : swst :=
  let (s1, new1) := match cmd with Some p => fold_left applyEntry (splitOn x2c p) (s, []) | None => (s, []) end in
  let (vals2, new2) := fold_left restoreOne (ord (sOld s1)) (sVals s1, new1) in
  mkSwst vals2 new2.
(* core/switcher.go 41-56: registering a name that is taken or empty does nothing *)
Inductive swcop := SwReg (name : bs) (v : bool) | SwCmd (p : option bs).
Definition swcstep (s : swst) (o : swcop) : swst :=
  match o with
  | SwReg n v => if bs_eqb n [] then s
                 else match aget bs_eqb (sVals s) n with Some _ => s | None => mkSwst (aset bs_eqb (sVals s) n v) (sOld s) end
  | SwCmd p => processSwitcher s p
  end.
Definition swcrun (os : list swcop) : swst := fold_left swcstep os swst0.
End Order.
