(* ConfSpec.v: what a configuration says, in terms of paths of keys, for C41, C66 and C67. *)
From Verif Require Import Base Strconv GoStrings ConfModel.

(* the value found by following the keys of [p] from [v], if any *)
Fixpoint get (p : list ckey) (v : cval) : option cval :=
  match p with
  | [] => Some v
  | k :: r => match v with
              | CMap m => match aget ckey_eqb m k with Some x => get r x | None => None end
              | _ => None
              end
  end.

(* a tree that comes from Go maps: no map holds a key twice *)
Definition wf (v : cval) : Prop := forall p m, get p v = Some (CMap m) -> NoDup (map fst m).
(* a tree made by the YAML parser: every map is a map[interface{}]interface{}, every slice a []interface{} *)
Definition yaml (v : cval) : Prop := forall p k n, get p v <> Some (COther k n).

Definition is_map (v : cval) : Prop := exists m, v = CMap m.
Definition is_list (v : cval) : Prop := exists l, v = CList l.
Definition scalar (v : cval) : Prop := v <> CNil /\ ~ is_map v /\ ~ is_list v.

(* [q] is an initial part of [p] *)
Definition initial (q p : list ckey) : Prop := exists r, p = q ++ r.
(* [o] says nothing about the path [p]: along it there are only maps, then nothing or nil *)
Definition silent (p : list ckey) (o : cval) : Prop :=
  forall q v, initial q p -> get q o = Some v -> v = CNil \/ (q <> p /\ is_map v).

(* the value of the last configuration of a list that is not silent about [p] *)
Definition decided_by (p : list ckey) (ls : list cmap) (c : cmap) : Prop :=
  exists before after, ls = before ++ c :: after /\ forall a, In a after -> silent p (CMap a).

(* C67: a text is a placeholder for [k] *)
Definition placeholder_for (s k : bs) : Prop := k <> [] /\ ~ In x7d k /\ s = s2b "${" ++ k ++ s2b "}".

(* C66: the documented boolean words *)
Definition documented_true : list bs :=
  map s2b ["1"; "t"; "T"; "TRUE"; "true"; "True"; "YES"; "yes"; "Yes"; "Y"; "y"; "ON"; "on"; "On"]%string.
Definition documented_false : list bs :=
  map s2b ["0"; "f"; "F"; "FALSE"; "false"; "False"; "NO"; "no"; "No"; "N"; "n"; "OFF"; "off"; "Off"]%string.

(* C41: the files of a pool, from the least to the most specific *)
Definition dash_prefix (q s : bs) : Prop := q = s \/ exists r, s = q ++ s2b "-" ++ r.
Definition location_file (root r : bs) : bs := root ++ s2b "http/location/" ++ r ++ s2b ".yaml".
(* [f] lies in directory [dir] of the configuration *)
Definition under (path : bs) (dir : bs) (f : bs) : Prop := exists r, f = path ++ dir ++ r.
(* the names of the location files that exist are among [us] *)
Definition locations_are (fs : files) (root : bs) (us : list bs) : Prop :=
  forall r, fs (location_file root r) <> None -> In r us.
Definition application_name (app pool : bs) : bs :=
  match app with [] => match splitOn x2d pool with p :: _ => p | [] => [] end | _ => app end.

(* C67: what a section of the dynamic parameters gives for one pool *)
Definition exact_value (m : cmap) (pool : bs) (v : cval) : Prop := aget ckey_eqb m (KStr pool) = Some v /\ v <> CNil.
Definition no_exact (m : cmap) (pool : bs) : Prop :=
  aget ckey_eqb m (KStr pool) = None \/ aget ckey_eqb m (KStr pool) = Some CNil.
Definition pattern_value (rx : bs -> bool) (m : cmap) (v : cval) : Prop :=
  exists r, In (KStr (s2b "regexp:" ++ r), v) m /\ rx r = true.
