(* SnapModel.v: the snapshot files of the registries (registry/registry.go 57-100, 163-182, zkRegistry.go 513-525).

   Saves and flushes hold nodeRsSnapshotLock, so each is one step; within a flush every file written is a step of its own.  A file is its
   contents before JSON.  The ticker, the making of the directory and JSON itself are not modelled.  Slices are lists: the slices saved by
   zkRegistry.go have no room behind their end, so the append of 86 never writes into a saved slice. *)
From Verif Require Import Base UrlModel.

(* 46-55 *)
Record node := mkNode { n_ext : bs; n_addr : bs }.
Record service := mkService { s_group : bs; s_path : bs; s_nodes : list node }.
Definition snapmap := list (bs * list (bs * service)).
(* 163-165 *)
Definition nodeKey (u : url) : bs := uGroup u ++ s2b "_" ++ uPath u.
(* 167-182 SaveSnapshot *)
Definition saveSnapshot (m : snapmap) (reg key : bs) (v : service) : snapmap :=
  aset bs_eqb m reg (aset bs_eqb (match aget bs_eqb m reg with Some x => x | None => [] end) key v).
(* zkRegistry.go 513-525 *)
Definition zkSave (m : snapmap) (reg : bs) (nodes : list bs) (u : url) : snapmap :=
  saveSnapshot m reg (nodeKey u) (mkService (uGroup u) (uPath u) (map (mkNode []) nodes)).
(* 82-91: the maps are gone through in any order *)
Definition mergeOne (acc : list (bs * service)) (e : bs * service) : list (bs * service) :=
  match aget bs_eqb acc (fst e) with
  | Some n => aset bs_eqb acc (fst e) (mkService (s_group n) (s_path n) (s_nodes n ++ s_nodes (snd e)))
  | None => aset bs_eqb acc (fst e) (snd e)
  end.
Definition merged (entries : list (bs * service)) : list (bs * service) := fold_left mergeOne entries [].

(* 92-98; [ok]: the file could be written *)
Record snst := mkSnst { sn_map : snapmap; sn_todo : list (bs * service); sn_files : list (bs * service) }.
Inductive snop :=
| NSave (reg : bs) (nodes : list bs) (u : url)
| NFlush (entries : list (bs * service))       (* the entries of the maps, in the order they are met *)
| NWrite (ok : bool).
Definition sninit : snst := mkSnst [] [] [].
Definition entriesOf (m : snapmap) : list (bs * service) := concat (map snd m).
Definition snstep (s : snst) (o : snop) : snst :=
  match o with
  | NSave reg nodes u => match sn_todo s with [] => mkSnst (zkSave (sn_map s) reg nodes u) [] (sn_files s) | _ => s end   (* waits for the lock *)
  | NFlush es => match sn_todo s with [] => mkSnst (sn_map s) (merged es) (sn_files s) | _ => s end
  | NWrite ok =>
      match sn_todo s with
      | [] => s
      | (k, v) :: rest => mkSnst (sn_map s) rest (if ok then aset bs_eqb (sn_files s) k v else sn_files s)
      end
  end.
