(* SnapSpec.v *)
From Coq Require Import Permutation.
From Verif Require Import Base UrlModel SnapModel.

(* the last nodes this registry was found to have for this key *)
Fixpoint lastSaved (reg key : bs) (os : list (bs * list bs * url)) : option (list bs * url) :=
  match os with
  | [] => None
  | (r, ns, u) :: rest =>
      match lastSaved reg key rest with
      | Some x => Some x
      | None => if bs_eqb r reg && bs_eqb (nodeKey u) key then Some (ns, u) else None
      end
  end.
Definition saves (m : snapmap) (os : list (bs * list bs * url)) : snapmap := fold_left (fun m e => zkSave m (fst (fst e)) (snd (fst e)) (snd e)) os m.
Definition addrs (v : service) : list bs := map n_addr (s_nodes v).
(* the addresses of all registries for a key *)
Definition allAddrs (key : bs) (regs : list bs) (os : list (bs * list bs * url)) : list bs :=
  flat_map (fun r => match lastSaved r key os with Some (ns, _) => ns | None => [] end) regs.
(* one whole flush *)
Definition flushAll (files : list (bs * service)) (es : list (bs * service)) : list (bs * service) :=
  sn_files (fold_left snstep (repeat (NWrite true) (length (merged es))) (snstep (mkSnst [] [] files) (NFlush es))).
(* what a registry has under a key *)
Definition look (m : snapmap) (reg key : bs) : option service := match aget bs_eqb m reg with Some x => aget bs_eqb x key | None => None end.
