(* GrpModel.v: how a cluster finds the group it subscribes to and its registries (cluster/motanCluster.go 305-355, 442-575).

   Parameters: strings.ToLower and ToUpper, the compiled regular expression, what a registry answers (the same answers during one search),
   the round trip times a pinger measures for a group, and the orders in which the two maps of getBestGroup are gone through. *)
From Verif Require Import Base GoStrings2 UrlModel.

(* 442-444 *)
Definition idcHolder : bs := s2b "${idc}".
(* strings.Replace(g, clusterIdcPlaceHolder, v, 1) *)
Definition replaceIdc (g v : bs) : bs :=
  match indexOf g idcHolder with Some i => firstn i g ++ v ++ skipn (i + length idcHolder) g | None => g end.
(* 452-469; 458-466: a group already there is not added again *)
Definition addGroup (l : list bs) (g : bs) : list bs := if existsb (bs_eqb g) l then l else l ++ [g].
Definition preGroups (lo up : bs -> bs) (idc g : bs) : list bs :=
  if bs_eqb idc [] then []
  else addGroup (addGroup [replaceIdc g idc] (replaceIdc g (lo idc))) (replaceIdc g (up idc)).

(* a registry: the groups it knows, if it can be asked for them, and the nodes it has for the service in a group *)
Record regv := mkRegv { rv_groups : option (list bs); rv_nodes : bs -> list bs }.
Definition hasNodes (r : regv) (g : bs) : bool := match rv_nodes r g with [] => false | _ => true end.

(* 546-558: the mean of the round trip times without the smallest and the largest *)
Definition meanRtt (l : list Z) : Z :=
  let mn := fold_left (fun m r => if (r <? m)%Z then r else m) l (hd 0%Z l) in
  let mx := fold_left (fun m r => if (m <? r)%Z then r else m) l (hd 0%Z l) in
  let total := fold_left (fun t r => wrapI64 (t + r)) l 0%Z in
  Z.quot (wrapI64 (total - mn - mx)) (Z.of_nat (length l) - 2).
(* 536-544; None: no pinger could be made *)
Definition rttOf (ping : bs -> option (list Z)) (g : bs) : option Z :=
  match ping g with
  | Some l => if Nat.ltb (length l) 3 then None else Some (meanRtt l)
  | None => None
  end.
(* 534-559: [order] are the keys of groupNodes *)
Definition measured (ping : bs -> option (list Z)) (order : list bs) : list (bs * Z) :=
  flat_map (fun g => match rttOf ping g with Some t => [(g, t)] | None => [] end) order.
(* 561-569: [order2] are the entries of groupRtt *)
Definition pickGroup (order2 : list (bs * Z)) : bs :=
  snd (fold_left (fun acc e => if (fst acc =? 0)%Z || (snd e <? fst acc)%Z then (snd e, fst e) else acc) order2 (0%Z, [])).
(* 525-575 *)
Definition bestGroup (order : list bs) (order2 : list (bs * Z)) : bs :=
  if bs_eqb (pickGroup order2) [] then last order [] else pickGroup order2.

(* 446-523 *)
Definition subscribeGroup (lo up : bs -> bs) (rx : bs -> option (bs -> bool)) (idc : bs) (r : regv) (order : list bs) (order2 : list (bs * Z)) (g : bs) : bs :=
  if negb (contains g idcHolder) then g
  else
    let pre := preGroups lo up idc g in
    match rv_groups r with
    | None => match find (hasNodes r) pre with Some x => x | None => g end
    | Some groups =>
        match find (fun x => existsb (bs_eqb x) groups && hasNodes r x) pre with
        | Some x => x
        | None =>
            match rx (s2b "^" ++ replaceIdc g (s2b "(.*)") ++ s2b "$") with
            | None => g
            | Some mt =>
                let matched := filter mt groups in
                if existsb (hasNodes r) matched then bestGroup order order2
                else match matched with [] => g | _ => last matched [] end
            end
        end
    end.

(* ------------------------------------------------------------ 305-342 parseRegistry *)
Inductive gev :=
| ESub (reg group : bs)         (* Subscribe of the registry itself or of its command wrapper *)
| EDisc (reg group : bs)
| ENotify (reg group : bs).     (* Notify with the nodes found *)
(* [known]: the registry's url in the context and, if so, whether the factory gives a registry; [sg]: getSubscribeGroup at this registry *)
Definition regStep (known : bs -> option bool) (sg : bs -> bs -> bs) (acc : list gev * list bs * bs * option bs) (r : bs) : list gev * list bs * bs * option bs :=
  let '(evs, regs, group, err) := acc in
  match known r with
  | None => (evs, regs, group, Some r)          (* 335: the error of a later registry replaces that of an earlier one *)
  | Some false => acc
  | Some true => let g := sg r group in (evs ++ [ESub r g; EDisc r g; ENotify r g], regs ++ [r], g, err)
  end.
Inductive perr := PMissing | PInvalid (reg : bs).
Definition parseRegistry (known : bs -> option bool) (sg : bs -> bs -> bs) (regs : option bs) (group : bs) : list gev * list bs * bs * option perr :=
  match regs with
  | None => ([], [], group, Some PMissing)
  | Some s =>
      let '(evs, rs, g, err) := fold_left (regStep known sg) (trimSplit s (s2b ",")) ([], [], group, None) in
      (evs, rs, g, option_map PInvalid err)
  end.
(* 281-299 Destroy: Unsubscribe from every registry, with the group the cluster has then *)
Definition unsubs (res : list gev * list bs * bs * option perr) : list (bs * bs) :=
  let '(_, rs, g, _) := res in map (fun r => (r, g)) rs.
