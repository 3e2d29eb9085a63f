(* ZkpModel.v: how the ZooKeeper registry makes its nodes and reads commands: registry/zkRegistry.go 397-420 DiscoverCommand, 523-605 removeNode,
   createNode, createPersistent, 671-712 the paths.

   The ZooKeeper server is modelled by what its calls answer: a tree of nodes, a set of nodes under which the access control allows no new
   ones, and calls that fail by the connection.  Node names that are only dots are not refused. *)
From Verif Require Import Base GoStrings UrlModel UrlSpec ZkModel.

(* path, created by a session (ephemeral), data *)
Definition ztree := list (bs * (bool * bs)).
Definition zhas (t : ztree) (p : bs) : bool := match aget bs_eqb t p with Some _ => true | None => false end.
(* 575-576: strings.Join(parts[:len(parts)-1], "/"); the root is "" *)
Definition zparent (p : bs) : bs := joinWith x2f (removelast (splitOn x2f p)).
Definition validPath (p : bs) : bool :=
  match splitOn x2f p with [] :: x :: r => forallb (fun s => negb (bs_eqb s [])) (x :: r) | _ => false end.
(* the server's answers *)
Inductive zerr := ZOk | ZNoNode | ZNodeExists | ZNoAuth | ZNoChildren | ZNotEmpty | ZConn | ZInvalid.
Definition rootOr (t : ztree) (p : bs) : bool := match p with [] => true | _ => zhas t p end.
Definition ephemeral (t : ztree) (p : bs) : bool := match aget bs_eqb t p with Some (e, _) => e | None => false end.
Definition zcreate (deny : bs -> bool) (t : ztree) (p : bs) (eph : bool) (d : bs) : zerr * ztree :=
  if negb (validPath p) then (ZInvalid, t)
  else if negb (rootOr t (zparent p)) then (ZNoNode, t)
  else if deny (zparent p) then (ZNoAuth, t)
  else if zhas t p then (ZNodeExists, t)
  else if ephemeral t (zparent p) then (ZNoChildren, t)
  else (ZOk, aset bs_eqb t p (eph, d)).
Definition hasChild (t : ztree) (p : bs) : bool := existsb (fun q => validPath q && bs_eqb (zparent q) p) (akeys t).
Definition zdelete (t : ztree) (p : bs) : zerr * ztree :=
  if negb (zhas t p) then (ZNoNode, t) else if hasChild t p then (ZNotEmpty, t) else (ZOk, adel bs_eqb t p).

(* the state of a caller: the tree and which of the next calls fail by the connection; after these no more *)
Definition zw := (ztree * list bool)%type.
Definition fault (w : zw) : bool * zw := match snd w with [] => (false, w) | f :: r => (f, (fst w, r)) end.
Definition callCreate (deny : bs -> bool) (w : zw) (p : bs) (eph : bool) (d : bs) : zerr * zw :=
  let (f, w1) := fault w in
  if f then (ZConn, w1) else let (e, t) := zcreate deny (fst w1) p eph d in (e, (t, snd w1)).
(* None: a connection error *)
Definition callExists (w : zw) (p : bs) : option bool * zw := let (f, w1) := fault w in (if f then None else Some (zhas (fst w1) p), w1).
Definition callDelete (w : zw) (p : bs) : zerr * zw :=
  let (f, w1) := fault w in if f then (ZConn, w1) else let (e, t) := zdelete (fst w1) p in (e, (t, snd w1)).

(* 570-582 createPersistent(path, true); [None]: not done after [fuel] nested calls *)
Fixpoint createPersistent (fuel : nat) (deny : bs -> bool) (w : zw) (p : bs) : option zw :=
  match fuel with
  | O => None
  | S f =>
      let (e, w1) := callCreate deny w p false [] in
      match e with
      | ZNoNode => match createPersistent f deny w1 (zparent p) with Some w2 => createPersistent f deny w2 p | None => None end
      | _ => Some w1
      end
  end.
(* 523-540 removeNode *)
Definition removeNodeZ (w : zw) (p : bs) : zw :=
  let (x, w1) := callExists w p in match x with Some true => snd (callDelete w1 p) | _ => w1 end.
(* 554-567 createNode, given the two paths *)
Definition createNodeZ (fuel : nat) (deny : bs -> bool) (w : zw) (typePath node : bs) (d : bs) : option zw :=
  let w1 := removeNodeZ w node in
  let (x, w2) := callExists w1 typePath in
  match x with
  | None => Some w2
  | Some b =>
      match (if b then Some w2 else createPersistent fuel deny w2 typePath) with
      | Some w3 => Some (snd (callCreate deny w3 node true d))
      | None => None
      end
  end.
(* 679-681 toNodeTypePath, 691-701 toAgentPath, toAgentNodeTypePath, 683-685, 703-708: see ZkModel.v *)
Definition typePathOf (ty : bs) (u : url) : bs := s2b "/motan" ++ sep ++ uGroup u ++ sep ++ uPath u ++ sep ++ ty.
Definition agentTypePath (u : url) : bs := s2b "/motan" ++ sep ++ s2b "agent" ++ sep ++ getParam u (s2b "application") [] ++ s2b "/node".
(* 542-553 createNode: the paths of a node type *)
Definition createNode (fuel : nat) (deny : bs -> bool) (w : zw) (u : url) (ty : bs) : option zw :=
  if bs_eqb ty (s2b "agent") then createNodeZ fuel deny w (agentTypePath u) (agentNodePath u) (ext_info u)
  else createNodeZ fuel deny w (typePathOf ty u) (nodePath ty u) (ext_info u).
(* 675-677 toCommandPath, 710-712 toAgentCommandPath *)
Definition commandPath (u : url) : bs := s2b "/motan" ++ sep ++ uGroup u ++ s2b "/command".
Definition agentCommandPath (u : url) : bs := s2b "/motan" ++ sep ++ s2b "agent" ++ sep ++ getParam u (s2b "application") [] ++ s2b "/command".
(* 397-420 DiscoverCommand; [get]: what Get gives, None an error *)
Definition discoverCommand (avail : bool) (w : zw) (u : url) : bs * zw :=
  if avail then
    let p := if isAgent u then agentCommandPath u else commandPath u in
    let (x, w1) := callExists w p in
    match x with
    | Some true => let (f, w2) := fault w1 in
                   if f then ([], w2) else match aget bs_eqb (fst w2) p with Some (_, d) => (getNodeInfo d, w2) | None => ([], w2) end
    | _ => ([], w1)
    end
  else ([], w).
