(* ZkModel.v: model of the ZooKeeper registry (registry/zkRegistry.go): registering, availability and session loss, reading
   nodes; of the direct registry (registry/directRegistry.go).

   The tree holds the nodes of servers only, with who created them; that the persistent parents can be created is assumed.
   An operation on ZooKeeper takes effect while the connection is up and fails, which the code only logs, while it is down.
   Each call is one step (Register, UnRegister and the recovery are under registerLock; Available and Unavailable release it
   before they work, so overlapping calls of theirs are not covered).  Go iterates over the maps in any order; the model
   takes the order of the lists. *)
From Verif Require Import Base Strconv GoStrings GoStrings2 UrlModel UrlSpec.

Definition ident (u : url) : bs := fst (getIdentity (fresh u)).
Definition addr (u : url) : bs := fst (getAddressStr (fresh u)).
(* 675-697 toGroupPath, toServicePath, toNodeTypePath, toNodePath, toAgentNodePath (20-24) *)
Definition sep : bs := s2b "/".
Definition nodePath (ty : bs) (u : url) : bs := s2b "/motan" ++ sep ++ uGroup u ++ sep ++ uPath u ++ sep ++ ty ++ sep ++ addr u.
Definition server : bs := s2b "server".
Definition unavailable : bs := s2b "unavailableServer".
Definition agentNodePath (u : url) : bs := s2b "/motan" ++ sep ++ s2b "agent" ++ sep ++ getParam u (s2b "application") [] ++ s2b "/node" ++ sep ++ addr u.
(* registry.go 135-145 IsAgent *)
Definition isAgent (u : url) : bool := match pget (uParams u) (s2b "nodeType") with Some t => bs_eqb t (s2b "agent") | None => false end.

Definition tree := list (bs * (bool * bs)). (* path, created by this session, data *)
(* 562-580 removeNode, 582-605 createNode *)
Definition removeAt (t : tree) (p : bs) : tree := adel bs_eqb t p.
Definition createAt (t : tree) (p : bs) (u : url) : tree := aset bs_eqb (removeAt t p) p (true, ext_info u).
Definition move (from to : bs) (t : tree) (u : url) : tree := createAt (removeAt t (nodePath from u)) (nodePath to u) u.

Inductive zev := EvDisconnected | EvHasSession.
Record zst := mkZ {
  zUp : bool;                    (* the connection *)
  zTree : tree;
  zFlag : bool;                  (* available *)
  zReg : list (bs * url);        (* registeredServiceMap *)
  zAvail : list (bs * option url); (* availableServiceMap *)
  zQueue : list zev              (* events not yet handled *) }.
Definition zinit : zst := mkZ true [] true [] [] [].

Definition setTree (s : zst) (t : tree) : zst := mkZ (zUp s) (if zUp s then t else zTree s) (zFlag s) (zReg s) (zAvail s) (zQueue s).
(* 150-160 doRegister *)
Definition doRegister (s : zst) (u : url) : zst :=
  if isAgent u then setTree s (createAt (zTree s) (agentNodePath u) u) else setTree s (move server unavailable (zTree s) u).
(* 443-455 doAvailable, 473-485 doUnavailable *)
Definition setAvail (s : zst) (m : list (bs * option url)) : zst := mkZ (zUp s) (zTree s) (zFlag s) (zReg s) m (zQueue s).
Definition doAvailable (s : zst) (a : option url) : zst :=
  match a with
  | None => fold_left (fun s u => let s1 := setTree s (move unavailable server (zTree s) u) in setAvail s1 (aset bs_eqb (zAvail s1) (ident u) None)) (map snd (zReg s)) s
  | Some u => let s1 := setTree s (move unavailable server (zTree s) u) in setAvail s1 (aset bs_eqb (zAvail s1) (ident u) (Some u))
  end.
Definition doUnavailable (s : zst) (a : option url) : zst :=
  match a with
  | None => fold_left (fun s u => let s1 := setTree s (move server unavailable (zTree s) u) in setAvail s1 (adel bs_eqb (zAvail s1) (ident u))) (map snd (zReg s)) s
  | Some u => let s1 := setTree s (move server unavailable (zTree s) u) in setAvail s1 (adel bs_eqb (zAvail s1) (ident u))
  end.
(* 98-112 recoverService *)
Definition recoverService (s : zst) : zst :=
  let s1 := fold_left doRegister (map snd (zReg s)) s in fold_left doAvailable (map snd (zAvail s1)) s1.

Inductive zop :=
| ZRegister (u : url) | ZUnRegister (u : url) | ZAvailable (a : option url) | ZUnavailable (a : option url)
| ZLose            (* the connection breaks *)
| ZExpire          (* the session expires: ZooKeeper removes its nodes *)
| ZBack            (* the connection is back *)
| ZHandle          (* 81-96 handleNewSession takes an event *)
| ZForeign (p : bs) (d : option bs). (* another session creates or removes a node of its own *)
Definition setReg (s : zst) (m : list (bs * url)) : zst := mkZ (zUp s) (zTree s) (zFlag s) m (zAvail s) (zQueue s).
Definition zstep (s : zst) (o : zop) : option zst :=
  match o with
  | ZRegister u => (* 137-148 *)
      if zFlag s then match aget bs_eqb (zReg s) (ident u) with
                      | Some _ => Some s
                      | None => let s1 := doRegister s u in Some (setReg s1 (aset bs_eqb (zReg s1) (ident u) u))
                      end else Some s
  | ZUnRegister u => (* 163-175 *)
      if zFlag s then match aget bs_eqb (zReg s) (ident u) with
                      | Some _ => let s1 := setTree s (removeAt (removeAt (zTree s) (nodePath server u)) (nodePath unavailable u)) in
                                  Some (setReg s1 (adel bs_eqb (zReg s1) (ident u)))
                      | None => Some s
                      end else Some s
  | ZAvailable a => if zFlag s then Some (doAvailable s a) else Some s (* 429-441 *)
  | ZUnavailable a => if zFlag s then Some (doUnavailable s a) else Some s (* 459-471 *)
  | ZLose => if zUp s then Some (mkZ false (zTree s) (zFlag s) (zReg s) (zAvail s) (zQueue s ++ [EvDisconnected])) else None
  | ZExpire => if zUp s then None else Some (mkZ false (filter (fun e => negb (fst (snd e))) (zTree s)) (zFlag s) (zReg s) (zAvail s) (zQueue s))
  | ZBack => if zUp s then None else Some (mkZ true (zTree s) (zFlag s) (zReg s) (zAvail s) (zQueue s ++ [EvHasSession]))
  | ZHandle =>
      match zQueue s with
      | [] => None
      | EvDisconnected :: r => Some (mkZ (zUp s) (zTree s) false (zReg s) (zAvail s) r)
      | EvHasSession :: r =>
          if zFlag s then Some (mkZ (zUp s) (zTree s) true (zReg s) (zAvail s) r)
          else Some (recoverService (mkZ (zUp s) (zTree s) true (zReg s) (zAvail s) r))
      end
  | ZForeign p d =>
      match aget bs_eqb (zTree s) p with
      | Some (true, _) => Some s
      | _ => Some (mkZ (zUp s) (match d with Some x => aset bs_eqb (zTree s) p (false, x) | None => adel bs_eqb (zTree s) p end)
                       (zFlag s) (zReg s) (zAvail s) (zQueue s))
      end
  end.
Fixpoint zruns (s : zst) (os : list zop) : option zst :=
  match os with [] => Some s | o :: r => match zstep s o with Some s' => zruns s' r | None => None end end.

(* ---- reading nodes *)
(* 623-632 getNodeInfo *)
Definition getNodeInfo (d : bs) : bs :=
  match d with
  | a :: b :: _ :: _ :: t :: _ :: _ :: (_ :: _) as r =>
      if byte_eqb a xac && byte_eqb b xed then
        if byte_eqb t x74 then skipn 7 d
        else if byte_eqb t x7c && Nat.ltb 13 (length d) then skipn 13 d else d
      else d
  | _ => d
  end.
(* 634-672 nodeChildsToURLs: the names below a node, each with its data, or None when it could not be read.
   The result is None when FromExtInfo answers nil, which the code dereferences *)
Fixpoint nodeChildsToURLs (url : url) (children : list (bs * option bs)) : option (list UrlModel.url) :=
  match children with
  | [] => Some []
  | (_, None) :: r => nodeChildsToURLs url r
  | (name, Some d) :: r =>
      match (match getNodeInfo d with
             | [] =>
                 let hp := splitOn x3a name in
                 let (h, p) := match hp with h :: ps :: _ => (h, fst (parseInt64 ps)) | _ => (name, 80%Z) end in
                 Some (mkUrl (uProtocol url) h p (uPath url) (uGroup url) (Some (match uParams url with Some m => m | None => [] end)))
             | i => fromExtInfo i
             end) with
      | None => None
      | Some u =>
          match nodeChildsToURLs url r with
          | None => None
          | Some l => Some (if negb (uPort u =? 0)%Z || negb (bs_eqb (uHost u) []) then u :: l else l)
          end
      end
  end.
(* 276-291 Discover: [children] of the server path *)
Definition discover (flag : bool) (url : url) (children : option (list (bs * option bs))) : option (list UrlModel.url) :=
  if flag then match children with Some l => nodeChildsToURLs url l | None => Some [] end else Some [].

(* ---- the direct registry, directRegistry.go *)
Definition copied (u : url) : url := withParams u (Some (match uParams u with Some m => m | None => [] end)).
Definition at_ (u : url) (h : bs) (p : Z) : url := mkUrl (uProtocol u) h p (uPath u) (uGroup u) (uParams u).
(* 80-110 parseURLs *)
Definition parseOne (u : url) (add : bs) : list url :=
  if hasPrefix add (s2b "unix://") then
    [let v := at_ (copied u) add 0 in withParams v (pset (uParams v) AddressKey add)]
  else match trimSplit add (s2b ":") with
       | [h; ps] => match parseInt64 ps with (p, NumOk) => [at_ (copied u) h p] | _ => [] end
       | _ => []
       end.
Definition parseURLs (u : url) : list url :=
  if negb (bs_eqb (uHost u) []) && (0 <? uPort u)%Z then [copied u]
  else match pget (uParams u) AddressKey with
       | Some a => flat_map (parseOne u) (splitOn x2c a)
       | None => []
       end.
(* 45-58 Discover *)
Definition directDiscover (reg u : url) : list url :=
  map (fun v => mkUrl (uProtocol u) (uHost v) (uPort v) (uPath u) (if bs_eqb (uGroup v) [] then uGroup u else uGroup v)
                      (Some (match uParams u with Some m => m | None => [] end))) (parseURLs reg).
