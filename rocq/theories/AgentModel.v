(* AgentModel.v: model of the clusters of the agent (agent.go): how a request finds one, how they are made when the agent
   starts or a service is subscribed, and how they are replaced when the configuration is reloaded.

   A cluster is the number of the NewCluster call that made it; what it does with a request is in ClusterModel.v.
   Atomic steps: a load, a store or a swap of a CopyOnWriteMap (core/map.go 106-180: one load of an atomic.Value, or under
   its mutex), SafeDoFunc (under the same mutex), one NewCluster, one Destroy.  clsLock excludes two reloads and the last
   store of initCluster.  The refers of a configuration and the dynamic subscriptions are Go maps: the order in which
   reloadClusters takes them is given by the operation.
   Not modelled: the unsynchronised read of configurer.subscribeNodes (509) while a subscription writes it. *)
From Verif Require Import Base Strconv GoStrings2 UrlModel UrlSpec.

Definition ApplicationKey := s2b "application".
Definition MGroup := s2b "M_g".
Definition MVersion := s2b "M_v".
Definition MProxyProtocol := s2b "M_pp".
Definition MSource := s2b "M_s".
Definition V1GroupKey := s2b "group".

(* 98-101 serviceMapItem *)
Record item := mkItem { iUrl : url; iCluster : nat }.
Definition smap := list (bs * list item).

(* 517-519, 601-603: fill in the agent's application.  None = panic, assignment to an entry of a nil map *)
Definition fillApp (app : bs) (u : url) : option url :=
  match uParams u with
  | None => None
  | Some m => Some (match pgetD (Some m) ApplicationKey with [] => withParams u (pset (Some m) ApplicationKey app) | _ => u end)
  end.

(* 1047-1053 getClusterKey, with the arguments of 522 and 621 *)
Definition clusterKey (u : url) : bs :=
  let p := if bs_eqb (uProtocol u) (s2b "cedrus") then s2b "motan2" else uProtocol u in
  uGroup u ++ s2b "_" ++ getStringParamsWithDefault u VersionKey (s2b "1.0") ++ s2b "_" ++ p ++ s2b "_" ++ uPath u.

(* 845-877 findCluster *)
Inductive why := EmptyService | UnknownService | EmptyGroup | NoMatch.
Definition att (a : list (bs * bs)) (k : bs) : bs := match aget bs_eqb a k with Some v => v | None => [] end.
Definition findCluster (m : smap) (service : bs) (a : list (bs * bs)) : nat + why :=
  if bs_eqb service [] then inr EmptyService
  else match aget bs_eqb m service with
  | None => inr UnknownService
  | Some [it] => inl (iCluster it)
  | Some its =>
      let group := att a MGroup in
      if bs_eqb group [] then inr EmptyGroup
      else match find (fun it => isMatch (iUrl it) service group (att a MProxyProtocol) (att a MVersion)) its with
           | Some it => inl (iCluster it)
           | None => inr NoMatch
           end
  end.

(* 828-837 Call: which of the clusters, the http clusters (by domain) or the error answers *)
Inductive target := ToCluster (c : nat) | ToHttp (c : nat) | Refused (w : why).
Definition route (m : smap) (http : list (bs * nat)) (service : bs) (a : list (bs * bs)) : target :=
  match findCluster m service a with
  | inl c => ToCluster c
  | inr w => match aget bs_eqb http service with Some h => ToHttp h | None => Refused w end
  end.

(* 800-826 fillDefaultReqInfo *)
Definition setAtt (a : list (bs * bs)) (k v : bs) : list (bs * bs) := aset bs_eqb a k v.
Definition fillAppV1 (u : url) (a : list (bs * bs)) : list (bs * bs) :=
  match att a ApplicationKey with
  | [] => match getParam u ApplicationKey [] with [] => a | app => setAtt a ApplicationKey app end
  | _ => a
  end.
Definition fillSource (u : url) (a : list (bs * bs)) : list (bs * bs) :=
  match att a MSource with
  | [] => match att a ApplicationKey with
          | [] => match getParam u ApplicationKey [] with [] => a | app => setAtt a MSource app end
          | app => setAtt a MSource app
          end
  | _ => a
  end.
Definition fillGroup (k : bs) (u : url) (a : list (bs * bs)) : list (bs * bs) :=
  match att a k with [] => setAtt a k (uGroup u) | _ => a end.
Definition fillDefault (v1 : bool) (u : url) (a : list (bs * bs)) : list (bs * bs) :=
  if v1 then fillGroup V1GroupKey u (fillAppV1 u a) else fillGroup MGroup u (fillSource u a).

(* ---- making and replacing clusters *)
(* where an initCluster (600-625) is *)
Inductive ipc := IStart | ICreated (u : url) (c : nat) | IAppended (u : url) (c : nat) | IDone.
(* where the reload (497-571) is; it holds clsLock unless RIdle *)
Inductive rphase :=
| RIdle
| RBuild (todo : list url) (keep : list bs) (cm : list (bs * nat)) (sm : smap)
| RSwapped (old : list item) (keep : list bs) (cm : list (bs * nat))
| RDestroy (old : list item) (keep : list bs).
Record ast := mkAst {
  aApp : bs;                  (* the application of the agent's URL *)
  aSmap : smap; aCmap : list (bs * nat);
  aNext : nat;                (* clusters made so far *)
  aDead : list nat;           (* clusters destroyed *)
  aReload : rphase; aJobs : list (url * ipc) }.
Definition ainit (app : bs) : ast := mkAst app [] [] 0 [] RIdle [].

Inductive aop := ABegin (u : url) | AInit (j : nat) | AReload (refs : list url) | AStep.

Definition setJob (s : ast) (j : nat) (x : url * ipc) : ast :=
  mkAst (aApp s) (aSmap s) (aCmap s) (aNext s) (aDead s) (aReload s) (list_set (aJobs s) j x).
Definition addItem (m : smap) (service : bs) (it : item) : smap :=
  aset bs_eqb m service (match aget bs_eqb m service with Some l => l ++ [it] | None => [it] end).

Definition istep (s : ast) (j : nat) (u : url) (p : ipc) : option ast :=
  match p with
  | IStart =>
      match fillApp (aApp s) u with
      | None => Some (setJob s j (u, IDone))                      (* the panic is recovered by 582 or by the caller *)
      | Some u' => Some (setJob (mkAst (aApp s) (aSmap s) (aCmap s) (S (aNext s)) (aDead s) (aReload s) (aJobs s)) j (u, ICreated u' (aNext s)))
      end
  | ICreated u' c => (* 611-620 *)
      Some (setJob (mkAst (aApp s) (addItem (aSmap s) (uPath u') (mkItem u' c)) (aCmap s) (aNext s) (aDead s) (aReload s) (aJobs s)) j (u, IAppended u' c))
  | IAppended u' c => (* 621-624 *)
      match aReload s with
      | RIdle => Some (setJob (mkAst (aApp s) (aSmap s) (aset bs_eqb (aCmap s) (clusterKey u') c) (aNext s) (aDead s) (aReload s) (aJobs s)) j (u, IDone))
      | _ => None
      end
  | IDone => None
  end.

Definition setReload (s : ast) (r : rphase) : ast := mkAst (aApp s) (aSmap s) (aCmap s) (aNext s) (aDead s) r (aJobs s).
Definition ext (u : url) : bs := ext_info u.
Definition rstep (s : ast) : option ast :=
  match aReload s with
  | RIdle => None
  | RBuild (u :: todo) keep cm sm => (* 516-556, one reference *)
      match fillApp (aApp s) u with
      | None => Some (setReload s RIdle)                          (* the panic is recovered by the manage handler; 499 unlocks *)
      | Some u' =>
          let old := match aget bs_eqb (aSmap s) (uPath u') with Some l => l | None => [] end in
          match find (fun it => bs_eqb (ext u') (ext (iUrl it))) old with
          | Some it => Some (setReload s (RBuild todo (ext u' :: keep) (aset bs_eqb cm (clusterKey u') (iCluster it)) (addItem sm (uPath u') it)))
          | None =>
              let s' := mkAst (aApp s) (aSmap s) (aCmap s) (S (aNext s)) (aDead s) (aReload s) (aJobs s) in
              Some (setReload s' (RBuild todo keep (aset bs_eqb cm (clusterKey u') (aNext s)) (addItem sm (uPath u') (mkItem u' (aNext s)))))
          end
      end
  | RBuild [] keep cm sm => (* 558 *)
      Some (mkAst (aApp s) sm (aCmap s) (aNext s) (aDead s) (RSwapped (concat (map snd (aSmap s))) keep cm) (aJobs s))
  | RSwapped old keep cm => (* 559 *)
      Some (mkAst (aApp s) (aSmap s) cm (aNext s) (aDead s) (RDestroy old keep) (aJobs s))
  | RDestroy (it :: old) keep => (* 562-570, one item *)
      Some (mkAst (aApp s) (aSmap s) (aCmap s) (aNext s)
                  (if existsb (bs_eqb (ext (iUrl it))) keep then aDead s else aDead s ++ [iCluster it]) (RDestroy old keep) (aJobs s))
  | RDestroy [] _ => Some (setReload s RIdle)
  end.

Definition astep (s : ast) (o : aop) : option ast :=
  match o with
  | ABegin u => Some (mkAst (aApp s) (aSmap s) (aCmap s) (aNext s) (aDead s) (aReload s) (aJobs s ++ [(u, IStart)]))
  | AInit j => match nth_error (aJobs s) j with Some (u, p) => istep s j u p | None => None end
  | AReload refs => match aReload s with RIdle => Some (setReload s (RBuild refs [] [] [])) | _ => None end
  | AStep => rstep s
  end.
Fixpoint aruns (s : ast) (os : list aop) : option ast :=
  match os with [] => Some s | o :: r => match astep s o with Some s' => aruns s' r | None => None end end.
