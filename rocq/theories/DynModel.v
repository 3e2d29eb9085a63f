(* DynModel.v: model of the registrations and subscriptions made at run time (dynamicConfig.go), of exporting in the agent
   (agent.go 915-964, 1296-1333), and of the agent's availability status (agent.go 172-182, 309-347).

   Atomic steps: doRegister, doUnregister, doSubscribe (each under its lock), the copy made by getRegistryInfo (under both
   locks), truncating a file, writing it.  saveLock is held from the copy to the end of the write.
   The snapshot file holds the URLs themselves: that JSON reads back what it wrote is assumed.  [None] is a file that is
   missing or that cannot be parsed, such as one that has just been truncated.
   Whether a provider, a server and the registries can be had for a URL (920-954) is told by the operation. *)
From Verif Require Import Base Strconv GoStrings GoStrings2 UrlModel UrlSpec.

(* core/url.go 43-54, 83-87: of a URL without cached text (handlers clear it, agent.go 131; recovered URLs have none) *)
Definition ident (u : url) : bs := fst (getIdentity (fresh u)).
Definition identReg (u : url) : bs := fst (getIdentityWithRegistry (fresh u)).
Definition withGroup (u : url) (g : bs) : url := mkUrl (uProtocol u) (uHost u) (uPort u) (uPath u) g (uParams u).
(* dynamicConfig.go 92-95, 135-138 *)
Definition suffixed (suffix : bs) (u : url) : url :=
  if negb (bs_eqb suffix []) && negb (hasSuffix (uGroup u) suffix) then withGroup u (uGroup u ++ suffix) else u.

(* agent.go 1296-1303 urlExist *)
Definition urlExist (u : url) (l : list url) : bool := existsb (fun v => bs_eqb (ident u) (ident v)) l.

Inductive act := DoReg (u : url) (canExport : bool) | DoUnreg (u : url) | DoSub (u : url) | Save.
Record djob := mkDjob { jTodo : list act; jMod : list (bs + bs) (* what it changed since it last saved, for the statements *) }.
Definition content := (list url * list url)%type.
Record dst := mkDst {
  dRegSuffix : bs; dSubSuffix : bs;   (* the environment *)
  dStatic : list url; dRefers : list url; (* the configuration *)
  dExp : list (bs * url);     (* agent.serviceExporters *)
  dClusters : list url;       (* URLs of initCluster calls made for subscriptions *)
  dReg : list (bs * url); dSub : list (bs * url);
  dFile : option content; dSaving : option (nat * content * bool);
  dJobs : list djob }.

(* agent.go 915-964 doExportService, as far as serviceExporters goes *)
Definition doExport (s : dst) (u : url) (ok : bool) : dst :=
  match aget bs_eqb (dExp s) (identReg u) with
  | Some _ => s
  | None => if ok then mkDst (dRegSuffix s) (dSubSuffix s) (dStatic s) (dRefers s) (aset bs_eqb (dExp s) (identReg u) u) (dClusters s)
                             (dReg s) (dSub s) (dFile s) (dSaving s) (dJobs s) else s
  end.
(* 91-108 doRegister with agent.go 1313-1319 ExportService *)
Definition doRegister (s : dst) (u0 : url) (ok : bool) : dst :=
  let u := suffixed (dRegSuffix s) u0 in
  match aget bs_eqb (dReg s) (identReg u) with
  | Some _ => s
  | None =>
      if urlExist u (dStatic s) then s
      else let s1 := doExport s u ok in
           mkDst (dRegSuffix s1) (dSubSuffix s1) (dStatic s1) (dRefers s1) (dExp s1) (dClusters s1)
                 (aset bs_eqb (dReg s1) (identReg u) u) (dSub s1) (dFile s1) (dSaving s1) (dJobs s1)
  end.
(* agent.go 1321-1333 UnexportService *)
Definition doUnexport (s : dst) (u : url) : dst :=
  if urlExist u (dStatic s) then s
  else mkDst (dRegSuffix s) (dSubSuffix s) (dStatic s) (dRefers s) (adel bs_eqb (dExp s) (ident u)) (dClusters s)
             (dReg s) (dSub s) (dFile s) (dSaving s) (dJobs s).
(* 119-128 doUnregister *)
Definition doUnregister (s : dst) (u : url) : dst :=
  match aget bs_eqb (dReg s) (identReg u) with
  | Some _ => let s1 := doUnexport s u in
              mkDst (dRegSuffix s1) (dSubSuffix s1) (dStatic s1) (dRefers s1) (dExp s1) (dClusters s1)
                    (adel bs_eqb (dReg s1) (identReg u)) (dSub s1) (dFile s1) (dSaving s1) (dJobs s1)
  | None => s
  end.
(* 148-160 doSubscribe with agent.go 1305-1311 SubscribeService *)
Definition doSubscribe (s : dst) (u : url) : dst :=
  match aget bs_eqb (dSub s) (ident u) with
  | Some _ => s
  | None => mkDst (dRegSuffix s) (dSubSuffix s) (dStatic s) (dRefers s) (dExp s)
                  (if urlExist u (dRefers s) then dClusters s else dClusters s ++ [u])
                  (dReg s) (aset bs_eqb (dSub s) (ident u) u) (dFile s) (dSaving s) (dJobs s)
  end.
Definition listing (s : dst) : content := (map snd (dReg s), map snd (dSub s)).

(* 82-89, 110-117, 130-146: the calls of a request, one for each of its groups (353-407) *)
Inductive request := Register (us : list (url * bool)) | Unregister (us : list url) | Subscribe (us : list url).
Definition plan (subSuffix : bs) (r : request) : list act :=
  match r with
  | Register us => flat_map (fun x => [DoReg (fst x) (snd x); Save]) us
  | Unregister us => flat_map (fun u => [DoUnreg u; Save]) us
  | Subscribe us => flat_map (fun u =>
      if negb (bs_eqb subSuffix []) && negb (hasSuffix (uGroup u) subSuffix)
      then [DoSub u; DoSub (withGroup u (uGroup u ++ subSuffix)); Save] else [DoSub u; Save]) us
  end.

Definition setDJob (s : dst) (j : nat) (x : djob) : dst :=
  mkDst (dRegSuffix s) (dSubSuffix s) (dStatic s) (dRefers s) (dExp s) (dClusters s) (dReg s) (dSub s) (dFile s) (dSaving s) (list_set (dJobs s) j x).
Definition setFile (s : dst) (f : option content) (sv : option (nat * content * bool)) : dst :=
  mkDst (dRegSuffix s) (dSubSuffix s) (dStatic s) (dRefers s) (dExp s) (dClusters s) (dReg s) (dSub s) f sv (dJobs s).

(* one step of a request; Save takes three: copy, truncate, write *)
Definition jobStep (s : dst) (j : nat) (x : djob) : option dst :=
  match jTodo x with
  | [] => None
  | DoReg u ok :: r => Some (setDJob (doRegister s u ok) j (mkDjob r (inl (identReg (suffixed (dRegSuffix s) u)) :: jMod x)))
  | DoUnreg u :: r => Some (setDJob (doUnregister s u) j (mkDjob r (inl (identReg u) :: jMod x)))
  | DoSub u :: r => Some (setDJob (doSubscribe s u) j (mkDjob r (inr (ident u) :: jMod x)))
  | Save :: r =>
      match dSaving s with
      | None => Some (setFile s (dFile s) (Some (j, listing s, false)))
      | Some (i, c, t) =>
          if Nat.eqb i j
          then if t then Some (setDJob (setFile s (Some c) None) j (mkDjob r [])) else Some (setFile s None (Some (j, c, true)))
          else None
      end
  end.

(* 57-80 doRecover.  What can be exported is told again *)
Definition recoverAll (s : dst) (c : content) (oks : url -> bool) : dst :=
  fold_left doSubscribe (snd c) (fold_left (fun s u => doRegister s u (oks u)) (fst c) s).
(* a start: the configured services are exported, then, in recover mode, the snapshot is applied (agent.go 889-895, 220) *)
Definition started (s : dst) : dst :=
  mkDst (dRegSuffix s) (dSubSuffix s) (dStatic s) (dRefers s)
        (fold_left (fun m u => match aget bs_eqb m (identReg u) with Some _ => m | None => aset bs_eqb m (identReg u) u end) (dStatic s) [])
        [] [] [] (dFile s) None [].
Definition restart (s : dst) (recover : bool) (oks : url -> bool) : dst :=
  if recover then match dFile s with Some c => recoverAll (started s) c oks | None => started s end else started s.
Definition dinit (regSuffix subSuffix : bs) (static refers : list url) : dst :=
  started (mkDst regSuffix subSuffix static refers [] [] [] [] None None []).

Inductive dop := Request (r : request) | JobStep (j : nat) | Crash (recover : bool) (oks : url -> bool).
Definition dstep (s : dst) (o : dop) : option dst :=
  match o with
  | Request r => Some (mkDst (dRegSuffix s) (dSubSuffix s) (dStatic s) (dRefers s) (dExp s) (dClusters s) (dReg s) (dSub s) (dFile s) (dSaving s)
                             (dJobs s ++ [mkDjob (plan (dSubSuffix s) r) []]))
  | JobStep j => match nth_error (dJobs s) j with Some x => jobStep s j x | None => None end
  | Crash recover oks => Some (restart s recover oks)
  end.
Fixpoint druns (s : dst) (os : list dop) : option dst :=
  match os with [] => Some s | o :: r => match dstep s o with Some s' => druns s' r | None => None end end.

(* ---- the agent's status, agent.go 172-182, 309-347 and 231-234 *)
(* where a SetAllServicesAvailable (true) or SetAllServicesUnavailable (false) is *)
Inductive spc := SStart | SServices | SStored | STruncated | SDone.
Record tst := mkTst { tServices : bool (* what the registries were last told *); tStatus : Z; tFile : option bs; tJobs : list (bool * spc) }.
Definition tinit : tst := mkTst false 503 None [].
Definition statusOf (b : bool) : Z := if b then 200 else 503.
(* 322-329 saveStatus *)
Definition savedStatus : bs := fmtZ 200.
(* 331-347 recoverStatus *)
Definition recovered (f : option bs) : Z :=
  match f with
  | None => 503
  | Some b => match parseInt64 b with (z, NumOk) => if (z =? 200)%Z then 200 else 503 | _ => 503 end
  end.
Inductive top := TCall (b : bool) | TStep (j : nat) | TCrash (recover : bool).
Definition tstep (s : tst) (o : top) : option tst :=
  match o with
  | TCall b => Some (mkTst (tServices s) (tStatus s) (tFile s) (tJobs s ++ [(b, SStart)]))
  | TStep j =>
      match nth_error (tJobs s) j with
      | Some (b, SStart) => Some (mkTst b (tStatus s) (tFile s) (list_set (tJobs s) j (b, SServices)))
      | Some (b, SServices) => Some (mkTst (tServices s) (statusOf b) (tFile s) (list_set (tJobs s) j (b, SStored)))
      | Some (b, SStored) => Some (mkTst (tServices s) (tStatus s) (Some []) (list_set (tJobs s) j (b, STruncated)))
      | Some (b, STruncated) => Some (mkTst (tServices s) (tStatus s) (Some savedStatus) (list_set (tJobs s) j (b, SDone)))
      | _ => None
      end
  | TCrash recover =>
      let st := if recover then recovered (tFile s) else 503%Z in
      Some (mkTst (st =? 200)%Z st (tFile s) [])
  end.
Fixpoint truns (s : tst) (os : list top) : option tst :=
  match os with [] => Some s | o :: r => match tstep s o with Some s' => truns s' r | None => None end end.
