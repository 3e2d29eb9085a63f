(* RiModel.v: what /runtime/info reports (C111): /repo/cluster/motanCluster.go 376-429, cluster/command.go 57-70 and 339-348,
   cluster/httpCluster.go 110-118, server/motanserver.go 58-69, server/httpProxyServer.go 58-67, server/server.go 56-64, 172-181,
   236-248, agent.go 138-144, 723-727, 975-989, core/motan.go 762-775, 948-955, 998-1004, 1054-1059, filter/filter.go 75-81,
   the GetRuntimeInfo methods of providers, registries and endpoints, and manageHandler.go 837-919.
   A report is a value that json.Marshal writes; maps are association lists.  Simplified: the texts cached in a URL are taken to
   be those of the URL (C35); whether a node is available is what its IsAvailable answers at that moment; every extension
   answers a map that is not nil; the locks are not modelled (each map is read at one instant). *)
From Verif Require Import Base Strconv GoStrings GoStrings2 UrlModel CoreModel ClusterModel CmdModel.

Inductive rv := RT (t : bs) | RN (z : Z) | RB (b : bool) | RC (c : cmd) | RW (m : list (bs * bs)) | RM (m : list (bs * rv)) | RL (l : list rv).
Definition set (m : list (bs * rv)) (k : string) (v : rv) : list (bs * rv) := aset bs_eqb m (s2b k) v.
Definition identityOf (u : url) : bs := fst (getIdentity (fresh u)).
Definition withRegistryOf (u : url) : bs := fst (getIdentityWithRegistry (fresh u)).
Definition extInfoOf (u : url) : bs := fst (toExtInfo (fresh u)).
(* "if x.url != nil { info[RuntimeUrlKey] = x.url.ToExtInfo() }" *)
Definition setUrl (m : list (bs * rv)) (u : option url) : list (bs * rv) :=
  match u with Some u => set m "url" (RT (extInfoOf u)) | None => m end.

(* a filter: name, index, type; filter/filter.go 75-81, and the same three keys in core/motan.go 948-955 and 998-1004 *)
Record filt := mkFilt { fName : bs; fIndex : Z; fType : Z }.
Definition filterInfo (f : filt) : rv := RM (set (set (set [] "name" (RT (fName f))) "index" (RN (fIndex f))) "type" (RN (fType f))).

(* endpoint/motanCommonEndpoint.go 61-68; motanEndpoint.go 65-69, grpcEndpoint.go 24-28, localEndpoint.go 13-17,
   mockDynamicEndpoint.go 60-62 *)
Inductive caller := KMotan (errors : Z) (running : bool) (ktype : Z) | KOld | KGrpc | KLocal | KMockDynamic.
Definition callerInfo (c : caller) : rv :=
  match c with
  | KMotan e r t => RM (set (set (set (set [] "name" (RT (s2b "motanCommonsEndpoint"))) "errorCount" (RN e)) "keepaliveRunning" (RB r)) "keepaliveType" (RN t))
  | KOld => RM (set [] "name" (RT (s2b "motanEndpoint")))
  | KGrpc => RM (set [] "name" (RT (s2b "grpcEndpoint")))
  | KLocal => RM (set [] "name" (RT (s2b "localEndpoint")))
  | KMockDynamic => RM []
  end.

(* ---- clusters: the URL, the referers (URL, IsAvailable, caller), the registries (URL and their report), the filters of
   endpoints and the chain of cluster filters *)
Record refer := mkRefer { rfUrl : url; rfUp : bool; rfCaller : caller }.
Record clus := mkClus { clUrl : option url; clRefers : list refer; clRegs : list (url * rv); clFilters : list filt; clChain : list filt }.
(* cluster/motanCluster.go 392-402: the loop; the accumulator is (i, availableRefers, unavailableRefers) *)
Definition addRefer (st : N * list (bs * rv) * list (bs * rv)) (r : refer) : N * list (bs * rv) * list (bs * rv) :=
  let '(i, up, down) := st in
  let k := fmtN i ++ s2b "-" ++ identityOf (rfUrl r) in
  if rfUp r then ((i + 1)%N, aset bs_eqb up k (callerInfo (rfCaller r)), down)
  else ((i + 1)%N, up, aset bs_eqb down k (callerInfo (rfCaller r))).
(* 376-429 *)
Definition clusterInfo (c : clus) : list (bs * rv) :=
  let info := set [] "name" (RT (s2b "MotanCluster")) in
  let info := set info "refererSize" (RN (Z.of_nat (length (clRefers c)))) in
  let info := setUrl info (clUrl c) in
  let '(_, up, down) := fold_left addRefer (clRefers c) (0%N, [], []) in
  let info := set info "referers" (RM (set (set [] "available" (RM up)) "unavailable" (RM down))) in
  let info := set info "registries" (RM (fold_left (fun m (r : url * rv) => aset bs_eqb m (identityOf (fst r)) (snd r)) (clRegs c) [])) in
  let info := match clFilters c with [] => info | l => set info "filters" (RL (map filterInfo l)) end in
  match clChain c with [] => info | l => set info "clusterFilters" (RL (map filterInfo l)) end.

(* ---- the registry wrapper that follows commands: its state (CmdModel.v) and its two recorders of size 10 *)
Definition records (V : Type) : Type := list (option (recItem V)).
Record crwr := mkCrwr { xW : crw; xCmds : records bs; xLists : records (list bs) }.
(* cluster/command.go 33, 169 *)
Definition newCrwr (u : url) : crwr := mkCrwr (newCrw u) (newRecorder bs 10) (newRecorder (list bs) 10).
(* 339-348 toRecordInfo *)
Definition toRecordInfo (l : list url) : list bs := map withRegistryOf l.
Definition note {V} (r : records V) (now : Z) (v : V) : records V := match addRecord r now (Some v) with Some r' => r' | None => r end.
(* one event at time [now]: 405 every command text is recorded; 331-334 a list is recorded when it was handed over by
   getResultWithCommand(true), which Discover does not use; 257-272 clear makes new recorders *)
Definition xStep (lib : cmdlib) (x : crwr) (e : Z * wop) : crwr :=
  let (now, o) := e in
  let (w', out) := wStep lib (xW x) o in
  match o with
  | WCommand _ info _ => mkCrwr w' (note (xCmds x) now info) (match out with Some l => note (xLists x) now (toRecordInfo l) | None => xLists x end)
  | WDiscover _ service _ => mkCrwr w' (note (xCmds x) now service) (xLists x)
  | WUnsubscribe => mkCrwr w' (newRecorder bs 10) (newRecorder (list bs) 10)
  | _ => mkCrwr w' (xCmds x) (match out with Some l => note (xLists x) now (toRecordInfo l) | None => xLists x end)
  end.
Definition xRun (lib : cmdlib) (u : url) (es : list (Z * wop)) : crwr := fold_left (xStep lib) es (newCrwr u).
(* 57-70; [name] is the name of the wrapped registry *)
Definition wrapperInfo (name : bs) (x : crwr) : list (bs * rv) :=
  let info := set [] "name" (RT (s2b "commandWrapper:" ++ name)) in
  let info := set info "weight" (RW (cwWeights (xW x))) in
  let info := match cwStatic (xW x) with Some c => set info "staticCommand" (RC c) | None => info end in
  let info := set info "agentCommand" (RT (cwAgent (xW x))) in
  let info := set info "serviceCommand" (RT (cwService (xW x))) in
  let info := set info "commandHistory" (RM (map (fun p => (fst p, RT (snd p))) (getRecords (xCmds x)))) in
  set info "notifyHistory" (RM (map (fun p => (fst p, RL (map RT (snd p)))) (getRecords (xLists x)))).

(* ---- providers: provider/provider.go 58-64, httpProvider.go 46-54, httpxProvider.go 35-41, cgiProvider.go 33-38,
   metaProvider.go 66-71, motanProvider.go 18-26; server/server.go 236-248 a provider behind a chain of filters *)
Inductive prov := PDefault (u : option url) | PHttp (u : option url) | PHttpx (u : option url) | PCgi | PMeta
                | PMotan (u : option url) (up : bool) (ep : caller) | PWrap (p : prov) (chain : list filt).
Fixpoint providerInfo (p : prov) : list (bs * rv) :=
  match p with
  | PDefault u | PHttpx u => setUrl [] u
  | PHttp u => setUrl (set [] "name" (RT (s2b "HTTPProvider"))) u
  | PCgi => set [] "name" (RT (s2b "CgiProvider"))
  | PMeta => set [] "name" (RT (s2b "metaProvider"))
  | PMotan u up ep => set (set (setUrl [] u) "available" (RB up)) "endpoint" (callerInfo ep)
  | PWrap p chain => match chain with [] => providerInfo p | l => set (providerInfo p) "filters" (RL (map filterInfo l)) end
  end.
(* server/server.go 56-64 *)
Record expo := mkExpo { exUrl : option url; exProv : prov; exUp : bool }.
Definition exporterInfo (e : expo) : list (bs * rv) :=
  set (set (setUrl [] (exUrl e)) "provider" (RM (providerInfo (exProv e)))) "isAvailable" (RB (exUp e)).

(* ---- servers: agent.go 723-727 and 975-989, server/server.go 172-181, server/motanserver.go 58-69, server/httpProxyServer.go 58-67 *)
Inductive hand := HAgent | HServerAgent (ps : list (bs * prov)) | HDefault (ps : list (bs * prov)).
Definition providersInfo (ps : list (bs * prov)) : rv := RM (fold_left (fun m (p : bs * prov) => aset bs_eqb m (fst p) (RM (providerInfo (snd p)))) ps []).
Definition handlerInfo (h : hand) : list (bs * rv) :=
  match h with
  | HAgent => set [] "messageHandlerType" (RT (s2b "agentMessageHandler"))
  | HServerAgent ps => set (set [] "messageHandlerType" (RT (s2b "serverAgentMessageHandler"))) "providers" (providersInfo ps)
  | HDefault ps => set (set [] "messageHandlerType" (RT (s2b "defaultMessageHandler"))) "providers" (providersInfo ps)
  end.
Record serv := mkServ { svProxy : bool; svMax : Z; svBeat : bool; svUrl : option url; svHand : hand }.
Definition serverInfo (s : serv) : list (bs * rv) :=
  let info := set [] "proxy" (RB (svProxy s)) in
  let info := set info "maxContentLength" (RN (svMax s)) in
  let info := set info "heartbeatEnabled" (RB (svBeat s)) in
  set (setUrl info (svUrl s)) "messageHandler" (RM (handlerInfo (svHand s))).
Record hprox := mkHprox { hxUrl : option url; hxDeny : list bs; hxKeep : bool; hxDomain : bs }.
Definition httpProxyInfo (h : hprox) : list (bs * rv) :=
  set (set (set (setUrl [] (hxUrl h)) "deny" (RL (map RT (hxDeny h)))) "keepalive" (RB (hxKeep h))) "defaultDomain" (RT (hxDomain h)).

(* ---- the agent *)
Record agt := mkAgt { aClusters : list (bs * clus); aHttp : list (bs * option url); aExporters : list (bs * expo);
                      aServer : option serv; aPorts : list (Z * serv); aProxy : option hprox;
                      aRegistries : list (bs * rv); aStart : Z; aCpu : Z; aRss : Z }.
(* manageHandler.go 862-873 *)
Definition getClusterInfo (a : agt) : list (bs * rv) :=
  fold_left (fun m (p : bs * clus) => aset bs_eqb m (fst p) (RM (clusterInfo (snd p)))) (aClusters a) [].
(* 875-886; cluster/httpCluster.go 110-118 *)
Definition httpClusterInfo (u : option url) : list (bs * rv) := setUrl (set [] "name" (RT (s2b "httpCluster"))) u.
Definition getHttpClusterInfo (a : agt) : list (bs * rv) :=
  fold_left (fun m (p : bs * option url) => aset bs_eqb m (fst p) (RM (httpClusterInfo (snd p)))) (aHttp a) [].
(* 888-899 *)
Definition getExporterInfo (a : agt) : list (bs * rv) :=
  fold_left (fun m (p : bs * expo) => aset bs_eqb m (fst p) (RM (exporterInfo (snd p)))) (aExporters a) [].
(* 901-911; None: the agent's server, or the proxy, is still nil and the call panics *)
Definition getServersInfo (a : agt) : option (list (bs * rv)) :=
  match aServer a, aProxy a with
  | Some s, Some h =>
      let info := set [] "agentServer" (RM (serverInfo s)) in
      let ports := fold_left (fun m (p : Z * serv) => aset bs_eqb m (fmtZ (fst p)) (RM (serverInfo (snd p)))) (aPorts a) [] in
      Some (set (set info "agentPortServer" (RM ports)) "httpProxyServer" (RM (httpProxyInfo h)))
  | _, _ => None
  end.
(* core/motan.go 762-775 *)
Definition extFactoryInfo (a : agt) : list (bs * rv) :=
  set [] "registries" (RM (fold_left (fun m (p : bs * rv) => aset bs_eqb m (fst p) (snd p)) (aRegistries a) [])).
(* agent.go 138-144 *)
Definition basicInfo (a : agt) : list (bs * rv) :=
  set (set (set [] "startTime" (RN (aStart a))) "cpuPercent" (RN (aCpu a))) "rssMemory" (RN (aRss a)).
(* manageHandler.go 819-835: the functions *)
Definition infoOf (a : agt) (k : bs) : option (option (list (bs * rv))) :=
  if bs_eqb k (s2b "clusters") then Some (Some (getClusterInfo a))
  else if bs_eqb k (s2b "httpClusters") then Some (Some (getHttpClusterInfo a))
  else if bs_eqb k (s2b "exporters") then Some (Some (getExporterInfo a))
  else if bs_eqb k (s2b "servers") then Some (getServersInfo a)
  else if bs_eqb k (s2b "extensionFactory") then Some (Some (extFactoryInfo a))
  else if bs_eqb k (s2b "basic") then Some (Some (basicInfo a))
  else None.
(* 803-812 *)
Definition defaultKeys : list bs := map s2b ["clusters"; "httpClusters"; "exporters"; "servers"; "extensionFactory"; "basic"]%string.
(* 837-860, 913-919; the result is None when a function panics *)
Fixpoint gather (a : agt) (keys : list bs) (m : list (bs * rv)) : option (list (bs * rv)) :=
  match keys with
  | [] => Some m
  | k :: r => match infoOf a k with
              | Some (Some i) => gather a r (aset bs_eqb m k (RM i))
              | Some None => None
              | None => gather a r m
              end
  end.
Definition runtimeInfo (a : agt) (keyString : bs) : option (list (bs * rv)) :=
  gather a (if bs_eqb keyString [] then defaultKeys else splitOn x2c keyString)
    (set (set [] "result" (RT (s2b "ok"))) "instanceType" (RT (s2b "motan-agent"))).
