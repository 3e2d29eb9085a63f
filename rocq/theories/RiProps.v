(* RiProps.v: C111 (the report of /runtime/info tells the truth). *)
From Verif Require Import Base Lists Strconv GoStrings GoStrings2 UrlModel UrlSpec CoreModel CoreSpec ClusterModel CmdModel CmdSpec CmdProps RiModel RiSpec RiProofs.

(* Every node of a cluster is listed exactly once, under its place in the list and its identity: among the available ones if it
   is available, else among the unavailable ones; also when several nodes share an identity. *)
Theorem C111_referers : forall c, let m := clusterInfo c in
  has m "refererSize" (RN (Z.of_nat (length (clRefers c)))) /\
  exists up down, has m "referers" (RM [(s2b "available", RM up); (s2b "unavailable", RM down)]) /\
    exactly up (placed c true) place_key (fun p => callerInfo (rfCaller (snd p))) /\
    exactly down (placed c false) place_key (fun p => callerInfo (rfCaller (snd p))) /\
    length up + length down = length (clRefers c).
Proof. intro c. destruct (cluster_report c) as (_ & A & _ & B & _). auto. Qed.
Print Assumptions C111_referers.
(* The rest of a cluster's report: its name, its URL if it has one, its filters in order, and the report of every registry
   under its identity if no two share one. *)
Theorem C111_cluster : forall c, let m := clusterInfo c in
  has m "name" (RT (s2b "MotanCluster")) /\ shows_url m (clUrl c) /\
  (exists regs, has m "registries" (RM regs) /\ (NoDup (map (fun r => id_text (fst r)) (clRegs c)) -> exactly regs (clRegs c) (fun r => id_text (fst r)) snd)) /\
  match clFilters c with [] => hasnt m "filters" | l => has m "filters" (RL (map filterInfo l)) end /\
  match clChain c with [] => hasnt m "clusterFilters" | l => has m "clusterFilters" (RL (map filterInfo l)) end.
Proof. intro c. destruct (cluster_report c) as (A & _ & B & _ & C & D & E). auto. Qed.
Print Assumptions C111_cluster.
(* "Every registry of a cluster is reported" is false: of two with the same identity only the last is. *)
Theorem C111_registries_refuted : exists c u a b regs, clRegs c = [(u, a); (u, b)] /\ a <> b /\ has (clusterInfo c) "registries" (RM regs) /\
  map snd regs = [b].
Proof.
  pose (u := mkUrl (s2b "zookeeper") (s2b "10.0.0.1") 2181 [] [] None).
  exists (mkClus None [] [(u, RT (s2b "first")); (u, RT (s2b "second"))] [] []), u, (RT (s2b "first")), (RT (s2b "second")), [(id_text u, RT (s2b "second"))].
  split; [reflexivity|]. split; [discriminate|]. split; vm_compute; reflexivity.
Qed.
Print Assumptions C111_registries_refuted.
(* What is said of one node and of one filter. *)
Theorem C111_items : (forall e r t, callerInfo (KMotan e r t) =
    RM [(s2b "name", RT (s2b "motanCommonsEndpoint")); (s2b "errorCount", RN e); (s2b "keepaliveRunning", RB r); (s2b "keepaliveType", RN t)]) /\
  map callerInfo [KOld; KGrpc; KLocal; KMockDynamic] = map RM [[(s2b "name", RT (s2b "motanEndpoint"))]; [(s2b "name", RT (s2b "grpcEndpoint"))]; [(s2b "name", RT (s2b "localEndpoint"))]; []] /\
  (forall f, filterInfo f = RM [(s2b "name", RT (fName f)); (s2b "index", RN (fIndex f)); (s2b "type", RN (fType f))]).
Proof. repeat split. Qed.
Print Assumptions C111_items.

(* The wrapper around a registry reports the texts it last received, the weights it works with, the static command of its URL,
   and the last ten texts and the last ten lists given to the cluster, numbered and dated, oldest first. *)
Theorem C111_commands : forall lib u name es, sort_ok lib -> let m := wrapperInfo name (xRun lib u es) in let os := map snd es in
  has m "name" (RT (s2b "commandWrapper:" ++ name)) /\ has m "agentCommand" (RT (last_text 0 os)) /\ has m "serviceCommand" (RT (last_text 1 os)) /\
  has m "weight" (RW (cwWeights (wAfter lib u os))) /\
  match staticOf u with Some c => has m "staticCommand" (RC c) | None => hasnt m "staticCommand" end /\
  has m "commandHistory" (RM (map (fun p => (fst p, RT (snd p))) (numbered 0 (last_n 10 (texts es))))) /\
  has m "notifyHistory" (RM (map (fun p => (fst p, RL (map RT (snd p)))) (numbered 0 (last_n 10 (lists_given lib u es))))).
Proof. exact wrapper_report. Qed.
Print Assumptions C111_commands.
(* While a traffic command is in force the reported weights are those it gives (C24). *)
Theorem C111_weights : forall lib u name es c, sort_ok lib -> cwTc (wAfter lib u (map snd es)) = Some c ->
  exists ws, has (wrapperInfo name (xRun lib u es)) "weight" (RW ws) /\ forall g x, aget bs_eqb ws g = Some x <-> weight_given (cmGroups c) g x.
Proof.
  intros lib u name es c Hs H. destruct (wrapper_report lib u name es Hs) as (_ & _ & _ & W & _). eexists. split; [exact W|].
  apply C24_weights. exact H.
Qed.
Print Assumptions C111_weights.
(* "Without a traffic command no weights are reported" is false: those of the last command stay. *)
Theorem C111_weights_refuted : exists lib u es, sort_ok lib /\ currentTc (wAfter lib u (map snd es)) = None /\ last_text 0 (map snd es) = [] /\ last_text 1 (map snd es) = [] /\
  has (wrapperInfo (s2b "direct") (xRun lib u es)) "weight" (RW [(s2b "g", s2b "1"); (s2b "g2", s2b "3")]).
Proof.
  exists exLib, exU, [(1%Z, WCommand 1 (s2b "A") exD); (2%Z, WCommand 1 [] exD)]. split; [exact exLib_sorts|]. vm_compute. repeat split.
Qed.
Print Assumptions C111_weights_refuted.

(* Exported services, clusters, http clusters and registries: one entry each, under their keys. *)
Theorem C111_entries : forall a,
  (NoDup (akeys (aClusters a)) -> exactly (getClusterInfo a) (aClusters a) fst (fun p => RM (clusterInfo (snd p)))) /\
  (NoDup (akeys (aHttp a)) -> exactly (getHttpClusterInfo a) (aHttp a) fst (fun p => RM (httpClusterInfo (snd p)))) /\
  (NoDup (akeys (aExporters a)) -> exactly (getExporterInfo a) (aExporters a) fst (fun p => RM (exporterInfo (snd p)))) /\
  (NoDup (akeys (aRegistries a)) -> exists m, has (extFactoryInfo a) "registries" (RM m) /\ exactly m (aRegistries a) fst snd).
Proof.
  intro a. split; [|split; [|split]]; intro H.
  - unfold getClusterInfo. apply (exactly_asets fst (fun p => RM (clusterInfo (snd p)))). exact H.
  - unfold getHttpClusterInfo. apply (exactly_asets fst (fun p => RM (httpClusterInfo (snd p)))). exact H.
  - unfold getExporterInfo. apply (exactly_asets fst (fun p => RM (exporterInfo (snd p)))). exact H.
  - eexists. split; [unfold extFactoryInfo; vm_compute; reflexivity|]. apply (exactly_asets fst snd). exact H.
Qed.
Print Assumptions C111_entries.
(* An exported service is reported with its URL, its provider and whether it is available; a provider behind filters is
   reported as the provider itself, with the filters in order. *)
Theorem C111_exporter : forall e, let m := exporterInfo e in
  shows_url m (exUrl e) /\ has m "provider" (RM (providerInfo (exProv e))) /\ has m "isAvailable" (RB (exUp e)).
Proof. exact exporter_report. Qed.
Print Assumptions C111_exporter.
Theorem C111_provider : forall p chain k, k <> s2b "filters" ->
  aget bs_eqb (providerInfo (PWrap p chain)) k = aget bs_eqb (providerInfo p) k /\
  (chain <> [] -> has (providerInfo (PWrap p chain)) "filters" (RL (map filterInfo chain))).
Proof.
  intros p chain k H. cbn [providerInfo]. destruct chain as [|f r]; [split; [reflexivity|tauto]|]. split.
  - unfold set. rewrite get_set. apply bs_eqb_neq in H. rewrite H. reflexivity.
  - intros _. unfold has, set. rewrite get_set. reflexivity.
Qed.
Print Assumptions C111_provider.
Theorem C111_providers : forall u up ep,
  shows_url (providerInfo (PDefault u)) u /\ shows_url (providerInfo (PHttpx u)) u /\
  (shows_url (providerInfo (PHttp u)) u /\ has (providerInfo (PHttp u)) "name" (RT (s2b "HTTPProvider"))) /\
  providerInfo PCgi = [(s2b "name", RT (s2b "CgiProvider"))] /\ providerInfo PMeta = [(s2b "name", RT (s2b "metaProvider"))] /\
  (shows_url (providerInfo (PMotan u up ep)) u /\ has (providerInfo (PMotan u up ep)) "available" (RB up) /\ has (providerInfo (PMotan u up ep)) "endpoint" (callerInfo ep)).
Proof.
  intros u up ep. cbn [providerInfo]. unfold shows_url. destruct u; repeat split; agets; reflexivity.
Qed.
Print Assumptions C111_providers.

(* The servers: the agent's own, one entry for each port that serves exported services, and the http proxy. *)
Theorem C111_servers : forall a s h, aServer a = Some s -> aProxy a = Some h -> Forall (fun p => 0 <= fst p < 65536)%Z (aPorts a) -> NoDup (map fst (aPorts a)) ->
  exists m ports, getServersInfo a = Some m /\ has m "agentServer" (RM (serverInfo s)) /\ has m "agentPortServer" (RM ports) /\
    has m "httpProxyServer" (RM (httpProxyInfo h)) /\ exactly ports (aPorts a) (fun p => fmtZ (fst p)) (fun p => RM (serverInfo (snd p))).
Proof. exact servers_report. Qed.
Print Assumptions C111_servers.
Theorem C111_server : forall s h b,
  (let m := serverInfo s in has m "proxy" (RB (svProxy s)) /\ has m "maxContentLength" (RN (svMax s)) /\ has m "heartbeatEnabled" (RB (svBeat s)) /\
     shows_url m (svUrl s) /\ has m "messageHandler" (RM (handlerInfo (svHand s)))) /\
  (let m := httpProxyInfo h in shows_url m (hxUrl h) /\ has m "deny" (RL (map RT (hxDeny h))) /\ has m "keepalive" (RB (hxKeep h)) /\ has m "defaultDomain" (RT (hxDomain h))) /\
  handlerInfo HAgent = [(s2b "messageHandlerType", RT (s2b "agentMessageHandler"))] /\
  (forall ps, NoDup (akeys ps) -> let hd := if b : bool then HServerAgent ps else HDefault ps in exists m,
     has (handlerInfo hd) "messageHandlerType" (RT (if b then s2b "serverAgentMessageHandler" else s2b "defaultMessageHandler")) /\
     has (handlerInfo hd) "providers" (RM m) /\ exactly m ps fst (fun p => RM (providerInfo (snd p)))).
Proof.
  intros s h b. split; [|split; [|split]].
  - cbv zeta. unfold serverInfo, shows_url. destruct (svUrl s); repeat split; agets; reflexivity.
  - cbv zeta. unfold httpProxyInfo, shows_url. destruct (hxUrl h); repeat split; agets; reflexivity.
  - reflexivity.
  - intros ps H. cbv zeta. eexists. split; [destruct b; vm_compute; reflexivity|]. split; [destruct b; cbn [handlerInfo]; agets; reflexivity|].
    apply (exactly_asets fst (fun p => RM (providerInfo (snd p)))). exact H.
Qed.
Print Assumptions C111_server.
Theorem C111_basic : forall a o, let m := basicInfo a in
  (has m "startTime" (RN (aStart a)) /\ has m "cpuPercent" (RN (aCpu a)) /\ has m "rssMemory" (RN (aRss a))) /\
  has (httpClusterInfo o) "name" (RT (s2b "httpCluster")) /\ shows_url (httpClusterInfo o) o.
Proof. intros a o. unfold shows_url, httpClusterInfo. destruct o; repeat split; agets; reflexivity. Qed.
Print Assumptions C111_basic.

(* The answer holds exactly the parts that were named, or all of them if none was; unknown names are passed over. *)
Theorem C111_answer : forall a keys m, runtimeInfo a keys = Some m -> forall k x, aget bs_eqb m k = Some x <->
  (k = s2b "result" /\ x = RT (s2b "ok")) \/ (k = s2b "instanceType" /\ x = RT (s2b "motan-agent")) \/ (named keys k /\ part a k x).
Proof. intros a keys m H k x. rewrite (answer_parts a keys m H k x), part_is. reflexivity. Qed.
Print Assumptions C111_answer.
(* It fails exactly when the servers are asked for and the agent's server or the http proxy does not exist yet ... *)
Theorem C111_refused : forall a keys, runtimeInfo a keys = None <-> named keys (s2b "servers") /\ (aServer a = None \/ aProxy a = None).
Proof. exact answer_refused. Qed.
Print Assumptions C111_refused.
(* ... which is so while the agent starts: the management port is opened before the agent's server is made (agent.go 221, 236). *)
Theorem C111_starting_refuted : exists a h, aProxy a = Some h /\ runtimeInfo a [] = None /\ runtimeInfo a (s2b "basic,servers") = None /\ runtimeInfo a (s2b "basic") <> None.
Proof.
  pose (h := mkHprox None [] true []). exists (mkAgt [] [] [] None [] (Some h) [] 1 2 3), h.
  split; [reflexivity|]. split; [vm_compute; reflexivity|]. split; [vm_compute; reflexivity|]. vm_compute. discriminate.
Qed.
Print Assumptions C111_starting_refuted.

(* ---- a concrete agent: two nodes with one identity, one of them down *)
Definition riU : url := mkUrl (s2b "motan2") (s2b "10.0.0.1") 8002 (s2b "svc") (s2b "g") (Some []).
Definition riC : clus := mkClus (Some riU) [mkRefer riU true (KMotan 0 false 0); mkRefer riU false (KMotan 7 true 1); mkRefer riU true KGrpc]
  [(riU, RT (s2b "r"))] [mkFilt (s2b "metrics") 2 0] [mkFilt (s2b "clusterMetrics") 5 1; mkFilt (s2b "lastClusterFilter") 100 1].
Definition riA : agt := mkAgt [(s2b "k", riC)] [(s2b "dom", None)] [(s2b "e", mkExpo (Some riU) (PWrap (PHttp None) [mkFilt (s2b "accessLog") 1 0]) true)]
  (Some (mkServ true 100 true None HAgent)) [(8100%Z, mkServ true 100 true None (HServerAgent [(s2b "svc", PCgi)]))] (Some (mkHprox None [s2b "x"] true [])) [(s2b "z", RT [])] 1 2 3.
Example C111_nonvacuous : map place_key (placed riC true) = [s2b "0-motan2://10.0.0.1:8002/svc?group=g"; s2b "2-motan2://10.0.0.1:8002/svc?group=g"] /\
  map place_key (placed riC false) = [s2b "1-motan2://10.0.0.1:8002/svc?group=g"] /\ NoDup (map (fun r => id_text (fst r)) (clRegs riC)) /\
  (exists m, runtimeInfo riA [] = Some m /\ length m = 8) /\ (exists m, runtimeInfo riA (s2b "basic,nothing,clusters") = Some m /\ length m = 4) /\
  Forall (fun p => 0 <= fst p < 65536)%Z (aPorts riA) /\ NoDup (map fst (aPorts riA)).
Proof.
  split; [vm_compute; reflexivity|]. split; [vm_compute; reflexivity|]. split; [repeat constructor; intros []|].
  split; [eexists; split; vm_compute; reflexivity|]. split; [eexists; split; vm_compute; reflexivity|].
  split; [repeat constructor; cbn; discriminate|repeat constructor; intros []].
Qed.
Example C111_history_met : let es := [(5%Z, WCommand 1 (s2b "A") exD); (6%Z, WDiscover [] (s2b "B") exD); (7%Z, WOwn [] exD)] in
  texts es = [(5%Z, s2b "A"); (6%Z, s2b "B")] /\ length (lists_given exLib exU es) = 1.
Proof. vm_compute. split; reflexivity. Qed.
