(* ZkProps.v: C46 (nodes after session loss), C74 (what discovery answers). *)
From Verif Require Import Base Strconv GoStrings GoStrings2 UrlModel UrlSpec UrlProofs ZkModel ZkSpec ZkProofs.

(* ---- C46 *)
(* For every orderly history, with any number of connection losses and session expiries at any point: whenever the connection
   is up and its last event has been handled, the session has a server node for exactly the registered services that were last
   made available, an unavailable node for exactly the others, each with the text of the URL, and no other node. *)
Theorem C46_restored : forall os s w, follows zinit wnone os s w -> settled s ->
  (forall k u b, aget bs_eqb (wReg w) k = Some (u, b) ->
     (mine s (node_at (s2b "server") u) (ext_info u) <-> b = true) /\ (mine s (node_at (s2b "unavailableServer") u) (ext_info u) <-> b = false)) /\
  (forall p d, mine s p d -> exists k u b, aget bs_eqb (wReg w) k = Some (u, b) /\ p = node_at (if b then s2b "server" else s2b "unavailableServer") u /\ d = ext_info u).
Proof. exact restored. Qed.
Print Assumptions C46_restored.

(* The services the registry knows are the registered ones, also while it is disconnected. *)
Theorem C46_known : forall os s w, follows zinit wnone os s w -> forall k, aget bs_eqb (zReg s) k = option_map fst (aget bs_eqb (wReg w) k).
Proof. exact known. Qed.
Print Assumptions C46_known.

Definition zu (path : string) (port : Z) : url := mkUrl (s2b "motan2") (s2b "10.0.0.1") port (s2b path) (s2b "g") (Some [(s2b "k", s2b "v")]).
Definition names (s : zst) : list bs := map fst (filter (fun e => fst (snd e)) (zTree s)).
Definition ex_zk : list zop := [ZRegister (zu "a" 1); ZRegister (zu "b" 2); ZAvailable (Some (zu "a" 1)); ZLose; ZAvailable (Some (zu "b" 2)); ZHandle; ZExpire; ZRegister (zu "c" 3); ZBack; ZHandle].
Example C46_nonvacuous : exists s w, follows zinit wnone ex_zk s w /\ settled s /\
  names s = [s2b "/motan/g/a/server/10.0.0.1:1"; s2b "/motan/g/b/server/10.0.0.1:2"] /\ map (fun e => snd (snd e)) (wReg w) = [true; true].
Proof.
  assert (P : forall p n, In n [1; 2; 3]%Z -> In p ["a"; "b"; "c"]%string -> plain (zu p n)).
  { intros p n In1 In2. assert (F : forallb (fun p => forallb (fun n => negb (existsb (byte_eqb x2f) (addr (zu p n)))) [1; 2; 3]%Z) ["a"; "b"; "c"]%string = true) by (vm_compute; reflexivity).
    rewrite forallb_forall in F. specialize (F p In2). rewrite forallb_forall in F. specialize (F n In1). apply negb_true_iff in F.
    split; [|split].
    - intros [X|[]]. discriminate X.
    - intro X. assert (Y : existsb (byte_eqb x2f) (addr (zu p n)) = true) by (apply existsb_exists; exists x2f; split; [exact X|reflexivity]). congruence.
    - reflexivity. }
  eexists. eexists. split.
  - unfold ex_zk. eapply fo_cons; [reflexivity| |].
    { split; [apply P; cbn; tauto|]. intros k v b X. discriminate X. }
    eapply fo_cons; [vm_compute; reflexivity| |].
    { split; [apply P; cbn; tauto|]. intros k v b X [_ [Y _]]. apply (aget_In bs_eqb bs_eqb_spec) in X. vm_compute in X. destruct X as [X|[]]. injection X as _ <- _. discriminate Y. }
    eapply fo_cons; [vm_compute; reflexivity|exists false; vm_compute; reflexivity|].
    eapply fo_cons; [vm_compute; reflexivity|exact I|].
    eapply fo_cons; [vm_compute; reflexivity|exists false; vm_compute; reflexivity|].
    eapply fo_cons; [vm_compute; reflexivity|left; vm_compute; reflexivity|].
    eapply fo_cons; [vm_compute; reflexivity|exact I|].
    eapply fo_cons; [vm_compute; reflexivity| |].
    { split; [apply P; cbn; tauto|]. intros k v b X [_ [Y _]]. apply (aget_In bs_eqb bs_eqb_spec) in X. vm_compute in X. repeat (destruct X as [X|X]; [injection X as _ <- _; discriminate Y|]). destruct X. }
    eapply fo_cons; [vm_compute; reflexivity|exact I|].
    eapply fo_cons; [vm_compute; reflexivity|left; vm_compute; reflexivity|].
    apply fo_nil.
  - split; [vm_compute; split; reflexivity|]. split; vm_compute; reflexivity.
Qed.

(* FINDING: making all services available with one call (nil URL, as the agent and the server do) remembers "all" for each; after
   the next session loss this makes available every service, also one registered or made unavailable since. *)
Theorem C46_available_all_refuted : exists s,
  zruns zinit [ZRegister (zu "a" 1); ZRegister (zu "b" 2); ZAvailable None; ZUnavailable (Some (zu "a" 1)); ZRegister (zu "c" 3); ZLose; ZHandle; ZBack; ZHandle] = Some s /\
  settled s /\ mine s (nodePath server (zu "a" 1)) (ext_info (zu "a" 1)) /\ mine s (nodePath server (zu "c" 3)) (ext_info (zu "c" 3)).
Proof. eexists. split; [vm_compute; reflexivity|]. split; [split; reflexivity|]. split; vm_compute; reflexivity. Qed.
Print Assumptions C46_available_all_refuted.

(* FINDING: unregistering an available service does not forget that it was available: its server node comes back after the next
   session loss. *)
Theorem C46_unregister_refuted : exists s,
  zruns zinit [ZRegister (zu "a" 1); ZAvailable (Some (zu "a" 1)); ZUnRegister (zu "a" 1); ZLose; ZHandle; ZExpire; ZBack; ZHandle] = Some s /\
  settled s /\ zReg s = [] /\ mine s (nodePath server (zu "a" 1)) (ext_info (zu "a" 1)).
Proof. eexists. split; [vm_compute; reflexivity|]. split; [split; reflexivity|]. split; vm_compute; reflexivity. Qed.
Print Assumptions C46_unregister_refuted.

(* FINDING: a service unregistered while the connection is down, but before the registry has noticed, keeps its node if the
   session survives. *)
Theorem C46_unregister_down_refuted : exists s,
  zruns zinit [ZRegister (zu "a" 1); ZAvailable (Some (zu "a" 1)); ZUnavailable (Some (zu "a" 1)); ZLose; ZUnRegister (zu "a" 1); ZHandle; ZBack; ZHandle] = Some s /\
  settled s /\ zReg s = [] /\ mine s (nodePath unavailable (zu "a" 1)) (ext_info (zu "a" 1)).
Proof. eexists. split; [vm_compute; reflexivity|]. split; [split; reflexivity|]. split; vm_compute; reflexivity. Qed.
Print Assumptions C46_unregister_down_refuted.

(* FINDING: calls made while the registry knows that it is disconnected are dropped: a service registered or made available
   then is not there after the session is back. *)
Theorem C46_dropped_refuted : exists s,
  zruns zinit [ZRegister (zu "a" 1); ZLose; ZHandle; ZRegister (zu "b" 2); ZAvailable (Some (zu "a" 1)); ZBack; ZHandle] = Some s /\
  settled s /\ zReg s = [(ident (zu "a" 1), zu "a" 1)] /\ names s = [nodePath unavailable (zu "a" 1)].
Proof. eexists. split; [vm_compute; reflexivity|]. split; [split; reflexivity|]. split; vm_compute; reflexivity. Qed.
Print Assumptions C46_dropped_refuted.

(* FINDING: services that differ in the protocol only share one node. *)
Theorem C46_shared_node_refuted : exists s u v, u <> v /\ ident u <> ident v /\
  zruns zinit [ZRegister u; ZRegister v; ZAvailable (Some u)] = Some s /\ names s = [nodePath server v].
Proof.
  eexists. exists (zu "a" 1), (mkUrl (s2b "motan") (s2b "10.0.0.1") 1 (s2b "a") (s2b "g") None). split; [discriminate|]. split; [vm_compute; discriminate|].
  split; vm_compute; reflexivity.
Qed.
Print Assumptions C46_shared_node_refuted.

(* ---- C74 *)
(* Discovery in ZooKeeper answers the services that the servers wrote, one for each node and in the order of the nodes. *)
Theorem C74_zk_discover : forall u0 children us,
  Forall2 written_by children us -> Forall (fun u => clean u /\ has_address u /\ not_java (ext_info u)) us ->
  exists l, discover true u0 (Some children) = Some l /\ Forall2 same_url us l.
Proof. exact children_urls. Qed.
Print Assumptions C74_zk_discover.
(* A node without data stands for the address it is named after: the subscriber's URL at that host and port, or at port 80 if
   the name has no port. *)
Theorem C74_zk_plain : forall u0 host port, (0 < port <= 9223372036854775807)%Z -> host <> [] -> ~ In x3a host ->
  exists v w, discover true u0 (Some [(host ++ [x3a] ++ fmtZ port, Some []); (host, Some [])]) = Some [v; w] /\
    uHost v = host /\ uPort v = port /\ uHost w = host /\ uPort w = 80%Z /\
    forall x, In x [v; w] -> uProtocol x = uProtocol u0 /\ uPath x = uPath u0 /\ uGroup x = uGroup u0 /\ forall k, param x k = param u0 k.
Proof.
  intros u0 host port P H N. cbn [discover nodeChildsToURLs getNodeInfo]. cbn [app]. rewrite splitOn_app by exact N. rewrite (splitOn_none x3a host N).
  assert (C : exists t, splitOn x3a (fmtZ port) = fmtZ port :: t).
  { exists []. apply splitOn_none. unfold fmtZ. destruct (Z.ltb_spec port 0); [lia|]. intro I. destruct (fmtN_spec (Z.to_N port)) as (_ & F & _). rewrite Forall_forall in F. destruct (F _ I) as [d D]. vm_compute in D. discriminate D. }
  destruct C as [t ->]. rewrite parse_fmtZ by lia. cbn [fst uPort uHost]. destruct (Z.eqb_spec port 0); [lia|]. cbn [negb orb]. eexists _, _. split; [reflexivity|]. repeat (split; [reflexivity|]).
  intros x [<-|[<-|[]]]; repeat (split; [reflexivity|]); intro k; unfold param; cbn [uParams]; destruct (uParams u0); reflexivity.
Qed.
Print Assumptions C74_zk_plain.
Example C74_zk_plain_met : exists l, discover true (zu "a" 0) (Some [(s2b "10.0.0.1:8", Some [])]) = Some l /\ map uPort l = [8%Z].
Proof. eexists. split; vm_compute; reflexivity. Qed.
(* While the registry knows that it is disconnected it answers nothing. *)
Theorem C74_zk_down : forall u0 children, discover false u0 children = Some [].
Proof. reflexivity. Qed.
Print Assumptions C74_zk_down.
Example C74_zk_nonvacuous : let c := [(s2b "10.0.0.1:1", Some (ext_info (zu "a" 1))); (s2b "10.0.0.1:2", Some (ext_info (zu "a" 2)))] in
  Forall2 written_by c [zu "a" 1; zu "a" 2] /\ Forall (fun u => has_address u /\ not_java (ext_info u)) [zu "a" 1; zu "a" 2] /\
  exists l, discover true (zu "a" 0) (Some c) = Some l /\ map uPort l = [1; 2]%Z.
Proof.
  cbv zeta. split; [repeat constructor|]. split.
  - apply Forall_cons; [|apply Forall_cons; [|apply Forall_nil]]; (split; [left; discriminate|intros r X; vm_compute in X; discriminate X]).
  - eexists. split; vm_compute; reflexivity.
Qed.

(* Nodes written by Java clients, as a short or as a long serialized string, are read like the text itself. *)
Theorem C74_java : forall a b c d l8 text, length l8 = 8 -> text <> [] ->
  getNodeInfo ([xac; xed; a; b; x74; c; d] ++ text) = text /\ getNodeInfo ([xac; xed; a; b; x7c] ++ l8 ++ text) = text.
Proof. intros a b c d l8 text L H. split; [apply info_short; exact H|apply info_long; assumption]. Qed.
Print Assumptions C74_java.
(* a header with nothing after it is not taken off *)
Theorem C74_java_bare : forall a b c d l8, length l8 = 8 ->
  getNodeInfo [xac; xed; a; b; x74; c; d] = [xac; xed; a; b; x74; c; d] /\ getNodeInfo ([xac; xed; a; b; x7c] ++ l8) = [xac; xed; a; b; x7c] ++ l8.
Proof.
  intros a b c d l8 L. split; [reflexivity|]. do 9 (destruct l8 as [|? l8]; try discriminate L). reflexivity.
Qed.
Print Assumptions C74_java_bare.
Theorem C74_not_java : forall d, not_java d -> getNodeInfo d = d.
Proof. exact info_plain. Qed.
Print Assumptions C74_not_java.
Example C74_java_met : getNodeInfo ([xac; xed; x00; x05; x74; x00; x03] ++ s2b "abc") = s2b "abc" /\ not_java (s2b "motan2://h:1/p?").
Proof. split; [reflexivity|]. intros r X. discriminate X. Qed.

(* FINDING: one node with data that is not the text of a URL makes discovery dereference nil (None in the model). *)
Theorem C74_bad_node_refuted : exists u0 good, discover true u0 (Some [good; (s2b "10.0.0.9:1", Some (s2b "hello"))]) = None /\
  exists l, discover true u0 (Some [good]) = Some l /\ length l = 1.
Proof.
  exists (zu "a" 0), (s2b "10.0.0.1:1", Some (ext_info (zu "a" 1))). split; [vm_compute; reflexivity|]. eexists. split; vm_compute; reflexivity.
Qed.
Print Assumptions C74_bad_node_refuted.

(* Discovery in a direct registry answers one URL for each well-formed address of its list, in order, and for nothing else:
   the subscriber's URL with that address, and the registry's group if it has one. *)
Theorem C74_direct_list : forall reg u a r, (uHost reg = [] \/ (uPort reg <= 0)%Z) -> param reg AddressKey = Some a -> addresses (splitOn x2c a) r ->
  Forall2 (copy_at reg u) (directDiscover reg u) r.
Proof. exact direct_list. Qed.
Print Assumptions C74_direct_list.
Theorem C74_addresses_total : forall l, exists r, addresses l r.
Proof. exact addresses_total. Qed.
Print Assumptions C74_addresses_total.
Theorem C74_direct_own : forall reg u, uHost reg <> [] -> (0 < uPort reg)%Z -> Forall2 (copy_at reg u) (directDiscover reg u) [(uHost reg, uPort reg)].
Proof. exact direct_own. Qed.
Print Assumptions C74_direct_own.
Theorem C74_direct_none : forall reg u, (uHost reg = [] \/ (uPort reg <= 0)%Z) -> param reg AddressKey = None -> directDiscover reg u = [].
Proof. exact direct_none. Qed.
Print Assumptions C74_direct_none.
Example C74_direct_nonvacuous :
  let reg := mkUrl (s2b "direct") [] 0 [] (s2b "g2") (Some [(AddressKey, s2b "10.0.0.1:8001,oops, 10.0.0.2:8002 ,unix:///tmp/s,h:x")]) in
  map (fun v => (uHost v, uPort v, uGroup v, uPath v)) (directDiscover reg (zu "a" 0)) =
  [(s2b "10.0.0.1", 8001%Z, s2b "g2", s2b "a"); (s2b "10.0.0.2", 8002%Z, s2b "g2", s2b "a"); (s2b "unix:///tmp/s", 0%Z, s2b "g2", s2b "a")].
Proof. vm_compute. reflexivity. Qed.

(* C46, continued: an agent that registers itself has a node of its own, with its url, below its application; nothing else changes. *)
Theorem C46_agent : forall s u, zUp s = true -> zFlag s = true -> aget bs_eqb (zReg s) (ident u) = None -> param u (s2b "nodeType") = Some (s2b "agent") ->
  exists s', zstep s (ZRegister u) = Some s' /\ zReg s' = aset bs_eqb (zReg s) (ident u) u /\ zAvail s' = zAvail s /\
    forall p, aget bs_eqb (zTree s') p =
      if bs_eqb p (s2b "/motan/agent/" ++ str_or u (s2b "application") [] ++ s2b "/node/" ++ addr u) then Some (true, ext_info u) else aget bs_eqb (zTree s) p.
Proof.
  intros s u U F R A. cbn [zstep]. rewrite F, R. eexists. split; [reflexivity|]. unfold doRegister, isAgent. change (pget (uParams u) (s2b "nodeType")) with (param u (s2b "nodeType")).
  rewrite A, bs_eqb_refl. split; [reflexivity|]. split; [reflexivity|]. intro p. cbn [setReg zTree setTree]. rewrite U. unfold createAt, removeAt.
  rewrite (aget_aset bs_eqb bs_eqb_spec), (aget_adel bs_eqb bs_eqb_spec).
  replace (agentNodePath u) with (s2b "/motan/agent/" ++ str_or u (s2b "application") [] ++ s2b "/node/" ++ addr u);
    [|unfold agentNodePath, sep; rewrite UrlProofs.getParam_str_or; rewrite <- ?app_assoc; reflexivity].
  destruct (bs_eqb p _); reflexivity.
Qed.
Print Assumptions C46_agent.
(* (Refuted: "UnRegister removes the node": not an agent's.) *)
Definition exAgentU := mkUrl (s2b "motan2") (s2b "10.0.0.1") 9981 (s2b "agent") (s2b "g") (Some [(s2b "nodeType", s2b "agent"); (s2b "application", s2b "app")]).
Theorem C46_agent_unregister_refuted : exists s, zruns zinit [ZRegister exAgentU; ZUnRegister exAgentU] = Some s /\ zReg s = [] /\
  aget bs_eqb (zTree s) (s2b "/motan/agent/app/node/10.0.0.1:9981") = Some (true, ext_info exAgentU).
Proof. eexists. split; [vm_compute; reflexivity|]. split; vm_compute; reflexivity. Qed.
Print Assumptions C46_agent_unregister_refuted.
(* (Refuted: "an agent is no service": when all services are made available it is put among the servers of its own group and path.) *)
Theorem C46_agent_available_refuted : exists s, zruns zinit [ZRegister exAgentU; ZAvailable None] = Some s /\
  aget bs_eqb (zTree s) (s2b "/motan/g/agent/server/10.0.0.1:9981") = Some (true, ext_info exAgentU).
Proof. eexists. split; [vm_compute; reflexivity|]. vm_compute; reflexivity. Qed.
Print Assumptions C46_agent_available_refuted.
