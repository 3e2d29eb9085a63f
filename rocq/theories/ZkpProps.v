(* ZkpProps.v: C107. *)
From Verif Require Import Base GoStrings UrlModel UrlSpec UrlProofs ZkModel ZkpModel ZkpSpec ZkpProofs.

(* The node of a service holds the service's url, is the session's own, and all nodes above it exist afterwards; every other node is as it was.
   For any tree whose nodes have parents, in which no node above is a session's own and the node has no children. *)
Theorem C107_service : forall u ty t fuel, In ty [s2b "server"; s2b "unavailableServer"] -> name_ok (uGroup u) -> name_ok (uPath u) -> name_ok (addr u) ->
  let above := [s2b "motan"; uGroup u; uPath u; ty] in
  closed t -> ephemeral t [] = false -> (forall q, ancestor above q -> ephemeral t q = false) ->
  (forall s, name_ok s -> zhas t (path (above ++ [addr u; s])) = false) -> 4 <= fuel ->
  exists t', createNode fuel never (t, []) u ty = Some (t', []) /\
    aget bs_eqb t' (s2b "/motan/" ++ uGroup u ++ s2b "/" ++ uPath u ++ s2b "/" ++ ty ++ s2b "/" ++ addr u) = Some (true, ext_info u) /\
    forall q, q <> path (above ++ [addr u]) ->
      (zhas t q = true -> aget bs_eqb t' q = aget bs_eqb t q) /\ (zhas t q = false -> ancestor above q -> aget bs_eqb t' q = Some (false, [])) /\
      (~ ancestor above q -> aget bs_eqb t' q = aget bs_eqb t q).
Proof.
  intros u ty t fuel I G P A above C R E H L. assert (Nt : name_ok ty /\ bs_eqb ty (s2b "agent") = false).
  { assert (X : forall l, existsb (byte_eqb x2f) l = false -> ~ In x2f l) by (intros l X Y; assert (existsb (byte_eqb x2f) l = true) by (apply existsb_exists; exists x2f; split; [exact Y|reflexivity]); congruence).
    destruct I as [<-|[<-|[]]]; (split; [split; [discriminate|apply X; reflexivity]|reflexivity]). }
  destruct Nt as [Nt B]. assert (F : Forall name_ok (above ++ [addr u])).
  { unfold above. repeat (constructor; auto). - discriminate. - intro X. cbn in X. repeat (destruct X as [X|X]; [discriminate X|]). destruct X. }
  destruct (node_made above (addr u) t (ext_info u) fuel F ltac:(discriminate) C (conj R E)) as (t' & M & N & O).
  { intros s Hs. rewrite <- app_assoc. apply H. exact Hs. } { exact L. }
  exists t'. split; [|split; [|exact O]].
  - unfold createNode. rewrite B. replace (typePathOf ty u) with (path above). replace (nodePath ty u) with (path (above ++ [addr u])). { exact M. }
    + unfold above, path, nodePath, sep. cbn [flat_map app]. rewrite ?app_nil_r, <- ?app_assoc. reflexivity.
    + unfold above, path, typePathOf, sep. cbn [flat_map app]. rewrite ?app_nil_r, <- ?app_assoc. reflexivity.
  - rewrite <- N. f_equal. unfold above, path. cbn [flat_map app]. rewrite ?app_nil_r, <- ?app_assoc. reflexivity.
Qed.
Print Assumptions C107_service.

(* The same for an agent. *)
Theorem C107_agent : forall u t fuel, name_ok (str_or u (s2b "application") []) -> name_ok (addr u) ->
  let above := [s2b "motan"; s2b "agent"; str_or u (s2b "application") []; s2b "node"] in
  closed t -> ephemeral t [] = false -> (forall q, ancestor above q -> ephemeral t q = false) ->
  (forall s, name_ok s -> zhas t (path (above ++ [addr u; s])) = false) -> 4 <= fuel ->
  exists t', createNode fuel never (t, []) u (s2b "agent") = Some (t', []) /\
    aget bs_eqb t' (s2b "/motan/agent/" ++ str_or u (s2b "application") [] ++ s2b "/node/" ++ addr u) = Some (true, ext_info u) /\
    forall q, q <> path (above ++ [addr u]) ->
      (zhas t q = true -> aget bs_eqb t' q = aget bs_eqb t q) /\ (zhas t q = false -> ancestor above q -> aget bs_eqb t' q = Some (false, [])) /\
      (~ ancestor above q -> aget bs_eqb t' q = aget bs_eqb t q).
Proof.
  intros u t fuel P A above C R E H L. assert (F : Forall name_ok (above ++ [addr u])).
  { unfold above. repeat (constructor; auto); try discriminate; intro X; cbn in X; repeat (destruct X as [X|X]; [discriminate X|]); destruct X. }
  destruct (node_made above (addr u) t (ext_info u) fuel F ltac:(discriminate) C (conj R E)) as (t' & M & N & O).
  { intros s Hs. rewrite <- app_assoc. apply H. exact Hs. } { exact L. }
  exists t'. split; [|split; [|exact O]].
  - unfold createNode. rewrite bs_eqb_refl. replace (agentTypePath u) with (path above). replace (agentNodePath u) with (path (above ++ [addr u])). { exact M. }
    + unfold above, path, agentNodePath, sep. rewrite getParam_str_or. cbn [flat_map app]. rewrite ?app_nil_r, <- ?app_assoc. reflexivity.
    + unfold above, path, agentTypePath, sep. rewrite getParam_str_or. cbn [flat_map app]. rewrite ?app_nil_r, <- ?app_assoc. reflexivity.
  - rewrite <- N. f_equal. unfold above, path. cbn [flat_map app]. rewrite ?app_nil_r, <- ?app_assoc. reflexivity.
Qed.
Print Assumptions C107_agent.

(* Whichever calls fail, and whatever the access control refuses: no node but the one to be made is removed or changed, and no node is added but
   empty lasting ones above it. *)
Theorem C107_failures : forall deny fuel names a w d w', Forall name_ok (names ++ [a]) -> names <> [] ->
  createNodeZ fuel deny w (path names) (path (names ++ [a])) d = Some w' ->
  forall q, q <> path (names ++ [a]) ->
    aget bs_eqb (fst w') q = aget bs_eqb (fst w) q \/ (zhas (fst w) q = false /\ ancestor names q /\ aget bs_eqb (fst w') q = Some (false, [])).
Proof. exact node_atmost. Qed.
Print Assumptions C107_failures.

(* Making the nodes above ends, whatever calls fail by the connection, as long as nothing is refused and no node above is a session's own. *)
Theorem C107_ends : forall names t fs, Forall name_ok names -> names <> [] -> ephemeral t [] = false -> (forall q, ancestor names q -> ephemeral t q = false) ->
  exists fuel w', createPersistent fuel never (t, fs) (path names) = Some w'.
Proof. intros names t fs F N R E. apply (cp_ends names (length fs)); auto. split; assumption. Qed.
Print Assumptions C107_ends.

(* (Refuted without that: where new nodes are refused it calls itself without end, ...) *)
Theorem C107_denied_refuted : forall fuel, createPersistent fuel (fun p => bs_eqb p []) ([], []) (s2b "/motan/g") = None.
Proof. exact denied_forever. Qed.
Print Assumptions C107_denied_refuted.
(* (... as below a node of some session.) *)
Theorem C107_ephemeral_refuted : forall fuel, createPersistent fuel never ([(s2b "/motan", (true, []))], []) (s2b "/motan/g/s") = None.
Proof.
  set (w := ([(s2b "/motan", (true, []))], []) : zw). induction fuel as [|f IH]; [reflexivity|]. cbn [createPersistent].
  replace (callCreate never w (s2b "/motan/g/s") false []) with (ZNoNode, w) by (vm_compute; reflexivity).
  replace (zparent (s2b "/motan/g/s")) with (s2b "/motan/g") by (vm_compute; reflexivity). destruct f as [|f]; [reflexivity|].
  replace (createPersistent (S f) never w (s2b "/motan/g")) with (Some w); [exact IH|].
  cbn [createPersistent]. replace (callCreate never w (s2b "/motan/g") false []) with (ZNoChildren, w) by (vm_compute; reflexivity). reflexivity.
Qed.
Print Assumptions C107_ephemeral_refuted.
(* (Refuted: "a call that fails once is made again": the service is then not registered, and nobody is told.) *)
Theorem C107_lost_refuted : exists u w', createNode 9 never ([], [false; false; true]) u (s2b "server") = Some w' /\ name_ok (uGroup u) /\ name_ok (uPath u) /\
  fst w' = [].
Proof.
  exists (mkUrl (s2b "motan2") (s2b "10.0.0.1") 9981 (s2b "svc") (s2b "g") None). eexists. split; [vm_compute; reflexivity|].
  split; [split; [discriminate|intro X; cbn in X; repeat (destruct X as [X|X]; [discriminate X|]); destruct X]|].
  split; [split; [discriminate|intro X; cbn in X; repeat (destruct X as [X|X]; [discriminate X|]); destruct X]|]. reflexivity.
Qed.
Print Assumptions C107_lost_refuted.

Definition exZu := mkUrl (s2b "motan2") (s2b "10.0.0.1") 9981 (s2b "svc") (s2b "g") None.
Definition exZt : ztree := [(s2b "/motan", (false, [])); (s2b "/motan/h", (false, s2b "x")); (s2b "/motan/g", (false, []))].
Example C107_example : exists t', createNode 4 never (exZt, []) exZu (s2b "server") = Some (t', []) /\
  t' = exZt ++ [(s2b "/motan/g/svc", (false, [])); (s2b "/motan/g/svc/server", (false, [])); (s2b "/motan/g/svc/server/10.0.0.1:9981", (true, ext_info exZu))].
Proof. eexists. split; vm_compute; reflexivity. Qed.
Example C107_closed_example : closed exZt /\ forall q, ephemeral exZt q = false.
Proof.
  split.
  - intros names s F N [Hs Hi] Z. apply zhas_aget in Z. unfold exZt in *. assert (K : In (path (names ++ [s])) [s2b "/motan"; s2b "/motan/h"; s2b "/motan/g"]).
    { cbn [aget] in Z. cbn [In]. repeat match type of Z with context[if bs_eqb ?a ?b then _ else _] => destruct (bs_eqb a b) eqn:?; [match goal with E : bs_eqb _ _ = true |- _ => apply bs_eqb_spec in E; rewrite <- E; tauto end|] end. congruence. }
    assert (P : path names = zparent (path (names ++ [s]))) by (symmetry; apply path_parent; [exact F|split; assumption]). rewrite P.
    cbn [In] in K. destruct K as [K|[K|[K|[]]]]; rewrite <- K in P |- *; [|reflexivity|reflexivity]. exfalso. destruct names; [congruence|discriminate P].
  - intro q. unfold ephemeral, exZt. cbn [aget]. repeat destruct (bs_eqb _ _); reflexivity.
Qed.

(* What DiscoverCommand answers: the text of the group's command node, of the application's for an agent; nothing if there is none or the registry is
   not available or a call fails. *)
Theorem C107_command : forall w u, snd w = [] ->
  let p := if isAgent u then s2b "/motan/agent/" ++ str_or u (s2b "application") [] ++ s2b "/command" else s2b "/motan/" ++ uGroup u ++ s2b "/command" in
  fst (discoverCommand true w u) = match aget bs_eqb (fst w) p with Some (_, d) => getNodeInfo d | None => [] end.
Proof.
  intros [t fs] u H p. cbn [snd] in H. subst fs. unfold discoverCommand. replace (if isAgent u then agentCommandPath u else commandPath u) with p.
  - unfold callExists, fault. cbn [fst snd]. unfold zhas. destruct (aget bs_eqb t p) as [[e d]|] eqn:E; cbn [fst snd]; rewrite ?E; reflexivity.
  - unfold p, agentCommandPath, commandPath, sep. rewrite getParam_str_or. destruct (isAgent u); rewrite <- ?app_assoc; reflexivity.
Qed.
Print Assumptions C107_command.
Theorem C107_command_fails : forall avail w u f1 f2 r, snd w = f1 :: f2 :: r -> avail = false \/ f1 = true \/ f2 = true -> fst (discoverCommand avail w u) = [].
Proof.
  intros avail [t fs] u f1 f2 r H X. cbn [snd] in H. subst fs. unfold discoverCommand. destruct avail; [|reflexivity]. unfold callExists, fault. cbn [fst snd].
  destruct f1; [reflexivity|]. cbn [fst snd]. destruct (zhas t _); [|reflexivity]. destruct X as [X|[X| ->]]; try discriminate X. reflexivity.
Qed.
Print Assumptions C107_command_fails.
Theorem C107_reads_only : forall avail w u, fst (snd (discoverCommand avail w u)) = fst w.
Proof.
  intros avail w u. unfold discoverCommand. destruct avail; [|reflexivity]. unfold callExists. pose proof (fault_tree w) as T. destruct (fault w) as [f w1]. cbn [snd] in T.
  destruct f; [exact T|]. destruct (zhas (fst w1) _); [|exact T]. pose proof (fault_tree w1) as T1. destruct (fault w1) as [f2 w2]. cbn [snd] in T1.
  rewrite <- T, <- T1. destruct f2; [reflexivity|]. destruct (aget bs_eqb (fst w2) _) as [[e d]|]; reflexivity.
Qed.
Print Assumptions C107_reads_only.
(* (Refuted: "commands and services of different names have different nodes": a service named "command" has its nodes below its group's command.) *)
Theorem C107_shared_refuted : exists u v, uGroup u = uGroup v /\ name_ok (uPath u) /\ nodePath (s2b "server") u = commandPath v ++ s2b "/server/" ++ addr u.
Proof.
  exists (mkUrl (s2b "motan2") (s2b "h") 1 (s2b "command") (s2b "g") None), (mkUrl (s2b "motan2") (s2b "h") 1 (s2b "svc") (s2b "g") None).
  split; [reflexivity|]. split; [split; [discriminate|intro X; cbn in X; repeat (destruct X as [X|X]; [discriminate X|]); destruct X]|]. vm_compute. reflexivity.
Qed.
Print Assumptions C107_shared_refuted.
