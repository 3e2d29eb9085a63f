(* RhProps.v: the http interface of the agent.  C101 *)
From Coq Require Import Lia Permutation.
From Verif Require Import Base Strconv GoStrings GoStrings2 UrlModel UrlSpec UrlProofs CtxModel CtxSpec CtxProofs RhModel RhSpec RhProofs.

(* registering and unregistering: one call for each group, or 400 and none *)
Theorem C101_register : forall unesc v calls regs ord b uri k, ~ In [] (map fst regs) -> (forall l, Permutation (ord l) l) -> re_ext v = fold_left addRelevantFilter calls [] ->
  (uri = s2b "/registry/register" /\ k = CRegister) \/ (uri = s2b "/registry/unregister" /\ k = CUnregister) ->
  let res := serveDynamic unesc v regs ord uri (Some b) in
  (fst res = 200%Z /\ Forall2 (fun g c => exists w u, c = k u /\ parsed unesc v calls regs b g w /\ exported v w u) (groups_of (re_group v) b) (snd res)) \/
  (res = (400%Z, []) /\ groups_of (re_group v) b <> [] /\ no_registry unesc regs b).
Proof.
  intros unesc v calls regs ord b uri k Hn Ho He H. assert (S0 : serveDynamic unesc v regs ord uri (Some b) = change unesc v regs ord (Some b) (fun u => k (serviceURL v u))).
  { destruct H as [[-> ->]|[-> ->]]; reflexivity. }
  rewrite S0. destruct (change_spec unesc v calls regs ord b (fun u => k (serviceURL v u)) Hn Ho He) as [(ws & E & F)|X]; [left|right; exact X].
  rewrite E. split; [reflexivity|]. cbn [snd]. clear E. induction F as [|g w gs ws P F IH]; cbn [map]; constructor; [|exact IH].
  exists w, (serviceURL v w). split; [reflexivity|]. split; [exact P|apply service_ok].
Qed.
Print Assumptions C101_register.

Theorem C101_subscribe : forall unesc v calls regs ord b, ~ In [] (map fst regs) -> (forall l, Permutation (ord l) l) -> re_ext v = fold_left addRelevantFilter calls [] ->
  let res := serveDynamic unesc v regs ord (s2b "/registry/subscribe") (Some b) in
  (fst res = 200%Z /\ Forall2 (fun g c => exists w u, c = CSubscribe u /\ parsed unesc v calls regs b g w /\ referred w u) (groups_of (re_group v) b) (snd res)) \/
  (res = (400%Z, []) /\ groups_of (re_group v) b <> [] /\ no_registry unesc regs b).
Proof.
  intros unesc v calls regs ord b Hn Ho He. change (serveDynamic unesc v regs ord (s2b "/registry/subscribe") (Some b)) with (change unesc v regs ord (Some b) (fun u => CSubscribe (withHostPort u [] 0))).
  destruct (change_spec unesc v calls regs ord b (fun u => CSubscribe (withHostPort u [] 0)) Hn Ho He) as [(ws & E & F)|X]; [left|right; exact X].
  rewrite E. split; [reflexivity|]. cbn [snd]. clear E. induction F as [|g w gs ws P F IH]; cbn [map]; constructor; [|exact IH].
  exists w, (withHostPort w [] 0). split; [reflexivity|]. split; [exact P|]. repeat split.
Qed.
Print Assumptions C101_subscribe.

(* the answer is 400 exactly when a registry is needed and none is the one asked for *)
Theorem C101_registry_found : forall unesc v calls regs ord b uri, ~ In [] (map fst regs) -> (forall l, Permutation (ord l) l) -> re_ext v = fold_left addRelevantFilter calls [] ->
  In uri [s2b "/registry/register"; s2b "/registry/unregister"; s2b "/registry/subscribe"] ->
  (fst (serveDynamic unesc v regs ord uri (Some b)) = 400%Z <-> groups_of (re_group v) b <> [] /\ forall i r, In (i, r) regs -> ~ asks_addr b r /\ ~ asks_url unesc b r).
Proof.
  intros unesc v calls regs ord b uri Hn Ho He Hu.
  assert (X : forall f, fst (change unesc v regs ord (Some b) f) = 400%Z <-> groups_of (re_group v) b <> [] /\ no_registry unesc regs b).
  { intros f. destruct (change_spec unesc v calls regs ord b f Hn Ho He) as [(ws & E & F)|(E & A & B)]; rewrite E; cbn [fst].
    - split; [discriminate|]. intros [A B]. exfalso. destruct F as [|g w gs ws P F]; [apply A; reflexivity|]. destruct P as (_ & _ & _ & _ & _ & R & _). exact (right_not_no unesc regs b _ R B).
    - split; [intros _; split; assumption|reflexivity]. }
  destruct Hu as [<-|[<-|[<-|[]]]]; apply X.
Qed.
Print Assumptions C101_registry_found.

(* what cannot be read and what is not one of these addresses changes nothing *)
Theorem C101_nothing : forall unesc v regs ord uri body,
  (body = None \/ ~ In uri [s2b "/registry/register"; s2b "/registry/unregister"; s2b "/registry/subscribe"]) -> snd (serveDynamic unesc v regs ord uri body) = [] /\
  (In uri [s2b "/registry/register"; s2b "/registry/unregister"; s2b "/registry/subscribe"] -> fst (serveDynamic unesc v regs ord uri body) = 400%Z) /\
  (In uri [s2b "/registry/list"; s2b "/registry/info"] -> fst (serveDynamic unesc v regs ord uri body) = 200%Z).
Proof.
  intros unesc v regs ord uri body H. apply (proj1 (and_assoc _ _ _)). split; [|intros [<-|[<-|[]]]; reflexivity]. unfold serveDynamic.
  destruct (bs_eqb uri (s2b "/registry/register")) eqn:E1. { apply bs_eqb_spec in E1. subst uri. destruct H as [-> |H]; [split; reflexivity|]. exfalso. apply H. left. reflexivity. }
  destruct (bs_eqb uri (s2b "/registry/unregister")) eqn:E2. { apply bs_eqb_spec in E2. subst uri. destruct H as [-> |H]; [split; reflexivity|]. exfalso. apply H. right. left. reflexivity. }
  destruct (bs_eqb uri (s2b "/registry/subscribe")) eqn:E3. { apply bs_eqb_spec in E3. subst uri. destruct H as [-> |H]; [split; reflexivity|]. exfalso. apply H. right. right. left. reflexivity. }
  apply bs_eqb_neq in E1, E2, E3.
  assert (N : ~ In uri [s2b "/registry/register"; s2b "/registry/unregister"; s2b "/registry/subscribe"]) by (intros [X|[X|[X|[]]]]; congruence).
  split; [|intros X; contradiction]. destruct (bs_eqb uri (s2b "/registry/list") || bs_eqb uri (s2b "/registry/info")); reflexivity.
Qed.
Print Assumptions C101_nothing.

(* the address must be written exactly: with a query it is not known *)
Theorem C101_exact : forall unesc v regs ord uri body, ~ In uri (map s2b ["/registry/register"; "/registry/unregister"; "/registry/subscribe"; "/registry/list"; "/registry/info"]%string) ->
  serveDynamic unesc v regs ord uri body = (404%Z, []).
Proof.
  intros unesc v regs ord uri body H. unfold serveDynamic.
  rewrite !(proj2 (bs_eqb_neq _ _)); [reflexivity| | | | |]; intros ->; apply H; cbn; tauto.
Qed.
Print Assumptions C101_exact.

(* the same body registers and unregisters the same services, whatever the orders of the maps *)
Theorem C101_unregister : forall unesc v calls regs regs' ord ord' b, ~ In [] (map fst regs) -> distinct_addresses regs -> Permutation regs regs' ->
  (forall l, Permutation (ord l) l) -> (forall l, Permutation (ord' l) l) -> re_ext v = fold_left addRelevantFilter calls [] ->
  let res := serveDynamic unesc v regs ord (s2b "/registry/register") (Some b) in
  let res' := serveDynamic unesc v regs' ord' (s2b "/registry/unregister") (Some b) in
  fst res = fst res' /\ Forall2 (fun c d => exists u w, c = CRegister u /\ d = CUnregister w /\ same_service u w) (snd res) (snd res').
Proof.
  intros unesc v calls regs regs' ord ord' b Hn D P Ho Ho' He.
  change (serveDynamic unesc v regs ord (s2b "/registry/register") (Some b)) with (change unesc v regs ord (Some b) (fun u => CRegister (serviceURL v u))).
  change (serveDynamic unesc v regs' ord' (s2b "/registry/unregister") (Some b)) with (change unesc v regs' ord' (Some b) (fun u => CUnregister (serviceURL v u))).
  assert (Hn' : ~ In [] (map fst regs')) by (intros X; apply Hn; exact (Permutation_in _ (Permutation_map fst (Permutation_sym P)) X)).
  destruct (change_spec unesc v calls regs ord b (fun u => CRegister (serviceURL v u)) Hn Ho He) as [(ws & E & F)|(E & A & B)];
  destruct (change_spec unesc v calls regs' ord' b (fun u => CUnregister (serviceURL v u)) Hn' Ho' He) as [(ws' & E' & F')|(E' & A' & B')]; rewrite E, E'; cbn [fst snd].
  - split; [reflexivity|]. pose proof (forall2_both _ _ _ _ _ _ _ _ _ (fun g w w' => parsed_same unesc v calls regs regs' b g w w' Hn P D) F F') as G. clear - G.
    induction G as [|w w' ws ws' S0 G IH]; cbn [map]; constructor; [|exact IH]. exists (serviceURL v w), (serviceURL v w'). split; [reflexivity|]. split; [reflexivity|]. apply service_same. exact S0.
  - exfalso. destruct F as [|g w gs ws Q F]; [apply A'; reflexivity|]. destruct Q as (_ & _ & _ & _ & _ & R & _). exact (no_perm unesc regs regs' b _ P R B').
  - exfalso. destruct F' as [|g w gs ws' Q F']; [apply A; reflexivity|]. destruct Q as (_ & _ & _ & _ & _ & R & _). exact (no_perm unesc regs' regs b _ (Permutation_sym P) R B).
  - split; [reflexivity|constructor].
Qed.
Print Assumptions C101_unregister.

(* Findings.  A body whose group is only among its parameters is answered 200 and nothing is registered (278-282 is never reached for it). *)
Definition exAgent := mkUrl (s2b "motan2") [] 0 (s2b "agent") [] (Some [(s2b "application", s2b "mesh"); (s2b "defaultFilter", s2b "accessLog,metrics")]).
Definition exEnv := mkRenv [] [] [] exAgent 9983 (s2b "10.0.0.1").
Definition exRegs := [(s2b "direct-registry", mkUrl (s2b "direct") (s2b "localhost") 9981 [] [] None); (s2b "zk-registry", mkUrl (s2b "zookeeper") (s2b "zk1") 2181 [] [] None)].
Definition exBody (group filters : bs) (extra : list (bs * bs)) := mkUrl (s2b "motan2") (s2b "10.0.0.9") 8002 (s2b "helloService") group
  (Some ([(s2b "proxyRegistry", s2b "direct://localhost:9981"); (s2b "filter", filters)] ++ extra)).
Theorem C101_group_parameter_refuted : exists unesc v regs b, text b (s2b "group") <> [] /\ (exists i r, In (i, r) regs /\ asks_addr b r) /\
  serveDynamic unesc v regs (fun l => l) (s2b "/registry/register") (Some b) = (200%Z, []).
Proof.
  exists (fun s => Some s), exEnv, exRegs, (exBody [] [] [(s2b "group", s2b "motan-demo")]). split; [vm_compute; discriminate|]. split.
  - exists (s2b "direct-registry"), (mkUrl (s2b "direct") (s2b "localhost") 9981 [] [] None). split; [left; reflexivity|]. split; [vm_compute; discriminate|vm_compute; reflexivity].
  - vm_compute. reflexivity.
Qed.
Print Assumptions C101_group_parameter_refuted.

(* With two registries of the same address, unregistering can go to the other one. *)
Theorem C101_same_address_refuted : exists unesc v regs regs' b, Permutation regs regs' /\
  (exists u w, serveDynamic unesc v regs (fun l => l) (s2b "/registry/register") (Some b) = (200%Z, [CRegister u]) /\
               serveDynamic unesc v regs' (fun l => l) (s2b "/registry/unregister") (Some b) = (200%Z, [CUnregister w]) /\ text u (s2b "registry") <> text w (s2b "registry")).
Proof.
  exists (fun s => Some s), exEnv, (map (fun i => (s2b i, mkUrl (s2b "direct") (s2b "localhost") 9981 [] [] None)) ["a"; "b"]%string),
    (map (fun i => (s2b i, mkUrl (s2b "direct") (s2b "localhost") 9981 [] [] None)) ["b"; "a"]%string), (exBody (s2b "g") [] []).
  split; [apply perm_swap|]. eexists. eexists. split; [vm_compute; reflexivity|]. split; [vm_compute; reflexivity|]. vm_compute. discriminate.
Qed.
Print Assumptions C101_same_address_refuted.

Example C101_example :
  ~ In [] (map fst exRegs) /\ re_ext exEnv = fold_left addRelevantFilter [] [] /\ groups_of (re_group exEnv) (exBody (s2b "g1, g2,g1") (s2b "af_trace,own, af_ limit ") []) = [s2b "g1"; s2b "g2"]
  /\ (exists u w, serveDynamic (fun s => Some s) exEnv exRegs (fun l => l) (s2b "/registry/register") (Some (exBody (s2b "g1, g2,g1") (s2b "af_trace,own, af_ limit ") [])) = (200%Z, [CRegister u; CRegister w])
      /\ uHost u = s2b "10.0.0.1" /\ uPort u = 9983%Z /\ uProtocol u = s2b "motan2" /\ uGroup u = s2b "g1" /\ uGroup w = s2b "g2" /\ text u (s2b "proxy") = s2b "motan2:8002"
      /\ text u (s2b "filter") = s2b "accessLog,metrics,trace,limit" /\ text u (s2b "registry") = s2b "direct-registry" /\ text u (s2b "application") = s2b "mesh")
  /\ (exists t i r i' r', In (i, r) exRegs /\ In (i', r') exRegs /\ names_registry t r /\ ~ names_registry t r')
  /\ (forall s, serveDynamic (fun s => Some s) exEnv exRegs (fun l => l) (s2b "/registry/register?") s = (404%Z, []))
  /\ serveDynamic (fun s => Some s) exEnv (tl exRegs) (fun l => l) (s2b "/registry/subscribe") (Some (exBody (s2b "g1") [] [])) = (400%Z, [])
  /\ (exists u, serveDynamic (fun s => Some s) exEnv (tl exRegs) (fun l => l) (s2b "/registry/subscribe") (Some (exBody (s2b "g1") [] [(s2b "proxyRegistryUrlString", s2b "zookeeper://zk1:2181/a?group=b")])) = (200%Z, [CSubscribe u])
      /\ text u (s2b "registry") = s2b "zk-registry" /\ uHost u = [] /\ uPort u = 0%Z).
Proof.
  split; [intros [H|[H|[]]]; discriminate|]. split; [reflexivity|]. split; [vm_compute; reflexivity|]. split.
  { eexists. eexists. split; [vm_compute; reflexivity|]. vm_compute. repeat split; reflexivity. }
  split. { exists (s2b "direct://localhost:9981"). eexists. eexists. eexists. eexists. split; [left; reflexivity|]. split; [right; left; reflexivity|]. split; [vm_compute; reflexivity|vm_compute; discriminate]. }
  split; [intros s; reflexivity|]. split; [vm_compute; reflexivity|]. eexists. split; [vm_compute; reflexivity|]. vm_compute. repeat split; reflexivity.
Qed.
