(* RhSpec.v *)
From Coq Require Import Permutation.
From Verif Require Import Base Strconv GoStrings GoStrings2 UrlModel UrlSpec CtxModel CtxSpec RhModel.

(* the address of a registry as text *)
Definition names_registry (t : bs) (r : url) : Prop := t = uProtocol r ++ s2b "://" ++ uHost r ++ s2b ":" ++ fmtZ (uPort r).
Definition same_address (a b : url) : Prop := uProtocol a = uProtocol b /\ uHost a = uHost b /\ uPort a = uPort b.
(* the request asks for the registry at [r]: by its address, or by a registry URL of the same address *)
Definition asks_addr (b r : url) : Prop := text b (s2b "proxyRegistry") <> [] /\ names_registry (text b (s2b "proxyRegistry")) r.
Definition asks_url (unesc : bs -> option bs) (b r : url) : Prop :=
  text b (s2b "proxyRegistryUrlString") <> [] /\ exists t x, unesc (text b (s2b "proxyRegistryUrlString")) = Some t /\ fromExtInfo t = Some x /\ same_address x r.
(* [id] is the registry to use *)
Definition right_registry (unesc : bs -> option bs) (regs : list (bs * url)) (b : url) (id : bs) : Prop :=
  exists r, In (id, r) regs /\ (asks_addr b r \/ ((forall i r', In (i, r') regs -> ~ asks_addr b r') /\ asks_url unesc b r)).
Definition no_registry (unesc : bs -> option bs) (regs : list (bs * url)) (b : url) : Prop :=
  forall i r, In (i, r) regs -> ~ asks_addr b r /\ ~ asks_url unesc b r.
(* the filters meant for the agent: those with af_ if there are any, else all *)
Definition for_agent (n s : bs) : Prop := n = s2b "af_" ++ s /\ s <> [].
Definition meant (b : url) (f : bs) : Prop :=
  (exists n s, In n (names (text b (s2b "filter"))) /\ for_agent n s /\ f = trimSpace s) \/
  ((forall n s, In n (names (text b (s2b "filter"))) -> ~ for_agent n s) /\ In f (names (text b (s2b "filter")))).
(* the filters of the agent: those of its configuration that are not switched off, of its environment and of its extensions *)
Definition of_agent (agent : url) (env : bs) (calls : list bs) (b : url) (f : bs) : Prop :=
  (In f (names (text agent (s2b "defaultFilter"))) /\ ~ In f (names (text b (s2b "disableDefaultFilter")))) \/
  (In f (names (text agent (s2b "globalFilter"))) /\ ~ In f (names (text b (s2b "disableGlobalFilter")))) \/
  In f (names env) \/ (exists call, In call calls /\ In f (names (trimSpace call))).
Definition groups_of (env : bs) (b : url) : list bs := first_occurrences (names (all_groups env (uGroup b))).
Definition target (c : rcall) : url := match c with CRegister u => u | CUnregister u => u | CSubscribe u => u end.

(* [w] is what the request [b] asks for in group [g] *)
Definition parsed (unesc : bs -> option bs) (v : renv) (calls : list bs) (regs : list (bs * url)) (b : url) (g : bs) (w : url) : Prop :=
  uProtocol w = uProtocol b /\ uHost w = uHost b /\ uPort w = uPort b /\ uPath w = uPath b /\ uGroup w = g /\
  right_registry unesc regs b (text w (s2b "registry")) /\
  (forall f, In f (names (text w (s2b "filter"))) <-> of_agent (re_agent v) (re_filters v) calls b f \/ meant b f) /\
  (forall k, k <> s2b "registry" -> k <> s2b "filter" -> param w k = param b k).
(* a service to export: [w] at this agent's address and export port, remembering the address of the service itself *)
Definition exported (v : renv) (w u : url) : Prop :=
  (trimSpace (uProtocol w) = uProtocol w -> uProtocol w <> [] -> ~ In x3a (uProtocol w) -> (0 <= re_eport v < 2 ^ 63)%Z -> uProtocol u = uProtocol w /\ uPort u = re_eport v) /\
  uHost u = re_ip v /\ uPath u = uPath w /\ uGroup u = uGroup w /\
  param u (s2b "proxy") = Some (uProtocol w ++ s2b ":" ++ fmtZ (uPort w)) /\
  param u (s2b "export") = Some (uProtocol w ++ s2b ":" ++ fmtZ (re_eport v)) /\
  text u (s2b "application") = (if bs_eqb (text w (s2b "application")) [] then text (re_agent v) (s2b "application") else text w (s2b "application")) /\
  (forall k, ~ In k [s2b "proxy"; s2b "export"; s2b "application"] -> param u k = param w k).
(* [w] as it is subscribed *)
Definition referred (w u : url) : Prop :=
  uProtocol u = uProtocol w /\ uHost u = [] /\ uPort u = 0%Z /\ uPath u = uPath w /\ uGroup u = uGroup w /\ uParams u = uParams w.
(* no two registries of the configuration have the same address *)
Definition distinct_addresses (regs : list (bs * url)) : Prop :=
  forall t i r i' r', In (i, r) regs -> In (i', r') regs -> names_registry t r -> names_registry t r' -> i = i'.
(* the same service at the same registry *)
Definition same_service (u w : url) : Prop :=
  uProtocol u = uProtocol w /\ uHost u = uHost w /\ uPort u = uPort w /\ uPath u = uPath w /\ uGroup u = uGroup w /\ (forall k, k <> s2b "filter" -> param u k = param w k).
