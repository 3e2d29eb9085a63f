(* CtxProps.v: C68 (sections and URLs), C69 (filters), C70 (groups). *)
From Verif Require Import Base Strconv GoStrings GoStrings2 UrlModel UrlSpec UrlProofs ConfModel ConfSpec ConfProofs CtxModel CtxSpec CtxProofs.

Definition noF : N -> bs := fun _ => [].
Definition kk (s : string) : ckey := KStr (s2b s).

(* ---- C68 *)
Theorem C68_section (fmtF : N -> bs) (m : cmap) (u : url) : NoDup (map fst m) -> confToURL fmtF m = Some u ->
  uProtocol u = text_field m "protocol" /\ uHost u = text_field m "host" /\ uPort u = int_field m "port" /\
  uPath u = text_field m "path" /\ uGroup u = text_field m "group" /\
  forall k, ~ In k reserved -> param u k = option_map (printed fmtF) (aget ckey_eqb m (KStr k)).
Proof. exact (@section_fields fmtF m u). Qed.
Theorem C68_refused (fmtF : N -> bs) (m : cmap) : confToURL fmtF m = None <-> exists k v, In (k, v) m /\ bad_entry k v.
Proof. exact (@section_bad fmtF m). Qed.
Theorem C68_basic (basics : list (bs * curl)) (key : bs) (c b : curl) : NoDup (map fst (pairs (cUrl c))) ->
  str_or (cUrl c) key [] <> [] -> aget bs_eqb basics (str_or (cUrl c) key []) = Some b ->
  exists c', deriveURL basics key c = Some c' /\
    uProtocol (cUrl c') = first_of (uProtocol (cUrl c)) (uProtocol (cUrl b)) /\
    uHost (cUrl c') = first_of (uHost (cUrl c)) (uHost (cUrl b)) /\
    uPort (cUrl c') = (if Z.eqb (uPort (cUrl c)) 0 then uPort (cUrl b) else uPort (cUrl c)) /\
    uPath (cUrl c') = first_of (uPath (cUrl c)) (uPath (cUrl b)) /\
    uGroup (cUrl c') = first_of (uGroup (cUrl c)) (uGroup (cUrl b)) /\
    (forall k, param (cUrl c') k = match param (cUrl c) k with Some v => Some v | None => param (cUrl b) k end).
Proof. exact (@derive_basic basics key c b). Qed.
Theorem C68_no_basic (basics : list (bs * curl)) (key : bs) (c : curl) :
  str_or (cUrl c) key [] = [] \/ aget bs_eqb basics (str_or (cUrl c) key []) = None ->
  exists c', deriveURL basics key c = Some c' /\ cUrl c' = cUrl c.
Proof. exact (@derive_plain basics key c). Qed.
Print Assumptions C68_section.
Print Assumptions C68_refused.
Print Assumptions C68_basic.
Print Assumptions C68_no_basic.
(* Each section of a configuration makes one URL, in order: the section's, with the section's name as its conf-id. *)
Theorem C68_sections (fmtF : N -> bs) : forall m us, confToURLs fmtF m = Some us ->
  Forall2 (fun e ku => exists k info u, e = (KStr k, CMap info) /\ confToURL fmtF info = Some u /\ fst ku = k /\
    uProtocol (cUrl (snd ku)) = uProtocol u /\ uHost (cUrl (snd ku)) = uHost u /\ uPort (cUrl (snd ku)) = uPort u /\ uPath (cUrl (snd ku)) = uPath u /\ uGroup (cUrl (snd ku)) = uGroup u /\
    forall p, param (cUrl (snd ku)) p = if bs_eqb p (s2b "conf-id") then Some k else param u p) m us.
Proof.
  induction m as [|[k v] m IH]; intros us H; cbn [confToURLs] in H; [injection H as <-; constructor|].
  destruct k; try discriminate H. destruct v; try discriminate H. destruct (confToURL fmtF m0) as [u|] eqn:E; [|discriminate H]. destruct (confToURLs fmtF m) as [r|]; [|discriminate H]. injection H as <-.
  constructor; [|apply IH; reflexivity]. exists s, m0, u. split; [reflexivity|]. split; [exact E|]. split; [reflexivity|]. repeat (split; [reflexivity|]). intro p. cbn [snd fresh cUrl].
  unfold param, withParams. cbn [uParams]. unfold pset. destruct (uParams u) as [ps|]; cbn [aget aset].
  - rewrite (aget_aset bs_eqb bs_eqb_spec). reflexivity.
  - destruct (bs_eqb p URLConfKey) eqn:B; unfold URLConfKey in B; rewrite ?B; reflexivity.
Qed.
Print Assumptions C68_sections.

Definition ex_sec : cmap := [(kk "protocol", CStr (s2b "motan2")); (kk "port", CInt 8002); (kk "group", CNil); (kk "requestTimeout", CInt 1000);
  (kk "basicRefer", CStr (s2b "mybasic")); (kk "mingzSize", CStr (s2b "100"))].
Definition ex_basic : curl := fresh (mkUrl (s2b "motan") (s2b "h") 1 (s2b "p") (s2b "g") (Some [(s2b "requestTimeout", s2b "5"); (s2b "haStrategy", s2b "failover")])).
Example C68_nonvacuous : NoDup (map fst ex_sec) /\ exists u c',
  confToURL noF ex_sec = Some u /\ NoDup (map fst (pairs u)) /\
  deriveURL [(s2b "mybasic", ex_basic)] (s2b "basicRefer") (fresh u) = Some c' /\
  uProtocol (cUrl c') = s2b "motan2" /\ uPort (cUrl c') = 8002%Z /\ uGroup (cUrl c') = s2b "g" /\
  param (cUrl c') (s2b "requestTimeout") = Some (s2b "1000") /\ param (cUrl c') (s2b "haStrategy") = Some (s2b "failover").
Proof.
  split; [apply (@nodupb_NoDup _ ckey_eqb ckey_eqb_spec); vm_compute; reflexivity|].
  eexists. eexists. split; [vm_compute; reflexivity|]. split; [apply (@nodupb_NoDup _ bs_eqb bs_eqb_spec); vm_compute; reflexivity|].
  split; [vm_compute; reflexivity|]. vm_compute. repeat split.
Qed.
(* "a parameter of the section is a parameter of the URL": one that is a list or a 64 bit number becomes the empty text *)
Theorem C68_lists_refuted : exists m u, confToURL noF m = Some u /\
  aget ckey_eqb m (kk "nodes") = Some (CList [CStr (s2b "a:1"); CStr (s2b "b:2")]) /\ param u (s2b "nodes") = Some [] /\
  aget ckey_eqb m (kk "limit") = Some (CInt64 5000000000) /\ param u (s2b "limit") = Some [].
Proof.
  exists [(kk "nodes", CList [CStr (s2b "a:1"); CStr (s2b "b:2")]); (kk "limit", CInt64 5000000000)]. eexists.
  split; [vm_compute; reflexivity|]. vm_compute. repeat split.
Qed.
(* "a field left blank has its default": a blank port makes the program panic, although the code replaces nil by "0" *)
Theorem C68_blank_port_refuted : exists m, aget ckey_eqb m (kk "port") = Some CNil /\ confToURL noF m = None.
Proof. exists [(kk "port", CNil)]. split; reflexivity. Qed.

(* ---- C69 *)
Theorem C69_filters (ord : list bs -> list bs) (agent : option url) (env : bs) (calls : list bs) (c : curl) (f : bs) :
  (forall l, Permutation (ord l) l) ->
  In f (names (text (cUrl (setFilters ord agent env (fold_left addRelevantFilter calls []) c)) (s2b "filter"))) <->
  wanted agent env calls (cUrl c) f.
Proof. exact (@filters_ok ord agent env calls c f). Qed.
Theorem C69_others_kept (ord : list bs -> list bs) (agent : option url) (env : bs) (ext : list bs) (c : curl) (k : bs) :
  k <> s2b "filter" -> param (cUrl (setFilters ord agent env ext c)) k = param (cUrl c) k.
Proof. exact (@filters_rest ord agent env ext c k). Qed.
Print Assumptions C69_filters.
Print Assumptions C69_others_kept.
Example C69_nonvacuous :
  let agent := mkUrl [] [] 0 [] [] (Some [(s2b "defaultFilter", s2b "accessLog, metrics")]) in
  let u := mkUrl [] [] 0 [] [] (Some [(s2b "filter", s2b "rateLimit"); (s2b "disableDefaultFilter", s2b "accessLog")]) in
  param (cUrl (setFilters (fun l => l) (Some agent) (s2b "trace") (fold_left addRelevantFilter [s2b " mine "] []) (fresh u))) (s2b "filter")
  = Some (s2b "metrics,trace,mine,rateLimit").
Proof. vm_compute. reflexivity. Qed.
(* "disable": a filter the agent has both as default and as global filter needs both switches *)
Theorem C69_disable_refuted : exists agent u f,
  In f (names (text u (s2b "disableDefaultFilter"))) /\ In f (names (text agent (s2b "defaultFilter"))) /\ ~ In f (names (text u (s2b "filter"))) /\
  In f (names (text (cUrl (setFilters (fun l => l) (Some agent) [] [] (fresh u))) (s2b "filter"))).
Proof.
  exists (mkUrl [] [] 0 [] [] (Some [(s2b "defaultFilter", s2b "a"); (s2b "globalFilter", s2b "a")])),
         (mkUrl [] [] 0 [] [] (Some [(s2b "disableDefaultFilter", s2b "a")])), (s2b "a").
  split; [vm_compute; left; reflexivity|]. split; [vm_compute; left; reflexivity|].
  split; [vm_compute; intros []|]. vm_compute. left. reflexivity.
Qed.

(* ---- C70 *)
Theorem C70_services (env suffix : bs) (m r : list (bs * curl)) :
  NoDup (map fst m) -> no_numbered (map fst m) -> parseServices env suffix m = Some r ->
  NoDup (map fst r) /\
  (forall k, In k (map fst m) -> In k (map fst r)) /\
  (forall k c g, In (k, c) m -> in_group env (uGroup (cUrl c)) g -> exists k' c', In (k', c') r /\ in_other_group (cUrl c) (cUrl c') (with_suffix suffix g)) /\
  (forall k' c', In (k', c') r -> exists k c g, In (k, c) m /\ in_group env (uGroup (cUrl c)) g /\ in_other_group (cUrl c) (cUrl c') (with_suffix suffix g)).
Proof. exact (@services_all env suffix m r). Qed.
Theorem C70_panics (env suffix : bs) (m : list (bs * curl)) : parseServices env suffix m = None <->
  exists k c, In (k, c) m /\ contains (all_groups env (uGroup (cUrl c))) (s2b ",") = true /\ names (all_groups env (uGroup (cUrl c))) = [].
Proof. exact (@services_panic env suffix m). Qed.
Theorem C70_identities (env suffix : bs) (m r : list (bs * curl)) : (forall k c, In (k, c) m -> uncached c) -> parseServices env suffix m = Some r ->
  forall k c, In (k, c) r -> idOf c = identity_of (cUrl c).
Proof. exact (@services_id env suffix m r). Qed.
Theorem C70_sub_groups (suffix : bs) (m : list (bs * curl)) : suffix <> [] -> no_clash suffix m ->
  let r := parseSubGroupSuffix true suffix m in
  (forall k c, In (k, c) m -> exists c', In (k, c') r /\ cUrl c' = cUrl c) /\
  (forall k c, In (k, c) m -> lacks suffix c -> exists k' c', In (k', c') r /\ idOf c' = target suffix c) /\
  (forall k' c', In (k', c') r -> (exists c, In (k', c) m /\ cUrl c' = cUrl c) \/
     (exists k c, In (k, c) m /\ lacks suffix c /\ in_other_group (cUrl c) (cUrl c') (uGroup (cUrl c) ++ suffix) /\
        ~ In (idOf c') (map (fun kc => idOf (snd kc)) m))).
Proof. exact (@sub_groups suffix m). Qed.
Print Assumptions C70_services.
Print Assumptions C70_panics.
Print Assumptions C70_identities.
Print Assumptions C70_sub_groups.

Definition svc (g : string) : curl := fresh (mkUrl (s2b "motan2") [] 80 (s2b "Svc") (s2b g) (Some [])).
Example C70_services_nonvacuous : exists r,
  parseServices (s2b "c") (s2b "-x") [(s2b "s", svc "a, b"); (s2b "t", svc "d-x")] = Some r /\
  map (fun kc => (fst kc, uGroup (cUrl (snd kc)))) r =
    [(s2b "s", s2b "a-x"); (s2b "t", s2b "d-x"); (s2b "s-0", s2b "b-x"); (s2b "s-1", s2b "c-x"); (s2b "t-0", s2b "c-x")] /\
  no_numbered [s2b "s"; s2b "t"] /\ NoDup [s2b "s"; s2b "t"].
Proof.
  eexists. split; [vm_compute; reflexivity|]. split; [vm_compute; reflexivity|]. split.
  - intros k k' n H H' E. assert (L : length k' = 1%nat) by (destruct H' as [<-|[<-|[]]]; reflexivity).
    assert (L2 : length k = 1%nat) by (destruct H as [<-|[<-|[]]]; reflexivity).
    rewrite E, !app_length, L2 in L. cbn [s2b length] in L. change (length (s2b "-")) with 1%nat in L. lia.
  - apply (@nodupb_NoDup _ bs_eqb bs_eqb_spec). vm_compute. reflexivity.
Qed.
Example C70_sub_nonvacuous : no_clash (s2b "-sub") [(s2b "r", svc "a"); (s2b "q", svc "b-sub")] /\
  map (fun kc => (fst kc, uGroup (cUrl (snd kc)))) (parseSubGroupSuffix true (s2b "-sub") [(s2b "r", svc "a"); (s2b "q", svc "b-sub")]) =
  [(s2b "r", s2b "a"); (s2b "q", s2b "b-sub"); (s2b "auto_ra-sub", s2b "a-sub")].
Proof.
  split; [|vm_compute; reflexivity].
  split; [apply (@nodupb_NoDup _ bs_eqb bs_eqb_spec); vm_compute; reflexivity|].
  split; [apply (@nodupb_NoDup _ bs_eqb bs_eqb_spec); vm_compute; reflexivity|].
  intros kc [<-|[<-|[]]] H; vm_compute in H; repeat destruct H as [H|H]; try discriminate H; destruct H.
Qed.
(* "every service is exported": the second group of service s overwrites the service called s-0 *)
Theorem C70_numbered_refuted : exists m r, NoDup (map fst m) /\ parseServices [] [] m = Some r /\
  exists k c, In (k, c) m /\ forall k' c', In (k', c') r -> uGroup (cUrl c') <> uGroup (cUrl c).
Proof.
  exists [(s2b "s", svc "a,b"); (s2b "s-0", svc "other")]. eexists.
  split; [apply (@nodupb_NoDup _ bs_eqb bs_eqb_spec); vm_compute; reflexivity|]. split; [vm_compute; reflexivity|].
  exists (s2b "s-0"), (svc "other"). split; [right; left; reflexivity|].
  intros k' c' [H|[H|[]]]; injection H as <- <-; vm_compute; discriminate.
Qed.
(* "a sub group is subscribed for every reference": two references whose names and groups run together share one key *)
Theorem C70_sub_clash_refuted : exists m k c, In (k, c) m /\ NoDup (map fst m) /\ lacks (s2b "-sub") c /\
  forall k' c', In (k', c') (parseSubGroupSuffix true (s2b "-sub") m) -> uGroup (cUrl c') <> uGroup (cUrl c) ++ s2b "-sub".
Proof.
  exists [(s2b "a", svc "bc"); (s2b "ab", svc "c")], (s2b "a"), (svc "bc").
  split; [left; reflexivity|]. split; [apply (@nodupb_NoDup _ bs_eqb bs_eqb_spec); vm_compute; reflexivity|].
  split; [intros [p H]; cbn in H; destruct p as [|x [|y [|z p]]]; vm_compute in H; try discriminate H; injection H as _ _ H; destruct p; discriminate H|].
  intros k' c' H. vm_compute in H. repeat destruct H as [H|H]; try (injection H as <- <-; vm_compute; discriminate). destruct H.
Qed.
(* "an identity names the group": with a basic service the identity is computed before the groups are told apart, and the
   service then registers and is looked up under the identity of the whole list *)
Theorem C70_stale_identity_refuted : exists basics c n r, uncached c /\
  deriveURL basics (s2b "basicService") c = Some n /\
  parseServices [] [] [(s2b "s", n)] = Some r /\ exists c', In (s2b "s", c') r /\ uGroup (cUrl c') = s2b "a" /\ idOf c' <> identity_of (cUrl c').
Proof.
  exists [(s2b "b", svc "g")], (fresh (mkUrl (s2b "motan2") [] 80 (s2b "Svc") (s2b "a,b") (Some [(s2b "basicService", s2b "b")]))).
  eexists. eexists. split; [reflexivity|]. split; [vm_compute; reflexivity|]. split; [vm_compute; reflexivity|].
  eexists. split; [left; reflexivity|]. vm_compute. split; [reflexivity|discriminate].
Qed.
(* the same happens to the protocol that is renamed after the identities were compared *)
Theorem C70_renamed_identity_refuted : exists c c', uncached c /\ In (s2b "r", c') (parseRefers true (s2b "-sub") [(s2b "r", c)]) /\
  uProtocol (cUrl c') = s2b "motan" /\ idOf c' <> identity_of (cUrl c').
Proof.
  exists (fresh (mkUrl (s2b "motanV1Compatible") [] 80 (s2b "Svc") (s2b "a") (Some []))). eexists.
  split; [reflexivity|]. split; [vm_compute; left; reflexivity|]. vm_compute. split; [reflexivity|discriminate].
Qed.
