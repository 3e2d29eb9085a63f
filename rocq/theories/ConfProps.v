(* ConfProps.v: the theorems about configurations (C41, C66, C67). *)
From Verif Require Import Base Strconv GoStrings ConfModel ConfSpec ConfProofs.
Require Import Coq.Sorting.Sorted.

(* ---- C41 merging *)

(* the later configuration wins, at any depth, unless both hold maps or both hold lists *)
Theorem C41_later_wins (c o : cmap) (p : list ckey) (v : cval) :
  yaml (CMap c) -> yaml (CMap o) -> wf (CMap o) ->
  get p (CMap o) = Some v -> v <> CNil ->
  ~ (is_map v /\ exists m, get p (CMap c) = Some (CMap m)) ->
  ~ (is_list v /\ exists l, get p (CMap c) = Some (CList l)) ->
  get p (CMap (merge c (Some o))) = Some v.
Proof. intros. cbn [merge]. rewrite <- mergeVal_map. apply merge_override; assumption. Qed.
Print Assumptions C41_later_wins.

(* what the later configuration does not mention is kept, at any depth *)
Theorem C41_rest_kept (c o : cmap) (p : list ckey) :
  yaml (CMap c) -> wf (CMap o) -> silent p (CMap o) -> get p (CMap c) <> None ->
  get p (CMap (merge c (Some o))) = get p (CMap c).
Proof. intros Y W S G. cbn [merge]. rewrite <- mergeVal_map. apply merge_keep; try assumption. discriminate. Qed.
Print Assumptions C41_rest_kept.

(* two lists are appended, the earlier first; two maps stay a map *)
Theorem C41_lists_appended (c o : cmap) (p : list ckey) (a b : list cval) :
  wf (CMap o) -> get p (CMap c) = Some (CList a) -> get p (CMap o) = Some (CList b) ->
  get p (CMap (merge c (Some o))) = Some (CList (a ++ b)).
Proof. intros W G1 G2. cbn [merge]. rewrite <- mergeVal_map. rewrite (@merge_meet p _ _ _ _ W G1 G2); [reflexivity|discriminate|discriminate]. Qed.
Theorem C41_maps_merged (c o : cmap) (p : list ckey) (a b : cmap) :
  wf (CMap o) -> get p (CMap c) = Some (CMap a) -> get p (CMap o) = Some (CMap b) ->
  get p (CMap (merge c (Some o))) = Some (CMap (merge a (Some b))).
Proof.
  intros W G1 G2. cbn [merge]. rewrite <- mergeVal_map. rewrite (@merge_meet p _ _ _ _ W G1 G2); [|discriminate|discriminate].
  rewrite mergeVal_map. reflexivity.
Qed.
Print Assumptions C41_lists_appended.
Print Assumptions C41_maps_merged.

(* nothing else appears *)
Theorem C41_nothing_invented (c o : cmap) (p : list ckey) (v : cval) :
  wf (CMap o) -> get p (CMap (merge c (Some o))) = Some v ->
  get p (CMap c) = Some v \/ get p (CMap o) = Some v \/
  (exists a b, get p (CMap c) = Some (CMap a) /\ get p (CMap o) = Some (CMap b) /\ v = CMap (merge a (Some b))) \/
  (exists a b, get p (CMap c) = Some (CList a) /\ get p (CMap o) = Some (CList b) /\ v = CList (a ++ b)).
Proof. intros W H. cbn [merge] in H. rewrite <- mergeVal_map in H. exact (@merge_origin p _ _ _ W H). Qed.
Print Assumptions C41_nothing_invented.

Definition k1 (s : string) : ckey := KStr (s2b s).
Definition ex_base : cmap := [(k1 "a", CMap [(k1 "x", CInt 1); (k1 "y", CInt 2)]); (k1 "l", CList [CInt 1])].
Definition ex_over : cmap := [(k1 "a", CMap [(k1 "y", CStr (s2b "new"))]); (k1 "l", CList [CInt 2]); (k1 "n", CNil)].
Lemma ex_base_good : wf (CMap ex_base) /\ yaml (CMap ex_base).
Proof. apply goodb_good. vm_compute. reflexivity. Qed.
Lemma ex_over_good : wf (CMap ex_over) /\ yaml (CMap ex_over).
Proof. apply goodb_good. vm_compute. reflexivity. Qed.
Example C41_nonvacuous :
  get [k1 "a"; k1 "y"] (CMap (merge ex_base (Some ex_over))) = Some (CStr (s2b "new")) /\
  get [k1 "a"; k1 "x"] (CMap (merge ex_base (Some ex_over))) = Some (CInt 1) /\
  get [k1 "l"] (CMap (merge ex_base (Some ex_over))) = Some (CList [CInt 1; CInt 2]).
Proof. vm_compute. repeat split. Qed.

(* a key with a nil value that only the later configuration has is lost, although it is in the file *)
Theorem C41_nil_entry_refuted : exists c o k, get [k] (CMap o) = Some CNil /\ get [k] (CMap c) = None /\
  get [k] (CMap (merge c (Some o))) = None.
Proof. exists ex_base, ex_over, (k1 "n"). vm_compute. repeat split. Qed.

(* the files of a pool: in a list of configurations merged in turn, a scalar is that of the last one that mentions it *)
Theorem C41_last_layer_wins (ls : list cmap) (c : cmap) (p : list ckey) (v : cval) :
  (forall x, In x ls -> wf (CMap x) /\ yaml (CMap x)) ->
  decided_by p ls c -> get p (CMap c) = Some v -> scalar v ->
  get p (CMap (fold_left (fun a b => merge a (Some b)) ls [])) = Some v.
Proof. exact (@layers_decide ls p c v). Qed.
Print Assumptions C41_last_layer_wins.

(* the order of the files: basic, then http, then what the application imports, then the application, then the pools from
   the shortest name to the full one *)
Theorem C41_file_order (fs : files) (path app pool : bs) (fuel : nat) (ls seen : list bs) :
  poolLayers fuel fs path app pool = IOk ls seen ->
  exists http services bases,
    ls = readable fs (path ++ s2b "basic.yaml") ++ http ++ services ++
         readable fs (path ++ s2b "applications/" ++ application_name app pool ++ s2b ".yaml") ++
         flat_map (fun b => readable fs (path ++ s2b "pools/" ++ b ++ s2b ".yaml")) bases /\
    (forall f, In f http -> under path (s2b "http/") f) /\
    (forall f, In f services -> under path (s2b "services/") f \/ under path (s2b "http/location/") f) /\
    (forall b, In b bases <-> dash_prefix b pool) /\
    StronglySorted (fun a b => length a < length b) bases /\
    (forall f, In f ls -> fs f <> None).
Proof.
  intro H. apply pool_layers_order in H as [http [sv [H1 [H2 [H3 H4]]]]].
  exists http, sv, (poolBases [] (splitOn x2d pool)). split; [exact H1|]. split; [exact H2|]. split; [exact H3|].
  split; [|split; [exact (proj1 (poolBases_sorted pool []))|exact H4]].
  intro b. rewrite poolBases_in. split.
  - intros [q [-> D]]. exact D.
  - intro D. exists b. split; [reflexivity|exact D].
Qed.
Print Assumptions C41_file_order.

(* loading ends, and no location file is merged twice, whatever the files import *)
Theorem C41_imports_end (fs : files) (path app pool : bs) (us : list bs) (fuel : nat) :
  locations_are fs path us -> S (length us) < fuel ->
  poolLayers fuel fs path app pool <> IFuel /\
  forall ls seen, poolLayers fuel fs path app pool = IOk ls seen ->
    forall r, countb (bs_eqb (location_file path r)) ls <= 1.
Proof. intros H F. exact (@pool_layers_ok fs path us H fuel app pool F). Qed.
Print Assumptions C41_imports_end.

(* what a pool is configured with *)
Theorem C41_pool_result (fs : files) (rx : bs -> bool) (path app pool : bs) (fuel : nat) (before after seen : list bs)
  (f : bs) (c r : cmap) (p : list ckey) (v : cval) :
  (forall g m, fs g = Some m -> wf (CMap m) /\ yaml (CMap m)) ->
  poolLayers fuel fs path app pool = IOk (before ++ f :: after) seen ->
  parsePool fuel fs rx path app pool = Some r ->
  fs f = Some c -> get p (CMap c) = Some v -> scalar v -> p <> [] ->
  (forall g m, In g after -> fs g = Some m -> silent p (CMap m)) ->
  (forall s k, v = CStr s -> ~ placeholder_for s k) ->
  get p (CMap r) = Some v.
Proof.
  intros Hg Hl Hp Hf G S Np Hs Hk. exact (@pool_result fs rx path fuel app pool _ seen c p f v r before after Hg Hl Hp eq_refl Hf G S Np Hs Hk).
Qed.
Print Assumptions C41_pool_result.

(* a pool "app-bj" over files that import one another *)
Definition ex_fs : files := fun f =>
  if bs_eqb f (s2b "c/basic.yaml") then Some [(k1 "t", CInt 1); (k1 "b", CInt 0)]
  else if bs_eqb f (s2b "c/applications/app.yaml")
    then Some [(k1 "t", CInt 2); (k1 "import-refer", CList [CStr (s2b "s1"); CStr (s2b "s2")])]
  else if bs_eqb f (s2b "c/services/s1.yaml") then Some [(k1 "s", CStr (s2b "service"))]
  else if bs_eqb f (s2b "c/services/s2.yaml") then Some [(k1 "import-http-location", CList [CStr (s2b "l")])]
  else if bs_eqb f (s2b "c/http/location/l.yaml")
    then Some [(k1 "s", CStr (s2b "http")); (k1 "import-http-location", CList [CStr (s2b "l"); CStr (s2b "gone")])]
  else if bs_eqb f (s2b "c/pools/app-bj.yaml") then Some [(k1 "t", CInt 3)]
  else None.
Example C41_pool_nonvacuous : exists ls seen r,
  poolLayers 10 ex_fs (s2b "c/") [] (s2b "app-bj") = IOk ls seen /\ length ls = 6 /\
  parsePool 10 ex_fs (fun _ => false) (s2b "c/") [] (s2b "app-bj") = Some r /\
  get [k1 "t"] (CMap r) = Some (CInt 3) /\ get [k1 "b"] (CMap r) = Some (CInt 0).
Proof. eexists. eexists. eexists. vm_compute. repeat split. Qed.

Definition leaf (v : cval) : bool := match v with CMap _ | COther _ _ => false | _ => true end.
Lemma leaf_files m : NoDup (map fst m) -> forallb (fun kv : ckey * cval => leaf (snd kv)) m = true -> wf (CMap m) /\ yaml (CMap m).
Proof.
  intros N F.
  assert (G : forall k v, aget ckey_eqb m k = Some v -> leaf v = true).
  { clear N. induction m as [|[k v] r IH]; cbn [aget forallb snd] in *; [discriminate|]. apply andb_prop in F as [F1 F2].
    intros k' v'. destruct (ckey_eqb _ _); [intro H; injection H as <-; exact F1|exact (IH F2 k' v')]. }
  split.
  - intros [|k [|k2 p]] x H; cbn [get] in H; [injection H as <-; exact N|..]; destruct (aget ckey_eqb m k) as [v|] eqn:E; try discriminate H; specialize (G k v E).
    + injection H as ->. discriminate G.
    + destruct v; try discriminate H. discriminate G.
  - intros [|k [|k2 p]] o n H; cbn [get] in H; [discriminate H|..]; destruct (aget ckey_eqb m k) as [v|] eqn:E; try discriminate H; specialize (G k v E).
    + injection H as ->. discriminate G.
    + destruct v; try discriminate H. discriminate G.
Qed.
(* the hypotheses of C41_pool_result: the value of the basic file about which the five others are silent *)
Example C41_pool_result_example : exists after seen r,
  (forall g m, ex_fs g = Some m -> wf (CMap m) /\ yaml (CMap m)) /\
  poolLayers 10 ex_fs (s2b "c/") [] (s2b "app-bj") = IOk ([] ++ s2b "c/basic.yaml" :: after) seen /\ length after = 5 /\
  parsePool 10 ex_fs (fun _ => false) (s2b "c/") [] (s2b "app-bj") = Some r /\
  (forall g m, In g after -> ex_fs g = Some m -> silent [k1 "b"] (CMap m)) /\ scalar (CInt 0) /\
  get [k1 "b"] (CMap r) = Some (CInt 0).
Proof.
  eexists. eexists. eexists. split.
  { intros g m H. unfold ex_fs in H.
    repeat match type of H with (if ?c then _ else _) = _ => destruct c; [injection H as <-; apply leaf_files; [repeat constructor; cbn; intuition discriminate|reflexivity]|] end.
    discriminate H. }
  split; [vm_compute; reflexivity|]. split; [reflexivity|]. split; [vm_compute; reflexivity|]. split.
  { intros g m Hin H q v [r Hr] Hg.
    assert (Q : q = [] \/ q = [k1 "b"]) by (destruct q as [|x [|y q]]; [left; reflexivity|right; injection Hr as ->; reflexivity|discriminate Hr]).
    destruct Q as [->| ->].
    - right. cbn [get] in Hg. injection Hg as <-. split; [discriminate|exists m; reflexivity].
    - exfalso. cbn [In] in Hin. repeat (destruct Hin as [<-|Hin]; [vm_compute in H; injection H as <-; vm_compute in Hg; discriminate Hg|]). destruct Hin. }
  split; [|vm_compute; reflexivity].
  split; [discriminate|]. split; intros [x H]; discriminate H.
Qed.

(* the documented order is pool > application > service > http > basic.  A location imported by a service file is merged
   after the services listed before it, and overrides them *)
Theorem C41_http_over_service_refuted : exists fs path pool r,
  (exists c, fs (path ++ s2b "services/s1.yaml") = Some c /\ get [k1 "s"] (CMap c) = Some (CStr (s2b "service"))) /\
  parsePool 10 fs (fun _ => false) path [] pool = Some r /\
  get [k1 "s"] (CMap r) = Some (CStr (s2b "http")).
Proof. exists ex_fs, (s2b "c/"), (s2b "app-bj"). eexists. split; [eexists; vm_compute; split; reflexivity|]. vm_compute. split; reflexivity. Qed.

(* ---- C67 placeholders *)
Theorem C67_replaced (c : cmap) (ph : list (bs * cval)) (p : list ckey) (s k : bs) (nv : cval) :
  p <> [] -> get p (CMap c) = Some (CStr s) -> placeholder_for s k -> aget bs_eqb ph k = Some nv -> nv <> CNil ->
  get p (CMap (replacePlaceHolder c ph)) = Some nv.
Proof. exact (@placeholder_replaced c ph p s k nv). Qed.
Theorem C67_others_kept (c : cmap) (ph : list (bs * cval)) (p : list ckey) (x : cval) :
  p <> [] -> get p (CMap c) = Some x -> ~ is_map x ->
  (forall s k nv, x = CStr s -> placeholder_for s k -> aget bs_eqb ph k = Some nv -> nv = CNil) ->
  get p (CMap (replacePlaceHolder c ph)) = Some x.
Proof. exact (@placeholder_kept c ph p x). Qed.
Print Assumptions C67_replaced.
Print Assumptions C67_others_kept.
(* the value for one pool: its own, else that of the matching pattern, else the default; a plain value is for every pool *)
Theorem C67_pool_value (pool : bs) (rx : bs -> bool) (dp mv : cmap) (k : bs) (v : cval) :
  aget ckey_eqb dp (KStr k) = Some (CMap mv) ->
  (exact_value mv pool v \/
   (no_exact mv pool /\ pattern_value rx mv v /\ v <> CNil /\ forall w, pattern_value rx mv w -> w = v) \/
   (no_exact mv pool /\ (forall w, pattern_value rx mv w -> w = CNil) /\ aget ckey_eqb mv (KStr (s2b "default")) = Some v)) ->
  aget bs_eqb (dynamicParameters pool rx dp) k = Some v.
Proof.
  intros E H. rewrite dynamicParameters_get, E. cbn [option_map]. f_equal.
  destruct H as [H|[[H1 [H2 [H3 H4]]]|[H1 [H2 H3]]]].
  - exact (dyn_exact _ H).
  - exact (dyn_pattern H1 H2 H3 H4).
  - exact (dyn_default H1 H2 H3).
Qed.
Theorem C67_plain_value (pool : bs) (rx : bs -> bool) (dp : cmap) (k : bs) (v : cval) :
  aget ckey_eqb dp (KStr k) = Some v -> ~ is_map v -> aget bs_eqb (dynamicParameters pool rx dp) k = Some v.
Proof. intros E H. rewrite dynamicParameters_get, E. cbn [option_map]. f_equal. apply dyn_plain. exact H. Qed.
Print Assumptions C67_pool_value.
Print Assumptions C67_plain_value.

Definition ex_ph : cmap :=
  [(k1 "dynamic-param", CMap [(k1 "idc", CMap [(k1 "app-bj", CStr (s2b "bj")); (k1 "default", CStr (s2b "hk"))])]);
   (k1 "r", CMap [(k1 "group", CStr (s2b "${idc}")); (k1 "path", CStr (s2b "x${idc}"))]);
   (k1 "l", CList [CStr (s2b "${idc}")])].
Example C67_nonvacuous :
  get [k1 "r"; k1 "group"] (CMap (withDynamic (s2b "app-bj") (fun _ => false) ex_ph)) = Some (CStr (s2b "bj")) /\
  get [k1 "r"; k1 "group"] (CMap (withDynamic (s2b "app-sh") (fun _ => false) ex_ph)) = Some (CStr (s2b "hk")) /\
  get [k1 "r"; k1 "path"] (CMap (withDynamic (s2b "app-bj") (fun _ => false) ex_ph)) = Some (CStr (s2b "x${idc}")).
Proof. vm_compute. repeat split. Qed.
(* "will replace all placeholders": those that are elements of a list stay *)
Theorem C67_lists_refuted : exists c ph l,
  placeholder_for (s2b "${idc}") (s2b "idc") /\ aget bs_eqb ph (s2b "idc") = Some (CStr (s2b "bj")) /\
  get [k1 "l"] (CMap c) = Some (CList l) /\ In (CStr (s2b "${idc}")) l /\
  get [k1 "l"] (CMap (replacePlaceHolder c ph)) = Some (CList l).
Proof.
  exists ex_ph, [(s2b "idc", CStr (s2b "bj"))], [CStr (s2b "${idc}")].
  split; [split; [discriminate|split; [cbn; intuition discriminate|reflexivity]]|].
  vm_compute. repeat split. left. reflexivity.
Qed.
(* when two patterns match a pool the answer depends on the order of a Go map *)
Theorem C67_two_patterns_refuted : exists rx mv mv', (forall x, In x mv <-> In x mv') /\
  dynamicOf (s2b "app") rx (CMap mv) <> dynamicOf (s2b "app") rx (CMap mv').
Proof.
  exists (fun _ => true), [(k1 "regexp:a", CInt 1); (k1 "regexp:.*", CInt 2)], [(k1 "regexp:.*", CInt 2); (k1 "regexp:a", CInt 1)].
  split; [intro x; cbn; tauto|]. vm_compute. discriminate.
Qed.

(* ---- C66 typed getters *)
Theorem C66_bool_words (c : cmap) (k s : bs) : k <> [] -> aget ckey_eqb c (KStr k) = Some (CStr s) ->
  (getBool c k = Some true <-> In s documented_true) /\ (getBool c k = Some false <-> In s documented_false) /\
  (getBool c k = None <-> ~ In s documented_true /\ ~ In s documented_false).
Proof. intros N E. unfold getBool, getData, cget. destruct k; [contradiction|]. rewrite E. apply parseBool_words. Qed.
Theorem C66_absent (c : cmap) (k : bs) (d : Z) (s : bs) : aget ckey_eqb c (KStr k) = None ->
  getBool c k = None /\ getIntC c k = None /\ getInt64C c k = None /\ defaultInt c k d = d /\ getStringD c k s = s /\ getSection c k = None.
Proof. intro E. unfold getBool, getIntC, getInt64C, defaultInt, getIntC, getStringD, getSection, getData, cget. destruct k; [repeat split|]. rewrite E. repeat split. Qed.
Theorem C66_values (c : cmap) (k : bs) : k <> [] ->
  (forall z, aget ckey_eqb c (KStr k) = Some (CInt z) -> forall d, getIntC c k = Some z /\ defaultInt c k d = z) /\
  (forall s, aget ckey_eqb c (KStr k) = Some (CStr s) -> forall d, getStringD c k d = s) /\
  (forall b, aget ckey_eqb c (KStr k) = Some (CBool b) -> getBool c k = Some b) /\
  (forall m, aget ckey_eqb c (KStr k) = Some (CMap m) -> getSection c k = Some m).
Proof.
  intro N. unfold getBool, defaultInt, getIntC, getStringD, getSection, getData, cget. destruct k; [contradiction|].
  repeat split; intros; rewrite H; reflexivity.
Qed.
Print Assumptions C66_bool_words.
Print Assumptions C66_absent.
Print Assumptions C66_values.
(* Exactly which values each getter accepts; GetStringWithDefault answers the default for anything but a string. *)
Theorem C66_exact (c : cmap) (k : bs) : k <> [] ->
  (forall z, getIntC c k = Some z <-> aget ckey_eqb c (KStr k) = Some (CInt z) \/ aget ckey_eqb c (KStr k) = Some (CInt64 z)) /\
  (forall z, getInt64C c k = Some z <-> aget ckey_eqb c (KStr k) = Some (CInt64 z)) /\
  (forall m, getSection c k = Some m <-> aget ckey_eqb c (KStr k) = Some (CMap m)) /\
  (forall d, (forall s, aget ckey_eqb c (KStr k) <> Some (CStr s)) -> getStringD c k d = d) /\
  (forall d, (forall z, aget ckey_eqb c (KStr k) <> Some (CInt z) /\ aget ckey_eqb c (KStr k) <> Some (CInt64 z)) -> defaultInt c k d = d).
Proof.
  intro N. unfold defaultInt, getIntC, getInt64C, getStringD, getSection, getData, cget. destruct k; [contradiction|].
  destruct (aget ckey_eqb c _) as [v|]; [|repeat split; try (intros; discriminate); intuition discriminate].
  split; [|split; [|split; [|split]]].
  - intro z. destruct v; split; intro H; try discriminate H; try (destruct H as [H|H]; discriminate H); try (injection H as <-; auto); destruct H as [H|H]; try discriminate H; injection H as <-; reflexivity.
  - intro z. destruct v; split; intro H; try discriminate H; injection H as <-; reflexivity.
  - intro m. destruct v; split; intro H; try discriminate H; injection H as <-; reflexivity.
  - intros d H. destruct v; try reflexivity. exfalso. exact (H _ eq_refl).
  - intros d H. destruct v; try reflexivity; exfalso; [exact (proj1 (H _) eq_refl)|exact (proj2 (H _) eq_refl)].
Qed.
Print Assumptions C66_exact.
Example C66_nonvacuous : getBool [(k1 "b", CStr (s2b "Yes"))] (s2b "b") = Some true /\ getBool [(k1 "b", CStr (s2b "yEs"))] (s2b "b") = None.
Proof. vm_compute. split; reflexivity. Qed.
(* of the other numbers exactly the floats 1, 0 and -0 (given by their bits) are booleans *)
Theorem C66_float : forall b r, parseBoolV (CFloat b) = Some r <->
  (r = true /\ b = 0x3FF0000000000000%N) \/ (r = false /\ (b = 0%N \/ b = 0x8000000000000000%N)).
Proof.
  intros b r. unfold parseBoolV. destruct (N.eqb_spec b f64one) as [->|N1].
  - split; [intro H; injection H as <-; left; split; reflexivity|]. intros [[-> _]|[_ [H|H]]]; [reflexivity|discriminate H|discriminate H].
  - destruct (N.eqb_spec b 0) as [->|N2]; cbn [orb].
    + split; [intro H; injection H as <-; right; auto|]. intros [[_ H]|[-> _]]; [discriminate H|reflexivity].
    + destruct (N.eqb_spec b f64negzero) as [->|N3].
      * split; [intro H; injection H as <-; right; auto|]. intros [[_ H]|[-> _]]; [discriminate H|reflexivity].
      * split; [discriminate|]. intros [[_ H]|[_ [H|H]]]; [destruct (N1 H)|destruct (N2 H)|destruct (N3 H)].
Qed.
Print Assumptions C66_float.
(* "ParseBool accepts 1, 0": the number 1 that YAML gives is refused, whatever integer type carries it *)
Theorem C66_number_one_refuted : forall v, In v [CInt 1; CInt8 1; CInt32 1; CInt64 1; CInt 0; CInt64 0] -> parseBoolV v = None.
Proof. intros v H. cbn [In] in H. repeat destruct H as [<-|H]; try reflexivity. destruct H. Qed.
(* "returns the int64 value": the integers of a YAML file are ints, and Int64 refuses them *)
Theorem C66_int64_refuted : exists c k z, k <> [] /\ aget ckey_eqb c (KStr k) = Some (CInt z) /\ getInt64C c k = None.
Proof. exists [(k1 "n", CInt 7)], (s2b "n"), 7%Z. split; [discriminate|]. vm_compute. split; reflexivity. Qed.
