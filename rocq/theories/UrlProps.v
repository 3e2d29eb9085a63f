(* UrlProps.v: C34, C35, C36, C49, C57, C58. *)
From Verif Require Import Base Strconv GoStrings GoStrings2 UrlModel UrlSpec UrlProofs.

(* a non-trivial URL used by the examples *)
Definition exUrl : url :=
  mkUrl (s2b "motan2") (s2b "10.0.0.1") 8002 (s2b "com.weibo.Service") (s2b "g1")
        (Some [(s2b "retries", s2b "2"); (s2b "get(int).retries", s2b "5"); (s2b "bad", s2b "x")]).

(* ---------------------------------------------------------------- C34 *)
Theorem C34_roundtrip : forall u, clean u -> exists u', fromExtInfo (ext_info u) = Some u' /\ same_url u u'.
Proof. exact roundtrip. Qed.
Print Assumptions C34_roundtrip.
Example C34_clean_met : clean exUrl.
Proof.
  unfold clean, exUrl, free_of. cbn [uProtocol uHost uPort uPath uGroup uParams].
  assert (F : forall cs s, forallb (fun c => negb (existsb (byte_eqb c) s)) cs = true -> forall c : byte, In c cs -> ~ In c s).
  { intros cs s H c Hc Hs. rewrite forallb_forall in H. specialize (H c Hc). apply negb_true_iff in H. apply bs_has_false in H. contradiction. }
  split; [apply F; reflexivity|]. split; [reflexivity|]. split; [apply F; reflexivity|]. split; [apply F; reflexivity|]. split; [lia|].
  split; [apply F; reflexivity|]. intros m Hm. injection Hm as <-. split.
  - cbn. repeat constructor; cbn; intuition discriminate.
  - intros k v [E|[E|[E|[]]]]; injection E as <- <-; (split; [apply F; reflexivity|]; split; [apply F; reflexivity|discriminate]).
Qed.

(* whatever FromExtInfo accepts, from any text, re-encodes to a text that decodes to the same URL *)
Theorem C34_decoded_is_stable : forall s u, fromExtInfo s = Some u -> exists u', fromExtInfo (ext_info u) = Some u' /\ same_url u u'.
Proof. exact from_to_stable. Qed.
Print Assumptions C34_decoded_is_stable.
Example C34_decoded_is_stable_met :
  exists u, fromExtInfo (s2b "motan2://h:80/p/q?group=g&a=b=c&x=1&x=2") = Some u /\ param u (s2b "x") = Some (s2b "2") /\ param u (s2b "a") = None.
Proof. eexists. split; [vm_compute; reflexivity|]. split; reflexivity. Qed.

(* the text does not depend on the order in which the parameter map is iterated *)
Theorem C34_canonical : forall a b, distinct_params a -> distinct_params b -> same_url a b -> ext_info a = ext_info b.
Proof. exact ext_info_canonical. Qed.
Print Assumptions C34_canonical.
Example C34_canonical_met :
  let b := withParams exUrl (Some [(s2b "bad", s2b "x"); (s2b "get(int).retries", s2b "5"); (s2b "retries", s2b "2")]) in
  b <> exUrl /\ same_url exUrl b /\ ext_info b = s2b "motan2://10.0.0.1:8002/com.weibo.Service?group=g1&bad=x&get(int).retries=5&retries=2".
Proof.
  cbn zeta. split; [discriminate|]. split; [|reflexivity]. unfold same_url. repeat (split; [reflexivity|]). intro k.
  unfold param. cbn [uParams exUrl withParams aget].
  destruct (bs_eqb k (s2b "retries")) eqn:E1; destruct (bs_eqb k (s2b "get(int).retries")) eqn:E2; destruct (bs_eqb k (s2b "bad")) eqn:E3; try reflexivity;
    rewrite ?bs_eqb_spec in *; subst; discriminate.
Qed.

Theorem C34_injective : forall a b, clean a -> clean b -> ext_info a = ext_info b -> same_url a b.
Proof. exact ext_info_inj. Qed.
Print Assumptions C34_injective.

(* nothing is escaped: a value with '=' disappears, a parameter called group replaces the group, and the text of a URL
   whose host is a unix socket is rejected *)
Theorem C34_unescaped_refuted :
  (exists u u', fromExtInfo (ext_info u) = Some u' /\ param u (s2b "k") = Some (s2b "a=b") /\ param u' (s2b "k") = None) /\
  (exists u u', fromExtInfo (ext_info u) = Some u' /\ uGroup u = s2b "g1" /\ uGroup u' = s2b "g2") /\
  (exists u, uHost u = s2b "unix:///tmp/s.sock" /\ fromExtInfo (ext_info u) = None).
Proof.
  split; [|split].
  - exists (mkUrl (s2b "motan2") (s2b "h") 1 (s2b "p") (s2b "g") (Some [(s2b "k", s2b "a=b")])). eexists. split; [vm_compute; reflexivity|]. split; reflexivity.
  - exists (mkUrl (s2b "motan2") (s2b "h") 1 (s2b "p") (s2b "g1") (Some [(s2b "group", s2b "g2")])). eexists. split; [vm_compute; reflexivity|]. split; reflexivity.
  - exists (mkUrl (s2b "motan2") (s2b "unix:///tmp/s.sock") 0 (s2b "p") (s2b "g") None). split; reflexivity.
Qed.
Print Assumptions C34_unescaped_refuted.

(* ---------------------------------------------------------------- C35 *)
(* every sequence of PutParam, field assignment + ClearCachedInfo, and reads; identity reads excluded *)
Theorem C35_reads_are_coherent : forall u ops, ~ In OIdentity ops -> ~ In OIdentityReg ops -> urun (fresh u) ops = umeans u ops.
Proof. exact urun_reads. Qed.
Print Assumptions C35_reads_are_coherent.
Example C35_reads_example :
  urun (fresh exUrl) [OInt (s2b "retries") 0; OMethodInt (s2b "get") (s2b "int") (s2b "retries") 0; OPut (s2b "retries") (s2b "7");
                      OInt (s2b "retries") 0; OMethodInt (s2b "set") (s2b "int") (s2b "retries") 0; OPut (s2b "set(int).retries") (s2b "9");
                      OMethodInt (s2b "set") (s2b "int") (s2b "retries") 0; OPosInt (s2b "bad") 3; OPut (s2b "bad") (s2b "-4"); OInt (s2b "bad") 3]
  = [RInt 2; RInt 5; RNone; RInt 7; RInt 7; RNone; RInt 9; RInt 3; RNone; RInt (-4)]%Z.
Proof. reflexivity. Qed.

(* with identity reads, as long as the address of a direct URL is not changed by PutParam *)
Theorem C35_identity_is_coherent : forall u ops, no_direct_address_put u ops -> urun (fresh u) ops = umeans u ops.
Proof. exact urun_all. Qed.
Print Assumptions C35_identity_is_coherent.
Example C35_identity_met : no_direct_address_put exUrl [OIdentity; OPut AddressKey (s2b "a:1"); OIdentity] /\
  no_direct_address_put (mkUrl (s2b "direct") [] 0 [] [] None) [OIdentity; OPut RetriesKey (s2b "1"); OIdentity].
Proof.
  split; [right; split; [discriminate|intros u [H|[H|[H|[]]]]; discriminate]|left]. intros v [H|[H|[H|[]]]]; discriminate H.
Qed.

(* PutParam("address") on a direct URL after a GetIdentity leaves the old identity *)
Theorem C35_direct_identity_refuted : exists u ops, urun (fresh u) ops <> umeans u ops.
Proof.
  exists (mkUrl (s2b "direct") [] 0 [] [] None), [OIdentity; OPut AddressKey (s2b "a:1"); OIdentity]. vm_compute. discriminate.
Qed.
Print Assumptions C35_direct_identity_refuted.

(* MergeParams puts every given parameter, the last of those with the same name, and changes nothing else; Copy changes nothing *)
Theorem C35_merge : forall c ps c', mergeParams c ps = Some c' ->
  (forall a k v b, ps = a ++ (k, v) :: b -> ~ In k (map fst b) -> param (cUrl c') k = Some v) /\
  (forall k, ~ In k (map fst ps) -> param (cUrl c') k = param (cUrl c) k) /\
  cUrl c' = withParams (cUrl c) (uParams (cUrl c')).
Proof.
  assert (F : forall ps (m : list (bs * bs)), let m' := fold_left (fun m kv => aset bs_eqb m (fst kv) (snd kv)) ps m in
    (forall a k v b, ps = a ++ (k, v) :: b -> ~ In k (map fst b) -> aget bs_eqb m' k = Some v) /\
    (forall k, ~ In k (map fst ps) -> aget bs_eqb m' k = aget bs_eqb m k)).
  { induction ps as [|[k0 v0] ps IH]; intro m.
    - cbv zeta. cbn [fold_left]. split; [|reflexivity]. intros [|] k v b E; discriminate E.
    - cbv zeta. cbn [fold_left fst snd map]. destruct (IH (aset bs_eqb m k0 v0)) as [A B]. split.
      + intros [|p a] k v b E N.
        * injection E as -> -> ->. rewrite B by exact N. rewrite (aget_aset bs_eqb bs_eqb_spec), bs_eqb_refl. reflexivity.
        * injection E as _ E. exact (A a k v b E N).
      + intros k N. rewrite B by (intro X; apply N; right; exact X). rewrite (aget_aset bs_eqb bs_eqb_spec).
        destruct (bs_eqb k k0) eqn:Ek; [|reflexivity]. apply bs_eqb_spec in Ek. subst k0. contradiction N. left. reflexivity. }
  intros c ps c' H. unfold mergeParams in H. destruct (uParams (cUrl c)) as [m|] eqn:U.
  - injection H as <-. destruct (F ps m) as [A B]. unfold param. rewrite U. cbn [cUrl withParams uParams]. split; [exact A|]. split; [exact B|reflexivity].
  - destruct ps as [|? ?]; [|discriminate H]. injection H as <-. split; [intros [|] k v b E; discriminate E|]. split; [reflexivity|].
    rewrite U. destruct (cUrl c). cbn in U. subst. reflexivity.
Qed.
Print Assumptions C35_merge.
Theorem C35_copy : forall c k, param (cUrl (copyUrl c)) k = param (cUrl c) k /\ cUrl (copyUrl c) = withParams (cUrl c) (uParams (cUrl (copyUrl c))).
Proof. intros c k. unfold copyUrl, fresh, param. cbn [cUrl withParams uParams]. split; [|reflexivity]. destruct (uParams (cUrl c)); reflexivity. Qed.
Print Assumptions C35_copy.

(* MergeParams does not go through the cache: a value read before the merge stays; on a URL without parameters it panics *)
Theorem C35_merge_refuted :
  (exists c c' z, fst (getInt (snd (getInt c RetriesKey)) RetriesKey) = Some z /\
     mergeParams (snd (getInt c RetriesKey)) [(RetriesKey, s2b "9")] = Some c' /\ int_param (cUrl c') RetriesKey = Some 9%Z /\
     fst (getInt c' RetriesKey) = Some z /\ z <> 9%Z) /\
  (exists c, mergeParams c [(RetriesKey, s2b "9")] = None).
Proof.
  split.
  - exists (fresh exUrl). do 2 eexists. split; [vm_compute; reflexivity|]. split; [vm_compute; reflexivity|]. split; [vm_compute; reflexivity|].
    split; [vm_compute; reflexivity|]. discriminate.
  - exists (fresh (mkUrl [] [] 0 [] [] None)). reflexivity.
Qed.
Print Assumptions C35_merge_refuted.

(* PutParam drops the cached value before it writes the parameter: a concurrent GetInt can cache the old value for good *)
Theorem C35_concurrent_put_refuted : exists u s,
  s = prun (mkP (fresh u) []) [PutDelete RetriesKey; GetRead 0 RetriesKey; PutWrite RetriesKey (s2b "9"); GetStore 0 RetriesKey] /\
  int_param (cUrl (pUrl s)) RetriesKey = Some 9%Z /\ fst (getInt (pUrl s) RetriesKey) = Some 2%Z.
Proof. exists exUrl. eexists. split; [reflexivity|]. split; reflexivity. Qed.
Print Assumptions C35_concurrent_put_refuted.

(* Durations are 32-bit numbers of units, anything else is the default; truth values are the texts strconv.ParseBool takes. *)
Theorem C35_duration : forall u k unit d,
  (forall t z, param u k = Some t -> parseInt64 t = (z, NumOk) -> (- 2 ^ 31 <= z < 2 ^ 31)%Z -> (- 2 ^ 63 <= z * unit < 2 ^ 63)%Z ->
     getTimeDuration u k unit d = (z * unit)%Z) /\
  ((forall t z, param u k = Some t -> parseInt64 t = (z, NumOk) -> ~ (- 2 ^ 31 <= z < 2 ^ 31)%Z) -> getTimeDuration u k unit d = d).
Proof. exact duration. Qed.
Print Assumptions C35_duration.
Theorem C35_bool : forall u k d,
  (forall t, param u k = Some t -> In t (map s2b ["1"; "t"; "T"; "true"; "TRUE"; "True"]%string) -> getBoolValue u k d = true) /\
  (forall t, param u k = Some t -> In t (map s2b ["0"; "f"; "F"; "false"; "FALSE"; "False"]%string) -> getBoolValue u k d = false) /\
  ((forall t, param u k = Some t -> ~ In t (map s2b ["1"; "t"; "T"; "true"; "TRUE"; "True"; "0"; "f"; "F"; "false"; "FALSE"; "False"]%string)) ->
     getBoolValue u k d = d).
Proof. exact bool_value. Qed.
Print Assumptions C35_bool.
Example C35_typed_example : let u := mkUrl [] [] 0 [] [] (Some [(s2b "p", s2b "60"); (s2b "b", s2b "T"); (s2b "q", s2b "3000000000")]) in
  getTimeDuration u (s2b "p") 1000000000 5 = 60000000000%Z /\ getTimeDuration u (s2b "q") 1000000000 5 = 5%Z /\ getBoolValue u (s2b "b") false = true.
Proof. vm_compute. repeat split. Qed.

(* ---------------------------------------------------------------- C36 *)
Theorem C36_can_serve : forall server client, canServe server client = true <-> serves server client.
Proof. exact canServe_spec. Qed.
Print Assumptions C36_can_serve.
Example C36_can_serve_example :
  canServe exUrl (mkUrl (s2b "motan") [] 0 (s2b "com.weibo.Service") [] (Some [(VersionKey, s2b "0.1")])) = true /\
  canServe exUrl (mkUrl (s2b "motan") [] 0 (s2b "com.weibo.Service") [] (Some [(VersionKey, s2b "2.0")])) = false /\
  canServe (mkUrl (s2b "motan") [] 0 (s2b "p") [] None) (mkUrl (s2b "motan2") [] 0 (s2b "p") [] None) = false.
Proof. repeat split. Qed.

Theorem C36_is_match : forall u service group protocol version,
  isMatch u service group protocol version = true <-> request_matches u service group protocol version.
Proof. exact isMatch_spec. Qed.
Print Assumptions C36_is_match.
Example C36_is_match_example :
  isMatch exUrl (s2b "com.weibo.Service") [] (s2b "motan") (s2b "1.0") = true /\ isMatch exUrl (s2b "com.weibo.Service") (s2b "g2") [] [] = false.
Proof. split; reflexivity. Qed.

(* ---------------------------------------------------------------- C49 *)
Theorem C49_trim_split : forall s sep, sep <> [] -> trimSplit s sep = filter nonblank (map trimSpace (splitStr sep s)).
Proof. exact trimSplit_spec. Qed.
Print Assumptions C49_trim_split.
(* what Split means: joining the pieces gives the string back, and no piece contains the separator *)
Theorem C49_split_meaning : forall s sep, sep <> [] ->
  joinStr sep (splitStr sep s) = s /\ (forall p, In p (splitStr sep s) -> contains p sep = false) /\
  (forall p, contains p sep = true <-> exists a b, p = a ++ sep ++ b).
Proof. intros s sep H. split; [apply joinStr_split, H|]. split; [intros p; apply splitStr_parts, H|]. intro p. apply contains_spec. Qed.
Print Assumptions C49_split_meaning.
Theorem C49_pieces : forall s sep x, sep <> [] -> In x (trimSplit s sep) ->
  x <> [] /\ trimmed x /\ exists p, In p (splitStr sep s) /\ x = trimSpace p.
Proof. exact trimSplit_pieces. Qed.
Print Assumptions C49_pieces.
Theorem C49_join : forall c l, Forall (fun x => ~ In c x) l -> Forall (fun x => trimSpace x <> []) l ->
  trimSplit (joinStr [c] l) [c] = map trimSpace l.
Proof. exact trimSplit_join. Qed.
Print Assumptions C49_join.
Theorem C49_terminates : forall s sep, sep <> [] -> trimSplitLoop (S (length s)) s sep [] <> None.
Proof. exact trimSplitLoop_terminates. Qed.
Print Assumptions C49_terminates.
Example C49_example : trimSplit (s2b " a, b ,,c d ,") (s2b ",") = [s2b "a"; s2b "b"; s2b "c d"].
Proof. reflexivity. Qed.

Theorem C49_unique : forall src, slicesUnique src = first_occurrences src /\ NoDup (slicesUnique src) /\
  (forall x, In x (slicesUnique src) <-> In x src).
Proof. intro src. split; [apply slicesUnique_spec|apply slicesUnique_laws]. Qed.
Print Assumptions C49_unique.
(* appending to the list never reorders what was there *)
Theorem C49_unique_order : forall a b, exists c, slicesUnique (a ++ b) = slicesUnique a ++ c /\ forall x, In x c -> In x b /\ ~ In x a.
Proof. intros a b. rewrite !slicesUnique_spec. apply first_occ_app. Qed.
Print Assumptions C49_unique_order.
Example C49_unique_example : slicesUnique (map s2b ["b"; "a"; "b"; "c"; "a"]%string) = map s2b ["b"; "a"; "c"]%string.
Proof. reflexivity. Qed.

(* ---------------------------------------------------------------- C57 *)
Theorem C57_direct_lookup : forall table service,
  (forall v, directLookup table service = Some v -> exists k, In (k, v) table /\ entry_matches service k) /\
  (directLookup table service = None <-> forall k v, In (k, v) table -> ~ entry_matches service k).
Proof. intros. split; [apply directLookup_some|apply directLookup_none]. Qed.
Print Assumptions C57_direct_lookup.
Theorem C57_order_irrelevant : forall table table' service, Permutation table table' ->
  (forall k k' v v', In (k, v) table -> In (k', v') table -> entry_matches service k -> entry_matches service k' -> v = v') ->
  directLookup table service = directLookup table' service.
Proof. exact directLookup_order. Qed.
Print Assumptions C57_order_irrelevant.
(* two entries match "com.weibo.A": the address used then depends on Go's map iteration order *)
Theorem C57_overlap_refuted : exists env table' service, let table := directTable env in
  Permutation table table' /\ directLookup table service <> directLookup table' service.
Proof.
  exists (s2b "com.weibo.*>10.0.0.1:80;A>g@10.0.0.2:80"). eexists. exists (s2b "com.weibo.A"). cbv zeta. split; [apply Permutation_rev|].
  vm_compute. discriminate.
Qed.
Print Assumptions C57_overlap_refuted.
Example C57_example :
  directTable (s2b "com.weibo.*> 10.0.0.1:80 ; B>g@10.0.0.2:80;junk") = [(s2b "com.weibo.*", ([], s2b "10.0.0.1:80")); (s2b "B", (s2b "g", s2b "10.0.0.2:80"))] /\
  directLookup (directTable (s2b "com.weibo.*> 10.0.0.1:80 ; B>g@10.0.0.2:80;junk")) (s2b "com.other.B") = Some (s2b "g", s2b "10.0.0.2:80").
Proof. split; reflexivity. Qed.

(* ---------------------------------------------------------------- C58 *)
Theorem C58_protocol_and_port : forall proto port, ~ In x3a proto -> trimSpace proto <> [] ->
  (-9223372036854775808 <= port <= 9223372036854775807)%Z ->
  parseExportInfo (proto ++ s2b ":" ++ fmtZ port) = (trimSpace proto, port, false).
Proof. exact parseExport_both. Qed.
Print Assumptions C58_protocol_and_port.
Theorem C58_port_only : forall port, (-9223372036854775808 <= port <= 9223372036854775807)%Z ->
  parseExportInfo (fmtZ port) = (s2b "motan2", port, false).
Proof. exact parseExport_port. Qed.
Print Assumptions C58_port_only.
Theorem C58_always_a_protocol : forall e p z err, parseExportInfo e = (p, z, err) ->
  p <> [] /\ (-9223372036854775808 <= z <= 9223372036854775807)%Z.
Proof. exact parseExport_error. Qed.
Print Assumptions C58_always_a_protocol.
(* a malformed export with more than two parts is not an error: the default port is used *)
Theorem C58_three_parts_refuted : parseExportInfo (s2b "motan2:8002:x") = (s2b "motan2", 9982%Z, false).
Proof. reflexivity. Qed.
Print Assumptions C58_three_parts_refuted.
Example C58_example : parseExportInfo (s2b " motan : 8002") = (s2b "motan", 8002%Z, false) /\ snd (parseExportInfo (s2b "motan:80x")) = true.
Proof. split; reflexivity. Qed.
