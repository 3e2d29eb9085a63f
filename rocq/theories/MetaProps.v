(* MetaProps.v: C79, meta values. *)
From Verif Require Import Base GoStrings MetaModel MetaSpec MetaProofs.
Open Scope Z_scope.

(* the meta values of the environment are the variables with the prefix *)
Theorem C79_env prefix kvs k : ~ In x3d prefix -> (forall kv, In kv kvs -> plainVar kv) -> NoDup (map fst kvs) ->
  aget bs_eqb (envMeta prefix (map var kvs)) k = if hasPrefix k prefix then aget bs_eqb kvs k else None.
Proof.
  intros N P D. unfold envMeta. rewrite (env_fold prefix kvs N [] k P D). cbn. destruct (hasPrefix _ _); [|reflexivity]. destruct (aget bs_eqb kvs k); reflexivity.
Qed.
Print Assumptions C79_env.
(* a value with an equals sign is cut off there *)
Theorem C79_env_equals_refuted : exists env k v, isVar env k v /\ aget bs_eqb (envMeta (s2b "META_") [env]) k = Some (s2b "a") /\ v = s2b "a=b".
Proof.
  exists (s2b "META_X=a=b"), (s2b "META_X"), (s2b "a=b"). split; [split; [reflexivity|cbn; intuition discriminate]|]. split; [vm_compute; reflexivity|reflexivity].
Qed.
Print Assumptions C79_env_equals_refuted.
(* dynamic values: what was last put and not removed since *)
Theorem C79_dynamic os k : aget bs_eqb (dynMeta os) k = lastChange k os None.
Proof. exact (dyn_fold os [] k). Qed.
Print Assumptions C79_dynamic.
(* merged: the dynamic value if there is one, else the environment's *)
Theorem C79_merged prefix envs os k :
  aget bs_eqb (merged (envMeta prefix envs) (dynMeta os)) k = orElse (lastChange k os None) (aget bs_eqb (envMeta prefix envs) k).
Proof.
  unfold merged. rewrite (putAll_get _ _ _ (dyn_nodup os)), C79_dynamic, (putAll_get _ _ _ (env_nodup prefix envs)). destruct (aget bs_eqb (envMeta prefix envs) k); reflexivity.
Qed.
Print Assumptions C79_merged.
(* a value is looked up under the configured prefix first, then under META_ *)
Theorem C79_value prefix m suffix v : metaValue prefix m suffix = v <->
  (aget bs_eqb m (prefix ++ suffix) = Some v \/
   aget bs_eqb m (prefix ++ suffix) = None /\ aget bs_eqb m (s2b "META_" ++ suffix) = Some v \/
   aget bs_eqb m (prefix ++ suffix) = None /\ aget bs_eqb m (s2b "META_" ++ suffix) = None /\ v = []).
Proof.
  unfold metaValue, defaultPrefix. destruct (aget bs_eqb m (prefix ++ suffix)); [intuition congruence|]. destruct (aget bs_eqb m (s2b "META_" ++ suffix)); intuition congruence.
Qed.
Print Assumptions C79_value.
(* a server's static meta are the parameters of its URL with one of the prefixes *)
Theorem C79_static prefix params k : NoDup (map fst params) ->
  aget bs_eqb (staticMeta prefix params) k = if hasPrefix k (s2b "META_") || hasPrefix k prefix then aget bs_eqb params k else None.
Proof. intro D. etransitivity; [apply (static_get prefix params k D [])|]. cbn [aget]. fold defaultPrefix. destruct (_ || _); [|reflexivity]. destruct (aget bs_eqb params k); reflexivity. Qed.
Print Assumptions C79_static.

(* dynamic meta of a server: the map was answered by that address; without a call, it was stored at most [age] seconds ago *)
Theorem C79_answered age os s t e m : kruns age minit os = Some s -> ended s t e (OMeta m) -> exists u, u <= mNow s /\ In (VAns (eKey e) m u) (mLog s).
Proof. intros R E. exact (c_done (kruns_inv _ _ _ _ R (kinv_init age)) _ _ _ E eq_refl). Qed.
Print Assumptions C79_answered.
Theorem C79_fresh age os s e now s' m : kruns age minit os = Some s -> kstep age s (KAsk e now) = Some s' -> ended s' (length (mAsks s)) e (OMeta m) ->
  exists u u', u' <= u /\ now <= u + age /\ In (VSet (eKey e) m u) (mLog s) /\ In (VAns (eKey e) m u') (mLog s).
Proof. exact (from_cache age os s e now s' m). Qed.
Print Assumptions C79_fresh.
(* only servers that speak motan2, with dynamic meta on and without protobuf, are ever asked *)
Theorem C79_supported age os s e u : kruns age minit os = Some s -> In (VCall e u) (mLog s) ->
  eDyn e = true /\ eProto e = s2b "motan2" /\ ~ In (eSer e) [s2b "protobuf"; s2b "grpc-pb"; s2b "grpc-pb-json"].
Proof.
  intros R C. pose proof (c_call (kruns_inv _ _ _ _ R (kinv_init age)) _ _ C) as H. unfold supports in H. apply andb_true_iff in H. destruct H as (H & P).
  apply andb_true_iff in H. destruct H as (D & Sr). apply bs_eqb_spec in P. split; [exact D|]. split; [exact P|]. apply negb_true_iff in Sr. intro X.
  assert (existsb (bs_eqb (eSer e)) [s2b "protobuf"; s2b "grpc-pb"; s2b "grpc-pb-json"] = true) by (apply existsb_exists; exists (eSer e); split; [exact X|apply bs_eqb_refl]). congruence.
Qed.
Print Assumptions C79_supported.
(* an address found not to have the service is left alone for thirty seconds *)
Theorem C79_left_alone age os s k u t e now s' : kruns age minit os = Some s -> (forall n, ~ In (KClear n) os) -> In (VNot k u) (mLog s) -> now <= u + 30 ->
  nth_error (mAsks s) t = Some (mkMask e PSup) -> eKey e = k -> kstep age s (KSup t now) = Some s' -> ended s' t e ONot.
Proof. exact (not_asked age os s k u t e now s'). Qed.
Print Assumptions C79_left_alone.
(* the address is all that counts: an endpoint with dynamic meta off makes another at the same address unsupported ... *)
Definition epOn : mep := mkMep (s2b "1.1.1.1:8001") true [] (s2b "motan2").
Definition epOff : mep := mkMep (s2b "1.1.1.1:8001") false [] (s2b "motan2").
Theorem C79_shared_refuted : exists os s t, kruns 3 minit os = Some s /\ ended s t epOn ONot /\ supports epOn = true /\ (forall e u, ~ In (VCall e u) (mLog s)).
Proof.
  exists [KAsk epOff 0; KSup 0 0; KAsk epOn 5; KSup 1 5]. eexists. exists 1%nat. split; [vm_compute; reflexivity|]. split; [reflexivity|]. split; [reflexivity|].
  cbn [mLog]. intros e u [X|[]]. discriminate X.
Qed.
Print Assumptions C79_shared_refuted.
(* ... and an endpoint with dynamic meta off gets the values cached for the other *)
Theorem C79_off_refuted : exists os s t m, kruns 3 minit os = Some s /\ ended s t epOff (OMeta m) /\ m <> [].
Proof.
  exists [KAsk epOn 0; KSup 0 0; KCall 0 true 0; KAns 0 (CMap [(s2b "META_WEIGHT", s2b "5")]) 1; KSet 0 1; KAsk epOff 2]. eexists. exists 1%nat. eexists.
  split; [vm_compute; reflexivity|]. split; [reflexivity|discriminate].
Qed.
Print Assumptions C79_off_refuted.

Example C79_env_example : aget bs_eqb (envMeta (s2b "META_") (map var [(s2b "PATH", s2b "/bin"); (s2b "META_WEIGHT", s2b "7")])) (s2b "META_WEIGHT") = Some (s2b "7").
Proof. vm_compute. reflexivity. Qed.
Example C79_example : exists s, kruns 3 minit [KAsk epOn 0; KSup 0 0; KCall 0 true 0; KAns 0 (CMap [(s2b "a", s2b "b")]) 1; KSet 0 1; KAsk epOn 4; KAsk epOn 5] = Some s /\
  ended s 1 epOn (OMeta [(s2b "a", s2b "b")]) /\ nth_error (mAsks s) 2 = Some (mkMask epOn PSup).
Proof. eexists. split; [vm_compute; reflexivity|]. split; reflexivity. Qed.
Example C79_left_alone_example : exists s s', kruns 3 minit [KAsk epOn 0; KSup 0 0; KCall 0 true 0; KAns 0 CNot 1; KAsk epOn 31] = Some s /\ In (VNot (eKey epOn) 1) (mLog s) /\
  kstep 3 s (KSup 1 31) = Some s' /\ ended s' 1 epOn ONot.
Proof. eexists. eexists. split; [vm_compute; reflexivity|]. split; [left; reflexivity|]. split; [vm_compute; reflexivity|reflexivity]. Qed.
