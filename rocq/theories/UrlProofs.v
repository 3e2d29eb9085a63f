(* UrlProofs.v *)
From Verif Require Import Base Strconv GoStrings GoStrings2 UrlModel UrlSpec.
Ltac Zify.zify_post_hook ::= idtac.

Lemma pget_param u k : pget (uParams u) k = param u k.
Proof. reflexivity. Qed.
Lemma parseParam_int u k : parseParam (pget (uParams u) k) = int_param u k.
Proof. reflexivity. Qed.

Lemma getParam_str_or u k d : getParam u k d = str_or u k d.
Proof.
  unfold getParam, str_or, param. destruct (uParams u) as [[|e m]|]; try reflexivity.
  unfold pgetD, pget. destruct (aget bs_eqb (e :: m) k) as [[|]|]; reflexivity.
Qed.

Lemma getStringParams_str_or u k d : getStringParamsWithDefault u k d = str_or u k d.
Proof.
  unfold getStringParamsWithDefault, str_or, pgetD, param, pget. destruct (uParams u) as [m|]; [|reflexivity].
  destruct (aget bs_eqb m k) as [[|]|]; reflexivity.
Qed.

(* ---------------------------------------------------------------- C35 *)

Record coherent (c : curl) : Prop := {
  co_int : forall k r, aget bs_eqb (cInt c) k = Some r -> r = int_param (cUrl c) k;
  co_has : (cHasMethod c = [] \/ (cHasMethod c = s2b "t" /\ anyMethodKey (cUrl c) = true)
            \/ (cHasMethod c = s2b "f" /\ anyMethodKey (cUrl c) = false));
  co_port : cPortStr c = [] \/ cPortStr c = fmtZ (uPort (cUrl c));
  co_addr : cAddress c = [] \/ cAddress c = address_of (cUrl c) }.
Definition coherent_id (c : curl) : Prop := cIdentity c = [] \/ cIdentity c = identity_of (cUrl c).

Lemma fresh_coherent u : coherent (fresh u).
Proof. constructor; cbn; auto. intros; discriminate. Qed.

Lemma fmtZ_ne z : fmtZ z <> [].
Proof. apply fmtZ_clean. Qed.

Lemma getPortStr_ok c : coherent c ->
  fst (getPortStr c) = fmtZ (uPort (cUrl c)) /\ coherent (snd (getPortStr c)) /\ cUrl (snd (getPortStr c)) = cUrl c /\
  cIdentity (snd (getPortStr c)) = cIdentity c /\ cAddress (snd (getPortStr c)) = cAddress c.
Proof.
  intros [H1 H2 H3 H4]. unfold getPortStr. destruct (cPortStr c) as [|x p] eqn:E.
  - cbn [fst snd cUrl cIdentity cAddress]. repeat (split; [reflexivity|]). split; [|auto]. constructor; cbn; auto.
  - cbn [fst snd]. split; [destruct H3 as [H3|H3]; [discriminate|exact H3]|]. split; [|auto]. constructor; auto. rewrite E. exact H3.
Qed.

Lemma address_ne u : address_of u <> [].
Proof.
  unfold address_of. destruct (hasPrefix (uHost u) (s2b "unix://")) eqn:E.
  - apply hasPrefix_spec in E as (t & ->). discriminate.
  - intro H. apply app_eq_nil in H as [_ H]. discriminate.
Qed.

Lemma getAddressStr_ok c : coherent c ->
  fst (getAddressStr c) = address_of (cUrl c) /\ coherent (snd (getAddressStr c)) /\ cUrl (snd (getAddressStr c)) = cUrl c /\
  cIdentity (snd (getAddressStr c)) = cIdentity c.
Proof.
  intro H. unfold getAddressStr. destruct (cAddress c) as [|x a] eqn:E.
  - unfold address_of. destruct (hasPrefix (uHost (cUrl c)) (s2b "unix://")) eqn:Eh.
    + cbn [fst snd cUrl cIdentity]. split; [reflexivity|]. split; [|auto]. destruct H as [H1 H2 H3 H4].
      constructor; cbn; auto. right. unfold address_of. rewrite Eh. reflexivity.
    + destruct (getPortStr_ok c H) as (Hp & Hc & Hu & Hi & Ha). destruct (getPortStr c) as [p c1] eqn:Ep.
      cbn [fst snd] in *. subst p. cbn [cUrl cIdentity]. split; [reflexivity|]. split; [|auto].
      destruct Hc as [H1 H2 H3 H4]. constructor; cbn; auto. right. rewrite Hu. unfold address_of. rewrite Eh. reflexivity.
  - cbn [fst snd]. pose proof (co_addr _ H) as [H4|H4]; [rewrite E in H4; discriminate|]. rewrite E in H4. auto.
Qed.

Lemma identity_ne u : identity_of u <> [].
Proof. unfold identity_of. intro H. apply app_eq_nil in H as [_ H]. discriminate. Qed.

Lemma getIdentity_ok c : coherent c ->
  coherent (snd (getIdentity c)) /\ cUrl (snd (getIdentity c)) = cUrl c /\
  (coherent_id c -> fst (getIdentity c) = identity_of (cUrl c) /\ coherent_id (snd (getIdentity c))).
Proof.
  intro H. unfold getIdentity. destruct (cIdentity c) as [|x a] eqn:E.
  - destruct (getPortStr_ok c H) as (Hp & Hc & Hu & Hi & Ha). destruct (getPortStr c) as [p c1] eqn:Ep.
    cbn [fst snd] in *. subst p. cbn [cUrl cIdentity].
    assert (E2 : (if bs_eqb (uProtocol (cUrl c)) (s2b "direct")
       then (uProtocol (cUrl c) ++ s2b "://" ++ uHost (cUrl c) ++ s2b ":" ++ fmtZ (uPort (cUrl c)) ++ s2b "/" ++ uPath (cUrl c) ++
             s2b "?group=" ++ uGroup (cUrl c)) ++ s2b "&address=" ++ getParam (cUrl c) AddressKey []
       else uProtocol (cUrl c) ++ s2b "://" ++ uHost (cUrl c) ++ s2b ":" ++ fmtZ (uPort (cUrl c)) ++ s2b "/" ++ uPath (cUrl c) ++
             s2b "?group=" ++ uGroup (cUrl c)) = identity_of (cUrl c)).
    { unfold identity_of. rewrite getParam_str_or. destruct (bs_eqb (uProtocol (cUrl c)) (s2b "direct")).
      - rewrite <- !app_assoc. reflexivity.
      - rewrite app_nil_r. reflexivity. }
    rewrite E2. split.
    + destruct Hc as [H1 H2 H3 H4]. constructor; cbn; auto.
    + split; [exact Hu|]. intros _. split; [reflexivity|]. right. cbn. rewrite Hu. reflexivity.
  - cbn [fst snd]. split; [exact H|]. split; [reflexivity|]. intros [Hc|Hc]; [rewrite E in Hc; discriminate|].
    split; [rewrite <- Hc; symmetry; exact E|]. right. exact Hc.
Qed.

Lemma getInt_ok c k : coherent c ->
  fst (getInt c k) = int_param (cUrl c) k /\ coherent (snd (getInt c k)) /\ cUrl (snd (getInt c k)) = cUrl c /\
  cIdentity (snd (getInt c k)) = cIdentity c.
Proof.
  intro H. unfold getInt. destruct (aget bs_eqb (cInt c) k) as [r|] eqn:E.
  - cbn [fst snd]. split; [apply (co_int _ H), E|]. auto.
  - cbn [fst snd]. rewrite parseParam_int. split; [reflexivity|]. split; [|auto]. destruct H as [H1 H2 H3 H4].
    constructor; cbn [setInt cInt cUrl cHasMethod cPortStr cAddress]; auto. intros k' r'.
    rewrite (aget_aset bs_eqb bs_eqb_spec). destruct (bs_eqb k' k) eqn:Ek; [|apply H1].
    apply bs_eqb_spec in Ek. subst. congruence.
Qed.

Lemma hasMethodParams_ok c : coherent c ->
  fst (hasMethodParams c) = anyMethodKey (cUrl c) /\ coherent (snd (hasMethodParams c)) /\ cUrl (snd (hasMethodParams c)) = cUrl c /\
  cIdentity (snd (hasMethodParams c)) = cIdentity c.
Proof.
  intro H. unfold hasMethodParams. destruct (cHasMethod c) as [|x p] eqn:E.
  - destruct (anyMethodKey (cUrl c)) eqn:Ea; cbn [fst snd]; (split; [reflexivity|]); (split; [|auto]);
      destruct H as [H1 H2 H3 H4]; constructor; cbn; auto.
  - cbn [fst snd]. pose proof (co_has _ H) as H2. rewrite E in H2. split; [|auto].
    destruct H2 as [H2|[[H2 H2']|[H2 H2']]]; [discriminate| |]; rewrite H2, H2'; reflexivity.
Qed.

Lemma methodParamKey_is m d k : methodKey (methodParamKey m d k) = true.
Proof.
  unfold methodKey. apply contains_spec. exists (m ++ s2b "(" ++ d), k. unfold methodParamKey. rewrite <- !app_assoc. reflexivity.
Qed.

Lemma no_method_key u k : anyMethodKey u = false -> methodKey k = true -> param u k = None.
Proof.
  unfold anyMethodKey, param. destruct (uParams u) as [m|]; [|reflexivity]. intros H Hk.
  apply (aget_None bs_eqb bs_eqb_spec). intro Hin.
  assert (existsb methodKey (akeys m) = true) by (apply existsb_exists; eauto). congruence.
Qed.

Lemma getMethodIntValue_ok c m e k d : coherent c ->
  fst (getMethodIntValue c m e k d) = method_int_or (cUrl c) m e k d /\ coherent (snd (getMethodIntValue c m e k d)) /\
  cUrl (snd (getMethodIntValue c m e k d)) = cUrl c /\ cIdentity (snd (getMethodIntValue c m e k d)) = cIdentity c.
Proof.
  intro H. unfold getMethodIntValue. destruct (hasMethodParams_ok c H) as (Hh & Hc & Hu & Hi).
  destruct (hasMethodParams c) as [h c1]. cbn [fst snd] in *. subst h.
  unfold method_int_or. fold (methodParamKey m e k). rewrite <- Hu.
  destruct (anyMethodKey (cUrl c1)) eqn:Ea.
  - destruct (getInt_ok c1 (methodParamKey m e k) Hc) as (G1 & G2 & G3 & G4).
    destruct (getInt c1 (methodParamKey m e k)) as [r c2]. cbn [fst snd] in *. rewrite <- G1.
    destruct r as [z|]; [cbn [fst snd]; rewrite G4, G3; auto|].
    destruct (getInt_ok c2 k G2) as (K1 & K2 & K3 & K4). destruct (getInt c2 k) as [r c3]. cbn [fst snd] in *.
    unfold int_or. rewrite K1, G3. rewrite K4, K3, G3. split; [reflexivity|]. split; [exact K2|]. split; [reflexivity|congruence].
  - destruct (getInt_ok c1 k Hc) as (K1 & K2 & K3 & K4). destruct (getInt c1 k) as [r c3]. cbn [fst snd] in *.
    assert (En : int_param (cUrl c1) (methodParamKey m e k) = None).
    { unfold int_param. rewrite no_method_key; [reflexivity|exact Ea|apply methodParamKey_is]. }
    rewrite En. unfold int_or. rewrite K1. split; [reflexivity|]. split; [exact K2|]. split; [exact K3|congruence].
Qed.

Lemma param_put u k v k' : param (put u k v) k' = if bs_eqb k' k then Some v else param u k'.
Proof.
  unfold param, put. cbn [uParams]. rewrite (aget_aset bs_eqb bs_eqb_spec). destruct (uParams u); reflexivity.
Qed.

Lemma anyMethodKey_put u k v : anyMethodKey (put u k v) = methodKey k || anyMethodKey u.
Proof.
  assert (E : forall x, anyMethodKey x = true <-> exists k, param x k <> None /\ methodKey k = true).
  { intro x. unfold anyMethodKey, param. destruct (uParams x) as [m|].
    - rewrite existsb_exists. split; intros (q & H1 & H2); exists q; (split; [|exact H2]).
      + intro Hn. apply (aget_None bs_eqb bs_eqb_spec) in Hn. contradiction.
      + destruct (in_dec bs_eq_dec q (akeys m)) as [|Hn]; [assumption|]. apply (aget_None bs_eqb bs_eqb_spec) in Hn. contradiction.
    - split; [discriminate|]. intros (q & H1 & _). congruence. }
  apply Bool.eq_iff_eq_true. rewrite orb_true_iff, !E. split.
  - intros (q & H1 & H2). rewrite param_put in H1. destruct (bs_eqb q k) eqn:Eq.
    + apply bs_eqb_spec in Eq. subst. left. exact H2.
    + right. exists q. auto.
  - intros [H|(q & H1 & H2)].
    + exists k. rewrite param_put, bs_eqb_refl. split; [discriminate|exact H].
    + exists q. rewrite param_put. destruct (bs_eqb q k); [split; [discriminate|exact H2]|auto].
Qed.

Lemma putParam_ok c k v : coherent c -> cUrl (putParam c k v) = put (cUrl c) k v /\ coherent (putParam c k v).
Proof.
  intro H. assert (E : cUrl (putParam c k v) = put (cUrl c) k v).
  { unfold putParam, put, withParams, pset. cbn [cUrl]. destruct (uParams (cUrl c)); reflexivity. }
  split; [exact E|]. destruct H as [H1 H2 H3 H4]. constructor; rewrite ?E.
  - intros k' r. unfold putParam. cbn [cInt]. rewrite (aget_adel bs_eqb bs_eqb_spec). unfold int_param. rewrite param_put.
    destruct (bs_eqb k' k); [discriminate|]. apply H1.
  - unfold putParam. cbn [cHasMethod]. rewrite anyMethodKey_put. destruct (methodKey k); [right; left; auto|exact H2].
  - exact H3.
  - exact H4.
Qed.

Definition id_safe (u : url) (o : uop) : Prop :=
  (forall v, o <> OPut AddressKey v) \/ uProtocol u <> s2b "direct".

Lemma identity_put u k v : k <> AddressKey \/ uProtocol u <> s2b "direct" -> identity_of (put u k v) = identity_of u.
Proof.
  intro H. unfold identity_of. change (s2b "address") with AddressKey. replace (str_or (put u k v) AddressKey []) with
    (if bs_eqb (uProtocol u) (s2b "direct") then str_or u AddressKey [] else str_or (put u k v) AddressKey []).
  - unfold put; cbn [uProtocol uHost uPort uPath uGroup]. destruct (bs_eqb (uProtocol u) (s2b "direct")); reflexivity.
  - destruct (bs_eqb (uProtocol u) (s2b "direct")) eqn:E; [|reflexivity]. apply bs_eqb_spec in E.
    destruct H as [H|H]; [|contradiction]. unfold str_or. rewrite param_put.
    destruct (bs_eqb AddressKey k) eqn:Ek; [|reflexivity]. apply bs_eqb_spec in Ek. congruence.
Qed.

Lemma uexec_ok c o : coherent c ->
  cUrl (snd (uexec c o)) = snd (umean (cUrl c) o) /\ coherent (snd (uexec c o)) /\
  (o <> OIdentity /\ o <> OIdentityReg \/ coherent_id c -> fst (uexec c o) = fst (umean (cUrl c) o)) /\
  (coherent_id c -> id_safe (cUrl c) o -> coherent_id (snd (uexec c o))).
Proof.
  intro H. destruct o; cbn [uexec umean fst snd].
  - destruct (putParam_ok c k v H) as [E1 E2]. split; [exact E1|]. split; [exact E2|]. split; [reflexivity|].
    intros Hid Hs. unfold coherent_id in *. rewrite E1.
    assert (Hs' : k <> AddressKey \/ uProtocol (cUrl c) <> s2b "direct") by (destruct Hs as [Hs|Hs]; [left; intros ->; apply (Hs v); reflexivity|right; exact Hs]).
    rewrite (identity_put _ _ _ Hs'). exact Hid.
  - split; [reflexivity|]. split; [apply fresh_coherent|]. split; [reflexivity|]. intros _ _. left. reflexivity.
  - destruct (getInt_ok c k H) as (G1 & G2 & G3 & G4). destruct (getInt c k) as [r c1]. cbn [fst snd] in *.
    split; [exact G3|]. split; [exact G2|]. split; [congruence|]. unfold coherent_id. rewrite G3, G4. auto.
  - unfold getIntValue. destruct (getInt_ok c k H) as (G1 & G2 & G3 & G4). destruct (getInt c k) as [r c1]. cbn [fst snd] in *.
    split; [exact G3|]. split; [exact G2|]. split; [intros _; unfold int_or; rewrite G1; reflexivity|]. unfold coherent_id. rewrite G3, G4. auto.
  - unfold getPositiveIntValue, getIntValue. destruct (getInt_ok c k H) as (G1 & G2 & G3 & G4). destruct (getInt c k) as [r c1]. cbn [fst snd] in *.
    split; [exact G3|]. split; [exact G2|]. split; [|unfold coherent_id; rewrite G3, G4; auto]. intros _. f_equal. rewrite G1.
    unfold if_positive, int_or. destruct (int_param (cUrl c) k) as [z|]; repeat match goal with |- context[Z.ltb ?a ?b] => destruct (Z.ltb_spec a b) end; lia.
  - destruct (getMethodIntValue_ok c m desc k d H) as (G1 & G2 & G3 & G4). destruct (getMethodIntValue c m desc k d) as [r c1]. cbn [fst snd] in *.
    split; [exact G3|]. split; [exact G2|]. split; [congruence|]. unfold coherent_id. rewrite G3, G4. auto.
  - unfold getMethodPositiveIntValue.
    destruct (getMethodIntValue_ok c m desc k d H) as (G1 & G2 & G3 & G4). destruct (getMethodIntValue c m desc k d) as [r c1]. cbn [fst snd] in *.
    split; [exact G3|]. split; [exact G2|]. split; [intros _; unfold if_positive; rewrite G1; reflexivity|]. unfold coherent_id. rewrite G3, G4. auto.
  - split; [reflexivity|]. split; [exact H|]. split; [intros _; rewrite getParam_str_or; reflexivity|]. auto.
  - destruct (getPortStr_ok c H) as (G1 & G2 & G3 & G4 & _). destruct (getPortStr c) as [r c1]. cbn [fst snd] in *.
    split; [exact G3|]. split; [exact G2|]. split; [congruence|]. unfold coherent_id. rewrite G3, G4. auto.
  - destruct (getAddressStr_ok c H) as (G1 & G2 & G3 & G4). destruct (getAddressStr c) as [r c1]. cbn [fst snd] in *.
    split; [exact G3|]. split; [exact G2|]. split; [congruence|]. unfold coherent_id. rewrite G3, G4. auto.
  - destruct (getIdentity_ok c H) as (G1 & G2 & G3). destruct (getIdentity c) as [r c1]. cbn [fst snd] in *.
    split; [exact G2|]. split; [exact G1|]. split.
    + intros [[Hn _]|Hid]; [congruence|]. destruct (G3 Hid) as [-> _]. reflexivity.
    + intros Hid _. apply (G3 Hid).
  - unfold getIdentityWithRegistry. destruct (getIdentity_ok c H) as (G1 & G2 & G3). destruct (getIdentity c) as [r c1]. cbn [fst snd] in *.
    split; [exact G2|]. split; [exact G1|]. split.
    + intros [[_ Hn]|Hid]; [congruence|]. destruct (G3 Hid) as [-> _]. rewrite getParam_str_or. reflexivity.
    + intros Hid _. apply (G3 Hid).
Qed.

Lemma urun_reads_gen ops : forall c, coherent c -> ~ In OIdentity ops -> ~ In OIdentityReg ops -> urun c ops = umeans (cUrl c) ops.
Proof.
  induction ops as [|o ops IH]; intros c H N1 N2; [reflexivity|]. cbn [urun umeans].
  destruct (uexec_ok c o H) as (E1 & E2 & E3 & _). destruct (uexec c o) as [x c1]. destruct (umean (cUrl c) o) as [y u1].
  cbn [fst snd] in *. subst u1. rewrite E3.
  - f_equal. apply IH; [exact E2| |]; intro Hin; [apply N1|apply N2]; right; exact Hin.
  - left. split; intros ->; [apply N1|apply N2]; left; reflexivity.
Qed.

Lemma umean_protocol u o : snd (umean u o) = u \/ (exists k v, o = OPut k v /\ uProtocol (snd (umean u o)) = uProtocol u) \/ (exists u', o = OAssign u' /\ snd (umean u o) = u').
Proof. destruct o; cbn; eauto 6. Qed.

Lemma urun_all_gen ops : forall c, coherent c -> coherent_id c -> no_direct_address_put (cUrl c) ops -> urun c ops = umeans (cUrl c) ops.
Proof.
  induction ops as [|o ops IH]; intros c H Hid Hs; [reflexivity|]. cbn [urun umeans].
  destruct (uexec_ok c o H) as (E1 & E2 & E3 & E4).
  assert (Hsafe : id_safe (cUrl c) o).
  { destruct Hs as [Hs|[Hs _]]; [left|right; exact Hs]. intros v ->. apply (Hs v). left. reflexivity. }
  specialize (E4 Hid Hsafe). specialize (E3 (or_intror Hid)).
  assert (Hs' : no_direct_address_put (snd (umean (cUrl c) o)) ops).
  { destruct Hs as [Hs|[Hs1 Hs2]].
    - left. intros v Hin. apply (Hs v). right. exact Hin.
    - right. split; [|intros u' Hin; apply Hs2; right; exact Hin].
      destruct (umean_protocol (cUrl c) o) as [E|[(k & v & _ & E)|(u' & Eo & E)]]; [rewrite E; exact Hs1|rewrite E; exact Hs1|].
      rewrite E. apply Hs2. left. exact Eo. }
  destruct (uexec c o) as [x c1]. destruct (umean (cUrl c) o) as [y u1]. cbn [fst snd] in *. subst u1. rewrite E3. f_equal.
  apply IH; assumption.
Qed.

Lemma urun_reads u ops : ~ In OIdentity ops -> ~ In OIdentityReg ops -> urun (fresh u) ops = umeans u ops.
Proof. intros. apply (urun_reads_gen ops (fresh u)); auto. apply fresh_coherent. Qed.
Lemma urun_all u ops : no_direct_address_put u ops -> urun (fresh u) ops = umeans u ops.
Proof. intros. apply (urun_all_gen ops (fresh u)); auto. apply fresh_coherent. left. reflexivity. Qed.

(* ---------------------------------------------------------------- C36 *)

Lemma isSame_spec u o k d : isSame (uParams u) (uParams o) k d = true <-> value_or u k d = value_or o k d.
Proof.
  unfold isSame, value_or, param, pget. destruct (uParams u), (uParams o); try apply bs_eqb_spec. split; reflexivity.
Qed.

Lemma canServe_spec u o : canServe u o = true <-> serves u o.
Proof.
  unfold canServe, serves, canServeProtocol, protocol_compatible.
  assert (P : (if bs_eqb (uProtocol o) (s2b "motan") && bs_eqb (uProtocol u) (s2b "motan2") then true
     else bs_eqb (uProtocol u) (uProtocol o) || bs_eqb (uProtocol u) (s2b "local")) = true <->
     (uProtocol u = uProtocol o \/ uProtocol u = s2b "motan2" /\ uProtocol o = s2b "motan" \/ uProtocol u = s2b "local")).
  { destruct (bs_eqb (uProtocol o) (s2b "motan") && bs_eqb (uProtocol u) (s2b "motan2")) eqn:E.
    - apply andb_true_iff in E as [E1 E2]. apply bs_eqb_spec in E1, E2. split; auto.
    - apply andb_false_iff in E. rewrite !bs_eqb_neq in E. rewrite orb_true_iff, !bs_eqb_spec. intuition. }
  destruct (if bs_eqb (uProtocol o) (s2b "motan") && bs_eqb (uProtocol u) (s2b "motan2") then true else _); cbn [negb].
  2:{ split; [discriminate|]. intros [H _]. apply P in H. discriminate. }
  destruct (bs_eqb (uPath u) (uPath o)) eqn:Ep; cbn [negb].
  2:{ apply bs_eqb_neq in Ep. split; [discriminate|]. intros (_ & H & _). contradiction. }
  apply bs_eqb_spec in Ep.
  pose proof (isSame_spec u o SerializationKey []) as S1. pose proof (isSame_spec u o VersionKey (s2b "0.1")) as S2.
  pose proof (isSame_spec u o VersionKey (s2b "1.0")) as S3.
  destruct (bs_eqb (uProtocol u) (s2b "motan2")) eqn:Em; cbn [negb andb].
  - apply bs_eqb_spec in Em.
    destruct (isSame (uParams u) (uParams o) VersionKey (s2b "0.1")); destruct (isSame (uParams u) (uParams o) VersionKey (s2b "1.0")); cbn [orb negb]; intuition discriminate.
  - apply bs_eqb_neq in Em.
    destruct (isSame (uParams u) (uParams o) SerializationKey []); cbn [negb].
    + destruct (isSame (uParams u) (uParams o) VersionKey (s2b "0.1")); destruct (isSame (uParams u) (uParams o) VersionKey (s2b "1.0")); cbn [orb negb]; intuition discriminate.
    + split; [discriminate|]. intros (_ & _ & [H|H] & _); [contradiction|]. apply S1 in H. discriminate.
Qed.

Lemma isMatch_spec u s g p v : isMatch u s g p v = true <-> request_matches u s g p v.
Proof.
  unfold isMatch, request_matches. rewrite getParam_str_or.
  destruct (bs_eqb (uPath u) s) eqn:E1; cbn [negb].
  2:{ apply bs_eqb_neq in E1. split; [discriminate|]. intros [H _]. contradiction. }
  apply bs_eqb_spec in E1.
  destruct (bs_eqb g []) eqn:E2; cbn [negb andb].
  - apply bs_eqb_spec in E2.
    destruct (bs_eqb p []) eqn:E3; cbn [negb].
    + apply bs_eqb_spec in E3.
      destruct (bs_eqb v []) eqn:E4; cbn [negb andb]; [apply bs_eqb_spec in E4; intuition|]. apply bs_eqb_neq in E4.
      destruct (bs_eqb (str_or u VersionKey []) []) eqn:E5; cbn [negb]; [apply bs_eqb_spec in E5; intuition|]. apply bs_eqb_neq in E5.
      rewrite bs_eqb_spec. intuition.
    + apply bs_eqb_neq in E3.
      assert (P : (if bs_eqb (uProtocol u) (s2b "motan2") then negb (bs_eqb p (s2b "motan2")) && negb (bs_eqb p (s2b "motan")) else negb (bs_eqb (uProtocol u) p)) = false
        <-> (p = uProtocol u \/ uProtocol u = s2b "motan2" /\ p = s2b "motan")).
      { destruct (bs_eqb (uProtocol u) (s2b "motan2")) eqn:Em.
        - apply bs_eqb_spec in Em. rewrite andb_false_iff, !negb_false_iff, !bs_eqb_spec. rewrite Em. intuition.
        - apply bs_eqb_neq in Em. rewrite negb_false_iff, bs_eqb_spec. intuition. }
      destruct (if bs_eqb (uProtocol u) (s2b "motan2") then _ else _).
      { split; [discriminate|]. intros (_ & _ & [H|H] & _); [contradiction|]. apply P in H. discriminate. }
      destruct (bs_eqb v []) eqn:E4; cbn [negb andb]; [apply bs_eqb_spec in E4; intuition|]. apply bs_eqb_neq in E4.
      destruct (bs_eqb (str_or u VersionKey []) []) eqn:E5; cbn [negb]; [apply bs_eqb_spec in E5; intuition|]. apply bs_eqb_neq in E5.
      rewrite bs_eqb_spec. intuition.
  - apply bs_eqb_neq in E2. destruct (bs_eqb (uGroup u) g) eqn:E2b; cbn [negb].
    2:{ apply bs_eqb_neq in E2b. split; [discriminate|]. intros (_ & [H|H] & _); contradiction. }
    apply bs_eqb_spec in E2b.
    destruct (bs_eqb p []) eqn:E3; cbn [negb].
    + apply bs_eqb_spec in E3.
      destruct (bs_eqb v []) eqn:E4; cbn [negb andb]; [apply bs_eqb_spec in E4; intuition|]. apply bs_eqb_neq in E4.
      destruct (bs_eqb (str_or u VersionKey []) []) eqn:E5; cbn [negb]; [apply bs_eqb_spec in E5; intuition|]. apply bs_eqb_neq in E5.
      rewrite bs_eqb_spec. intuition.
    + apply bs_eqb_neq in E3.
      assert (P : (if bs_eqb (uProtocol u) (s2b "motan2") then negb (bs_eqb p (s2b "motan2")) && negb (bs_eqb p (s2b "motan")) else negb (bs_eqb (uProtocol u) p)) = false
        <-> (p = uProtocol u \/ uProtocol u = s2b "motan2" /\ p = s2b "motan")).
      { destruct (bs_eqb (uProtocol u) (s2b "motan2")) eqn:Em.
        - apply bs_eqb_spec in Em. rewrite andb_false_iff, !negb_false_iff, !bs_eqb_spec. rewrite Em. intuition.
        - apply bs_eqb_neq in Em. rewrite negb_false_iff, bs_eqb_spec. intuition. }
      destruct (if bs_eqb (uProtocol u) (s2b "motan2") then _ else _).
      { split; [discriminate|]. intros (_ & _ & [H|H] & _); [contradiction|]. apply P in H. discriminate. }
      destruct (bs_eqb v []) eqn:E4; cbn [negb andb]; [apply bs_eqb_spec in E4; intuition|]. apply bs_eqb_neq in E4.
      destruct (bs_eqb (str_or u VersionKey []) []) eqn:E5; cbn [negb]; [apply bs_eqb_spec in E5; intuition|]. apply bs_eqb_neq in E5.
      rewrite bs_eqb_spec. intuition.
Qed.

(* ---------------------------------------------------------------- C49 *)

Lemma trimSplitLoop_ok sep : sep <> [] -> forall fuel s a, length s < fuel ->
  trimSplitLoop fuel s sep a = Some (a ++ filter nonblank (map trimSpace (splitStr sep s))).
Proof.
  intros Hs. induction fuel as [|f IH]; intros s a Hf; [lia|]. cbn [trimSplitLoop].
  rewrite (splitStr_eq sep s Hs). destruct (indexOf s sep) as [m|] eqn:E.
  - cbn [map filter]. unfold nonblank at 1. rewrite trimSpace_idem.
    destruct (indexOf_Some _ _ _ E) as (x & y & Hx & Hlx & _).
    rewrite IH.
    + destruct (bs_eqb (trimSpace (firstn m s)) []); cbn [negb]; [reflexivity|]. rewrite <- app_assoc. reflexivity.
    + rewrite skipn_length. assert (length s = m + length sep + length y) by (subst s; rewrite !app_length; lia).
      destruct sep; [congruence|]. cbn [length] in *. lia.
  - cbn [map filter]. unfold nonblank. rewrite trimSpace_idem. destruct (bs_eqb (trimSpace s) []); cbn [negb]; [rewrite app_nil_r|]; reflexivity.
Qed.

Lemma trimSplit_spec s sep : sep <> [] -> trimSplit s sep = filter nonblank (map trimSpace (splitStr sep s)).
Proof. intro H. unfold trimSplit. rewrite (trimSplitLoop_ok sep H) by lia. reflexivity. Qed.

Lemma trimSplitLoop_terminates s sep : sep <> [] -> trimSplitLoop (S (length s)) s sep [] <> None.
Proof. intro H. rewrite (trimSplitLoop_ok sep H) by lia. discriminate. Qed.

Lemma splitStr_join1 c l : l <> [] -> Forall (fun x => ~ In c x) l -> splitStr [c] (joinStr [c] l) = l.
Proof.
  intros H1 H2. rewrite splitStr_one. replace (joinStr [c] l) with (joinWith c l); [apply splitOn_join; assumption|].
  clear. induction l as [|x [|y l] IH]; [reflexivity|reflexivity|]. cbn [joinWith joinStr] in *. rewrite IH. reflexivity.
Qed.

Lemma trimSplit_join c l : Forall (fun x => ~ In c x) l -> Forall (fun x => trimSpace x <> []) l ->
  trimSplit (joinStr [c] l) [c] = map trimSpace l.
Proof.
  intros H1 H2. destruct l as [|x l]; [reflexivity|]. rewrite trimSplit_spec by discriminate. rewrite splitStr_join1 by (try assumption; discriminate).
  clear H1. induction (x :: l) as [|y r IH]; [reflexivity|]. inversion H2; subst. cbn [map filter]. unfold nonblank at 1. rewrite trimSpace_idem.
  destruct (bs_eqb (trimSpace y) []) eqn:E; [apply bs_eqb_spec in E; contradiction|]. cbn [negb]. f_equal. apply IH. assumption.
Qed.

Lemma trimSplit_pieces s sep x : sep <> [] -> In x (trimSplit s sep) ->
  x <> [] /\ trimmed x /\ exists p, In p (splitStr sep s) /\ x = trimSpace p.
Proof.
  intros Hs H. rewrite trimSplit_spec in H by exact Hs. apply filter_In in H as [H1 H2]. apply in_map_iff in H1 as (p & <- & Hp).
  unfold nonblank in H2. rewrite trimSpace_idem in H2. apply negb_true_iff, bs_eqb_neq in H2. split; [exact H2|]. split; [|eauto].
  destruct (trimSpace_split p) as (? & ? & _ & _ & _ & Ht). exact Ht.
Qed.

Lemma existsb_eqb_In' x l : existsb (bs_eqb x) l = true <-> In x l.
Proof. apply (existsb_eqb_In bs_eqb bs_eqb_spec). Qed.

Lemma uniqueLoop_spec src : forall seen dst,
  uniqueLoop src seen dst = dst ++ filter (fun y => negb (existsb (bs_eqb y) seen)) (first_occurrences src).
Proof.
  induction src as [|v r IH]; intros seen dst; cbn [uniqueLoop first_occurrences filter]; [rewrite app_nil_r; reflexivity|].
  destruct (existsb (bs_eqb v) seen) eqn:E; cbn [negb].
  - rewrite IH. f_equal. clear IH. induction (first_occurrences r) as [|y l IHl]; [reflexivity|]. cbn [filter].
    destruct (bs_eqb y v) eqn:Ey; cbn [negb].
    + apply bs_eqb_spec in Ey. subst y. rewrite E. cbn [negb]. exact IHl.
    + cbn [filter]. rewrite <- IHl. reflexivity.
  - rewrite IH, <- app_assoc. cbn [app]. f_equal. f_equal. clear IH. induction (first_occurrences r) as [|y l IHl]; [reflexivity|]. cbn [filter existsb].
    destruct (bs_eqb y v) eqn:Ey; cbn [negb orb]; [exact IHl|]. cbn [filter]. cbn [existsb] in IHl. rewrite IHl. reflexivity.
Qed.

Lemma slicesUnique_spec src : slicesUnique src = first_occurrences src.
Proof.
  unfold slicesUnique. rewrite uniqueLoop_spec. cbn [app existsb]. induction (first_occurrences src) as [|y l IH]; [reflexivity|]. cbn [filter negb] in *. rewrite IH. reflexivity.
Qed.

Lemma first_occ_In l x : In x (first_occurrences l) <-> In x l.
Proof.
  induction l as [|y l IH]; cbn [first_occurrences]; [reflexivity|]. cbn [In]. rewrite filter_In, IH. split.
  - intros [H|[H _]]; auto.
  - intros [H|H]; [auto|]. destruct (bs_eq_dec y x) as [E|E]; [auto|]. right. split; [exact H|]. apply negb_true_iff, bs_eqb_neq. congruence.
Qed.
Lemma first_occ_NoDup l : NoDup (first_occurrences l).
Proof.
  induction l as [|y l IH]; cbn [first_occurrences]; constructor.
  - rewrite filter_In. intros [_ H]. rewrite bs_eqb_refl in H. discriminate.
  - apply NoDup_filter, IH.
Qed.

Lemma slicesUnique_laws src : NoDup (slicesUnique src) /\ (forall x, In x (slicesUnique src) <-> In x src).
Proof. rewrite slicesUnique_spec. split; [apply first_occ_NoDup|]. intro x. apply first_occ_In. Qed.

Lemma first_occ_nodup_id l : NoDup l -> first_occurrences l = l.
Proof.
  induction l as [|y l IH]; intro H; [reflexivity|]. inversion H as [|? ? Hy Hl]; subst. cbn [first_occurrences]. rewrite IH by exact Hl. f_equal.
  clear - Hy. induction l as [|z l IH]; [reflexivity|]. cbn [filter]. destruct (bs_eqb z y) eqn:E.
  - apply bs_eqb_spec in E. subst. exfalso. apply Hy. left. reflexivity.
  - cbn [negb]. f_equal. apply IH. intro Hin. apply Hy. right. exact Hin.
Qed.

(* first-occurrence order: x is before y in the result iff x's first occurrence precedes y's *)
Lemma first_occ_app a b : exists c, first_occurrences (a ++ b) = first_occurrences a ++ c /\ forall x, In x c -> In x b /\ ~ In x a.
Proof.
  induction a as [|y a (c & E & Hc)]; cbn [app first_occurrences].
  - exists (first_occurrences b). split; [reflexivity|]. intros x Hx. apply (proj1 (first_occ_In b x)) in Hx. split; [exact Hx|intros []].
  - rewrite E, filter_app. exists (filter (fun z => negb (bs_eqb z y)) c). split; [reflexivity|]. intros x Hx.
    apply filter_In in Hx as [Hx Hn]. apply negb_true_iff, bs_eqb_neq in Hn. destruct (Hc x Hx) as [H1 H2]. split; [exact H1|].
    intros [H|H]; [congruence|contradiction].
Qed.

(* ---------------------------------------------------------------- C34 *)

Lemma free_of_In cs s c : free_of cs s -> In c cs -> ~ In c s.
Proof. intros H Hc. apply H, Hc. Qed.

Lemma fmtZ_chars z c : In c (fmtZ z) -> isDigit c \/ c = x2d.
Proof.
  unfold fmtZ. destruct (z <? 0)%Z.
  - intros [<-|H]; [right; reflexivity|]. left. destruct (fmtN_spec (Z.to_N (- z))) as (_ & F & _). rewrite Forall_forall in F. apply F, H.
  - intro H. left. destruct (fmtN_spec (Z.to_N z)) as (_ & F & _). rewrite Forall_forall in F. apply F, H.
Qed.
Lemma fmtZ_free z c : (b2n c <? 45)%N || ((45 <? b2n c)%N && (b2n c <? 48)%N) || (57 <? b2n c)%N = true -> ~ In c (fmtZ z).
Proof.
  intros Hc H. apply fmtZ_chars in H as [[d H]|H].
  - unfold digitOf in H. destruct (N.leb_spec 48 (b2n c)); [|discriminate]. destruct (N.leb_spec (b2n c) 57); [|discriminate].
    destruct (N.ltb_spec (b2n c) 45); destruct (N.ltb_spec 45 (b2n c)); destruct (N.ltb_spec (b2n c) 48); destruct (N.ltb_spec 57 (b2n c)); cbn in Hc; try lia; discriminate.
  - subst. discriminate Hc.
Qed.

Definition slashes (s : bs) : nat := count_occ byte_eq_dec' s x2f.
Lemma slashes_app a b : slashes (a ++ b) = slashes a + slashes b.
Proof. apply count_occ_app. Qed.
Lemma slashes_free s : ~ In x2f s -> slashes s = 0.
Proof. intro H. apply count_occ_not_In, H. Qed.

Lemma few_slashes s : slashes s <= 1 -> contains s (s2b "://") = false.
Proof.
  intro H. destruct (contains s (s2b "://")) eqn:E; [|reflexivity]. apply contains_spec in E as (a & b & ->).
  rewrite !slashes_app in H. change (slashes (s2b "://")) with 2 in H. lia.
Qed.

(* "://" does not overlap itself: its first occurrence in p ++ "://" ++ r is at the end of p *)
Lemma split_scheme p r : contains p (s2b "://") = false -> splitStr (s2b "://") (p ++ s2b "://" ++ r) = p :: splitStr (s2b "://") r.
Proof.
  intro H. unfold splitStr. induction p as [|x p IH].
  - assert (E : hasPrefix (s2b "://" ++ r) (s2b "://") = true) by (apply hasPrefix_spec; exists r; reflexivity).
    cbn [app]. change (s2b "://" ++ r) with ("058"%byte :: "047"%byte :: "047"%byte :: r) in *. cbn [splitFrom]. rewrite E. reflexivity.
  - assert (Hp : contains p (s2b "://") = false).
    { destruct (contains p (s2b "://")) eqn:E; [|reflexivity]. exfalso. change (x :: p) with ([x] ++ p) in H. rewrite (contains_app_l _ _ [x] E) in H. discriminate. }
    specialize (IH Hp). change ((x :: p) ++ s2b "://" ++ r) with (x :: p ++ s2b "://" ++ r). cbn [splitFrom].
    destruct (hasPrefix (x :: p ++ s2b "://" ++ r) (s2b "://")) eqn:E.
    + exfalso. apply hasPrefix_spec in E as (t & E). destruct p as [|y p].
      * discriminate E.
      * destruct p as [|z p]; [discriminate E|].
        cbn in E. injection E as -> -> -> E. assert (contains ("058"%byte :: "047"%byte :: "047"%byte :: p) (s2b "://") = true) by (apply contains_spec; exists [], p; reflexivity).
        congruence.
    + rewrite IH. reflexivity.
Qed.

Lemma joinWith_flat c x l : joinWith c (x :: l) = x ++ flat_map (fun y => c :: y) l.
Proof.
  revert x. induction l as [|y l IH]; intro x; [cbn; rewrite app_nil_r; reflexivity|].
  change (joinWith c (x :: y :: l)) with (x ++ c :: joinWith c (y :: l)). rewrite IH. reflexivity.
Qed.

Definition putPair (m : list (bs * bs)) (kv : bs * bs) : list (bs * bs) := aset bs_eqb m (fst kv) (snd kv).
Lemma fold_put_get l : forall m k, NoDup (map fst l) ->
  aget bs_eqb (fold_left putPair l m) k = match aget bs_eqb l k with Some v => Some v | None => aget bs_eqb m k end.
Proof.
  induction l as [|[k0 v0] l IH]; intros m k H; [reflexivity|]. cbn [fold_left map fst] in *. inversion H as [|? ? H1 H2]; subst.
  rewrite IH by exact H2. unfold putPair. cbn [fst snd aget]. rewrite (aget_aset bs_eqb bs_eqb_spec).
  destruct (bs_eqb k k0) eqn:E; [|reflexivity]. apply bs_eqb_spec in E. subst k0.
  assert (En : aget bs_eqb l k = None) by (apply (aget_None bs_eqb bs_eqb_spec); exact H1). rewrite En. reflexivity.
Qed.

Definition parseKVs (ps : list bs) (m : list (bs * bs)) : list (bs * bs) :=
  fold_left (fun m p => match splitOn x3d p with [k; v] => aset bs_eqb m k v | _ => m end) ps m.

Lemma parseKVs_pairs l : forall m, (forall k v, In (k, v) l -> ~ In x3d k /\ ~ In x3d v) ->
  parseKVs (map (fun kv => fst kv ++ x3d :: snd kv) l) m = fold_left putPair l m.
Proof.
  unfold parseKVs. induction l as [|[k v] l IH]; intros m H; [reflexivity|]. cbn [map fold_left fst snd].
  destruct (H k v (or_introl eq_refl)) as [H1 H2]. rewrite splitOn_app by exact H1. rewrite splitOn_none by exact H2.
  unfold putPair at 2. cbn [fst snd]. apply IH. intros k' v' Hin. apply H. right. exact Hin.
Qed.

Definition pairs_of (u : url) : list (bs * bs) :=
  map (fun k => (k, pgetD (uParams u) k)) (sortStrings (match uParams u with None => [] | Some m => akeys m end)).

Lemma pairs_keys u : map fst (pairs_of u) = sortStrings (match uParams u with None => [] | Some m => akeys m end).
Proof. unfold pairs_of. rewrite map_map. cbn [fst]. apply map_id. Qed.

Lemma pairs_get u k : aget bs_eqb (pairs_of u) k = param u k.
Proof.
  unfold pairs_of. set (keys := match uParams u with None => [] | Some m => akeys m end).
  assert (Hin : In k (sortStrings keys) <-> param u k <> None).
  { assert (In k (sortStrings keys) <-> In k keys) as -> by (split; apply Permutation_in; [symmetry|]; apply sortStrings_perm).
    unfold keys, param. destruct (uParams u) as [m|]; [|cbn; intuition].
    rewrite (aget_None bs_eqb bs_eqb_spec). destruct (in_dec bs_eq_dec k (akeys m)); intuition. }
  assert (G : forall l, aget bs_eqb (map (fun k => (k, pgetD (uParams u) k)) l) k = if existsb (bs_eqb k) l then Some (pgetD (uParams u) k) else None).
  { induction l as [|y l IH]; [reflexivity|]. cbn [map aget existsb]. destruct (bs_eqb k y) eqn:E; [apply bs_eqb_spec in E; subst; reflexivity|exact IH]. }
  rewrite G. destruct (existsb (bs_eqb k) (sortStrings keys)) eqn:E.
  - apply existsb_eqb_In', Hin in E. unfold pgetD. rewrite pget_param. destruct (param u k); [reflexivity|congruence].
  - destruct (param u k) eqn:Ep; [|reflexivity]. exfalso. assert (In k (sortStrings keys)) as Hc by (apply Hin; congruence).
    apply existsb_eqb_In' in Hc. congruence.
Qed.

Lemma ext_info_shape u : ext_info u = uProtocol u ++ s2b "://" ++ (uHost u ++ s2b ":" ++ fmtZ (uPort u) ++ s2b "/" ++ uPath u) ++ x3f ::
  joinWith x26 (map (fun kv => fst kv ++ x3d :: snd kv) ((s2b "group", uGroup u) :: pairs_of u)).
Proof.
  unfold ext_info, toExtInfo, fresh. cbn [getPortStr cPortStr cUrl fst]. cbn [map fst snd]. rewrite joinWith_flat.
  rewrite <- !app_assoc. do 7 f_equal. change (s2b "?") with [x3f]. cbn [app]. f_equal.
  change (s2b "group=") with (s2b "group" ++ [x3d]). rewrite <- !app_assoc. f_equal. cbn [app]. f_equal. f_equal.
  unfold pairs_of. induction (sortStrings _) as [|k l IH]; [reflexivity|]. cbn [flat_map map fst snd]. rewrite IH. cbn [app].
  change (s2b "&") with [x26]. change (s2b "=") with [x3d]. cbn [app]. rewrite <- !app_assoc. reflexivity.
Qed.

Lemma in_list_byte c s : existsb (byte_eqb c) s = true -> In c s.
Proof. intro H. apply bs_has_spec. exact H. Qed.

Lemma not_in_joinWith c d l : c <> d -> (forall x, In x l -> ~ In c x) -> ~ In c (joinWith d l).
Proof.
  intros Hcd. induction l as [|x l IH]; intros H; [intros []|]. destruct l as [|y l]; [apply H; left; reflexivity|].
  change (joinWith d (x :: y :: l)) with (x ++ d :: joinWith d (y :: l)). intro Hin. apply in_app_or in Hin as [Hin|[Hin|Hin]].
  - apply (H x); [left; reflexivity|exact Hin].
  - congruence.
  - apply IH; [|exact Hin]. intros z Hz. apply H. right. exact Hz.
Qed.

Ltac sepin := apply in_list_byte; reflexivity.

Lemma from_shape (P H path q : bs) (port : Z) :
  ~ In x3f P -> contains P (s2b "://") = false -> ~ In x3f H -> ~ In x2f H -> ~ In x3a H ->
  ~ In x3f path -> ~ In x2f path -> ~ In x3f q ->
  fromExtInfo (P ++ s2b "://" ++ (H ++ s2b ":" ++ fmtZ port ++ s2b "/" ++ path) ++ x3f :: q) =
  let m := parseKVs (splitOn x26 q) [] in
  Some (mkUrl P H (fst (parseInt64 (fmtZ port))) path (match aget bs_eqb m (s2b "group") with Some g => g | None => [] end)
              (Some (adel bs_eqb m (s2b "group")))).
Proof.
  intros P1 P2 H1 H2 H3 T1 T2 Q1. unfold fromExtInfo.
  set (rest := H ++ s2b ":" ++ fmtZ port ++ s2b "/" ++ path).
  assert (R1 : ~ In x3f rest).
  { unfold rest. rewrite !in_app_iff. intros [Hi|[[Hi|[]]|[Hi|[[Hi|[]]|Hi]]]]; try contradiction; try discriminate Hi.
    revert Hi. apply fmtZ_free. reflexivity. }
  assert (E : splitOn x3f (P ++ s2b "://" ++ rest ++ x3f :: q) = [P ++ s2b "://" ++ rest; q]).
  { replace (P ++ s2b "://" ++ rest ++ x3f :: q) with ((P ++ s2b "://" ++ rest) ++ x3f :: q) by (rewrite <- !app_assoc; reflexivity).
    rewrite splitOn_app, splitOn_none; [reflexivity|exact Q1|].
    rewrite !in_app_iff. intros [Hi|[[Hi|[Hi|[Hi|[]]]]|Hi]]; try contradiction; discriminate Hi. }
  rewrite E. cbn [nth].
  assert (Hs : splitStr (s2b "://") rest = [rest]).
  { apply splitStr_none; [discriminate|]. apply few_slashes. unfold rest. rewrite !slashes_app.
    rewrite (slashes_free H), (slashes_free path), (slashes_free (fmtZ port)) by (try assumption; apply fmtZ_free; reflexivity). cbn. lia. }
  rewrite (split_scheme P rest P2), Hs.
  assert (E2 : splitOn x2f rest = [H ++ s2b ":" ++ fmtZ port; path]).
  { unfold rest. replace (H ++ s2b ":" ++ fmtZ port ++ s2b "/" ++ path) with ((H ++ s2b ":" ++ fmtZ port) ++ x2f :: path) by (rewrite <- !app_assoc; reflexivity).
    rewrite splitOn_app, (splitOn_none _ path T2); [reflexivity|]. rewrite !in_app_iff. intros [Hi|[[Hi|[]]|Hi]]; try contradiction; try discriminate Hi.
    revert Hi. apply fmtZ_free. reflexivity. }
  rewrite E2.
  assert (E3 : splitOn x3a (H ++ s2b ":" ++ fmtZ port) = [H; fmtZ port]).
  { change (s2b ":" ++ fmtZ port) with (x3a :: fmtZ port). rewrite splitOn_app by exact H3. rewrite splitOn_none; [reflexivity|]. apply fmtZ_free. reflexivity. }
  rewrite E3. reflexivity.
Qed.

Lemma pairs_in u k v : In (k, v) (pairs_of u) -> exists m, uParams u = Some m /\ In (k, v) m.
Proof.
  intro H. unfold pairs_of in H. apply in_map_iff in H as (k' & E & Hk). injection E as -> <-.
  apply (Permutation_in k (Permutation_sym (sortStrings_perm _))) in Hk. destruct (uParams u) as [m|] eqn:Em; [|destruct Hk].
  exists m. split; [reflexivity|]. unfold pgetD, pget. destruct (aget bs_eqb m k) as [v|] eqn:Ea.
  - apply (aget_In bs_eqb bs_eqb_spec), Ea.
  - apply (aget_None bs_eqb bs_eqb_spec) in Ea. contradiction.
Qed.

Lemma roundtrip u : clean u -> exists u', fromExtInfo (ext_info u) = Some u' /\ same_url u u'.
Proof.
  intros (C1 & C2 & C3 & C4 & C5 & C6 & C7). rewrite ext_info_shape.
  set (l := (s2b "group", uGroup u) :: pairs_of u).
  assert (Hl : forall k v, In (k, v) l -> free_of (s2b "?&=") k /\ free_of (s2b "?&=") v).
  { intros k v [E|Hin].
    - injection E as <- <-. split; [|exact C6]. intros c Hc Hin. cbn in Hc, Hin.
      repeat (destruct Hc as [<-|Hc]; [repeat (destruct Hin as [Hin|Hin]; [discriminate Hin|]); destruct Hin|]). destruct Hc.
    - apply pairs_in in Hin as (m & Em & Hin). destruct (C7 m Em) as [_ C7']. destruct (C7' k v Hin) as (K1 & K2 & _). auto. }
  assert (HF : forall c, In c (s2b "?&") -> forall x, In x (map (fun kv => fst kv ++ x3d :: snd kv) l) -> ~ In c x).
  { intros c Hc x Hx. apply in_map_iff in Hx as ([k v] & <- & Hin). cbn [fst snd]. destruct (Hl k v Hin) as [K1 K2].
    intro Hi. apply in_app_or in Hi as [Hi|[Hi|Hi]].
    - revert Hi. apply (K1 c). cbn in *. intuition.
    - subst c. cbn in Hc. intuition discriminate.
    - revert Hi. apply (K2 c). cbn in *. intuition. }
  rewrite from_shape.
  - rewrite splitOn_join; [|discriminate|].
    2:{ apply Forall_forall. intros x Hx. apply (HF x26); [sepin|exact Hx]. }
    rewrite parseKVs_pairs.
    2:{ intros k v Hin. destruct (Hl k v Hin) as [K1 K2]. split; [apply K1|apply K2]; sepin. }
    assert (Hnd : NoDup (map fst l)).
    { unfold l. cbn [map fst]. rewrite pairs_keys. constructor.
      - intro Hin. apply (Permutation_in _ (Permutation_sym (sortStrings_perm _))) in Hin. destruct (uParams u) as [m|] eqn:Em; [|destruct Hin].
        destruct (C7 m eq_refl) as [_ C7']. apply in_map_iff in Hin as ([k v] & E & Hin). cbn in E. subst k. destruct (C7' _ _ Hin) as (_ & _ & C). exact (C eq_refl).
      - eapply Permutation_NoDup; [apply sortStrings_perm|]. destruct (uParams u) as [m|] eqn:Em; [apply (C7 m eq_refl)|constructor]. }
    pose proof (parse_fmtZ (uPort u) C5) as Ep. rewrite Ep. cbn [fst].
    eexists. split; [reflexivity|]. unfold same_url, param at 2. cbn [uProtocol uHost uPort uPath uGroup uParams].
    repeat (split; [reflexivity|]). split.
    + rewrite fold_put_get by exact Hnd. unfold l. cbn [aget]. rewrite bs_eqb_refl. reflexivity.
    + intro k. rewrite (aget_adel bs_eqb bs_eqb_spec). rewrite fold_put_get by exact Hnd. unfold l. cbn [aget].
      rewrite pairs_get. destruct (bs_eqb k (s2b "group")) eqn:Ek; [|destruct (param u k); reflexivity].
      apply bs_eqb_spec in Ek. subst k. unfold param. destruct (uParams u) as [m|] eqn:Em; [|reflexivity].
      apply (aget_None bs_eqb bs_eqb_spec). intro Hin. apply in_map_iff in Hin as ([k v] & E & Hin). cbn in E. subst k.
      destruct (C7 m eq_refl) as [_ C7']. destruct (C7' _ _ Hin) as (_ & _ & C). exact (C eq_refl).
  - apply C1. sepin.
  - exact C2.
  - apply C3. sepin.
  - apply C3. sepin.
  - apply C3. sepin.
  - apply C4. sepin.
  - apply C4. sepin.
  - apply not_in_joinWith; [discriminate|]. apply HF. sepin.
Qed.

Lemma same_url_keys a b : distinct_params a -> distinct_params b -> same_url a b ->
  Permutation (match uParams a with None => [] | Some m => akeys m end) (match uParams b with None => [] | Some m => akeys m end).
Proof.
  intros Ha Hb (_ & _ & _ & _ & _ & Hp). apply NoDup_Permutation.
  - destruct (uParams a) eqn:E; [apply Ha, E|constructor].
  - destruct (uParams b) eqn:E; [apply Hb, E|constructor].
  - intro k. specialize (Hp k). unfold param in Hp.
    destruct (uParams a) as [m|], (uParams b) as [n|]; cbn [In].
    + pose proof (aget_None bs_eqb bs_eqb_spec m k). pose proof (aget_None bs_eqb bs_eqb_spec n k). rewrite Hp in H.
      destruct (in_dec bs_eq_dec k (akeys m)), (in_dec bs_eq_dec k (akeys n)); intuition.
    + pose proof (aget_None bs_eqb bs_eqb_spec m k). intuition.
    + pose proof (aget_None bs_eqb bs_eqb_spec n k). symmetry in Hp. intuition.
    + reflexivity.
Qed.

Lemma ext_info_canonical a b : distinct_params a -> distinct_params b -> same_url a b -> ext_info a = ext_info b.
Proof.
  intros Ha Hb Hs. pose proof (same_url_keys a b Ha Hb Hs) as Hk. destruct Hs as (E1 & E2 & E3 & E4 & E5 & Hp).
  rewrite !ext_info_shape. rewrite E1, E2, E3, E4, E5. do 6 f_equal.
  assert (Ep : pairs_of a = pairs_of b); [|rewrite Ep; reflexivity].
  unfold pairs_of. rewrite (sortStrings_perm_eq _ _ Hk). apply map_ext. intro k. f_equal. unfold pgetD. rewrite !pget_param, Hp. reflexivity.
Qed.

(* everything FromExtInfo returns is clean *)
Lemma parseKVs_clean ps : forall m, (forall p, In p ps -> ~ In x3f p /\ ~ In x26 p) ->
  (NoDup (akeys m) /\ forall k v, In (k, v) m -> free_of (s2b "?&=") k /\ free_of (s2b "?&=") v) ->
  (NoDup (akeys (parseKVs ps m)) /\ forall k v, In (k, v) (parseKVs ps m) -> free_of (s2b "?&=") k /\ free_of (s2b "?&=") v).
Proof.
  unfold parseKVs. induction ps as [|p ps IH]; intros m Hp Hm; [exact Hm|]. cbn [fold_left]. apply IH; [intros q Hq; apply Hp; right; exact Hq|].
  destruct (splitOn x3d p) as [|k [|v [|? ?]]] eqn:E; try exact Hm.
  assert (Hk : forall x, In x [k; v] -> free_of (s2b "?&=") x).
  { intros x Hx c Hc Hin. rewrite <- E in Hx.
    assert (Hsub : In c p).
    { rewrite <- (joinWith_split x3d p). rewrite E in *. clear - Hx Hin. cbn. apply in_or_app. destruct Hx as [<-|[<-|[]]]; [left; exact Hin|right; right; exact Hin]. }
    destruct (Hp p (or_introl eq_refl)) as [P1 P2]. cbn in Hc. destruct Hc as [<-|[<-|[<-|[]]]]; try contradiction.
    revert Hin. apply (splitOn_parts _ _ _ Hx). }
  destruct Hm as [Hm1 Hm2]. split; [apply (NoDup_aset bs_eqb bs_eqb_spec), Hm1|].
  intros k' v' Hin. assert (Hg : aget bs_eqb (aset bs_eqb m k v) k' = Some v').
  { apply (In_aget bs_eqb bs_eqb_spec); [apply (NoDup_aset bs_eqb bs_eqb_spec), Hm1|exact Hin]. }
  rewrite (aget_aset bs_eqb bs_eqb_spec) in Hg. destruct (bs_eqb k' k) eqn:Ek.
  - injection Hg as <-. apply bs_eqb_spec in Ek. subst k'. split; apply Hk; cbn; auto.
  - apply Hm2. apply (aget_In bs_eqb bs_eqb_spec), Hg.
Qed.

Lemma splitOn_sub c s x y : In x (splitOn c s) -> In y x -> In y s.
Proof.
  revert x. induction s as [|z r IH]; intros x Hx Hy; cbn [splitOn] in Hx.
  - destruct Hx as [<-|[]]. exact Hy.
  - destruct (byte_eqb z c).
    + destruct Hx as [<-|Hx]; [destruct Hy|]. right. eapply IH; eassumption.
    + destruct (splitOn c r) as [|p t] eqn:E; [destruct Hx as [<-|[]]; destruct Hy as [<-|[]]; left; reflexivity|].
      destruct Hx as [<-|Hx].
      * destruct Hy as [<-|Hy]; [left; reflexivity|]. right. apply (IH p); [left; reflexivity|exact Hy].
      * right. apply (IH x); [right; exact Hx|exact Hy].
Qed.

Lemma splitFrom_sub sep s : forall k x y, In x (splitFrom sep k s) -> In y x -> In y s.
Proof.
  induction s as [|z r IH]; intros k x y Hx Hy; cbn [splitFrom] in Hx.
  - destruct Hx as [<-|[]]. exact Hy.
  - destruct k; [|right; eapply IH; eassumption]. destruct (hasPrefix (z :: r) sep).
    + destruct Hx as [<-|Hx]; [destruct Hy|]. right. eapply IH; eassumption.
    + destruct (splitFrom sep 0 r) as [|p t] eqn:E; [destruct Hx as [<-|[]]; destruct Hy as [<-|[]]; left; reflexivity|].
      destruct Hx as [<-|Hx].
      * destruct Hy as [<-|Hy]; [left; reflexivity|]. right. apply (IH 0 p); [rewrite E; left; reflexivity|exact Hy].
      * right. apply (IH 0 x); [rewrite E; right; exact Hx|exact Hy].
Qed.

Lemma parseInt64_range s : (-9223372036854775808 <= fst (parseInt64 s) <= 9223372036854775807)%Z.
Proof.
  unfold parseInt64. destruct s as [|c r]; [cbn; lia|].
  destruct (parseUint64 _) as [un e]. destruct (byte_eqb c x2d); cbn [negb andb].
  - destruct e; cbn [fst]; try lia; destruct (N.ltb_spec 9223372036854775808 un); cbn [fst]; lia.
  - destruct e; cbn [fst]; try lia; destruct (N.leb_spec 9223372036854775808 un); cbn [fst]; lia.
Qed.

Lemma from_clean s u : fromExtInfo s = Some u -> clean u.
Proof.
  unfold fromExtInfo. destruct (splitOn x3f s) as [|a0 [|q arr]] eqn:Ea.
  - exfalso. exact (splitOn_ne _ _ Ea).
  - cbn [nth]. intro HH. exfalso. destruct (splitStr (s2b "://") a0) as [|? [|? ?]]; try discriminate HH.
    match type of HH with context[splitOn x2f ?z] => destruct (splitOn x2f z) as [|? [|? ?]]; try discriminate HH end.
    match type of HH with context[splitOn x3a ?z] => destruct (splitOn x3a z) as [|? [|? ?]]; discriminate HH end.
  - cbn [nth]. destruct (splitStr (s2b "://") a0) as [|P [|rest ?]] eqn:E1; try discriminate.
    destruct (splitOn x2f rest) as [|hp [|path ?]] eqn:E2; try discriminate.
    destruct (splitOn x3a hp) as [|H [|ps ?]] eqn:E3; try discriminate.
    intro HH. injection HH as <-.
    assert (A0 : ~ In x3f a0) by (apply (splitOn_parts x3f s); rewrite Ea; left; reflexivity).
    assert (Q0 : ~ In x3f q) by (apply (splitOn_parts x3f s); rewrite Ea; right; left; reflexivity).
    assert (IP : In P (splitStr (s2b "://") a0)) by (rewrite E1; left; reflexivity).
    assert (IR : In rest (splitStr (s2b "://") a0)) by (rewrite E1; right; left; reflexivity).
    assert (Ihp : In hp (splitOn x2f rest)) by (rewrite E2; left; reflexivity).
    assert (Ipa : In path (splitOn x2f rest)) by (rewrite E2; right; left; reflexivity).
    assert (IH : In H (splitOn x3a hp)) by (rewrite E3; left; reflexivity).
    assert (Sub1 : forall c, In c P -> In c a0) by (intros c; apply (splitFrom_sub _ a0 0 P c IP)).
    assert (Sub2 : forall c, In c rest -> In c a0) by (intros c; apply (splitFrom_sub _ a0 0 rest c IR)).
    assert (Sub3 : forall c, In c hp -> In c rest) by (intros c; apply (splitOn_sub _ rest hp c Ihp)).
    assert (Sub4 : forall c, In c path -> In c rest) by (intros c; apply (splitOn_sub _ rest path c Ipa)).
    assert (Sub5 : forall c, In c H -> In c hp) by (intros c; apply (splitOn_sub _ hp H c IH)).
    fold (parseKVs (splitOn x26 q) []).
    destruct (parseKVs_clean (splitOn x26 q) []) as [KV1 KV2].
    { intros p Hp. split; [intro Hc; apply Q0; apply (splitOn_sub _ _ _ _ Hp Hc)|apply (splitOn_parts _ _ _ Hp)]. }
    { split; [constructor|intros k v []]. }
    unfold clean. cbn [uProtocol uHost uPort uPath uGroup uParams].
    split; [|split; [|split; [|split; [|split; [|split]]]]].
    + intros c [<-|[]] Hin. auto.
    + apply (fun h => splitStr_parts (s2b "://") a0 P h IP). discriminate.
    + intros c Hc Hin. destruct Hc as [<-|[<-|[<-|[]]]].
      * auto.
      * apply (splitOn_parts _ _ _ Ihp). auto.
      * apply (splitOn_parts _ _ _ IH). exact Hin.
    + intros c Hc Hin. destruct Hc as [<-|[<-|[]]].
      * auto.
      * apply (splitOn_parts _ _ _ Ipa). auto.
    + apply parseInt64_range.
    + destruct (aget bs_eqb (parseKVs (splitOn x26 q) []) (s2b "group")) as [g|] eqn:Eg; [|intros c _ []].
      apply (aget_In bs_eqb bs_eqb_spec) in Eg. apply (KV2 _ _ Eg).
    + intros m Hm. injection Hm as <-. split; [apply NoDup_adel, KV1|]. intros k v Hin.
      apply (In_adel bs_eqb bs_eqb_spec) in Hin as [Hin Hne]. destruct (KV2 k v Hin) as [K1 K2]. auto.
Qed.

Lemma from_to_stable s u : fromExtInfo s = Some u -> exists u', fromExtInfo (ext_info u) = Some u' /\ same_url u u'.
Proof. intro H. apply roundtrip, (from_clean s), H. Qed.

Lemma ext_info_inj a b : clean a -> clean b -> ext_info a = ext_info b -> same_url a b.
Proof.
  intros Ha Hb E. destruct (roundtrip a Ha) as (a' & E1 & S1). destruct (roundtrip b Hb) as (b' & E2 & S2). rewrite E in E1.
  assert (a' = b') by congruence. subst b'. destruct S1 as (?&?&?&?&?&P1). destruct S2 as (?&?&?&?&?&P2).
  unfold same_url. repeat (split; [congruence|]). intro k. rewrite P1, P2. reflexivity.
Qed.

(* ---------------------------------------------------------------- C57 *)

Lemma directMatch_spec p k : directMatch p k = true <-> entry_matches p k.
Proof.
  unfold directMatch, entry_matches. change [x2a] with (s2b "*"). destruct (hasSuffix k (s2b "*")) eqn:E.
  - apply hasSuffix_spec in E as (t & ->). rewrite app_length. change (length (s2b "*")) with 1. replace (length t + 1 - 1) with (length t) by lia.
    rewrite firstn_app_exact, hasPrefix_spec. split.
    + intro H. left. exists t. auto.
    + intros [(q & Hq & H)|[H _]]; [|exfalso; apply (H t); reflexivity]. apply app_inj_tail in Hq as [-> _]. exact H.
  - rewrite hasSuffix_spec. split.
    + intro H. right. split; [|exact H]. intros q ->. assert (hasSuffix (q ++ s2b "*") (s2b "*") = true) by (apply hasSuffix_spec; exists q; reflexivity). congruence.
    + intros [(q & -> & _)|[_ H]]; [|exact H]. assert (hasSuffix (q ++ s2b "*") (s2b "*") = true) by (apply hasSuffix_spec; exists q; reflexivity). congruence.
Qed.

Lemma directLookup_some table p v : directLookup table p = Some v -> exists k, In (k, v) table /\ entry_matches p k.
Proof.
  induction table as [|[k w] r IH]; cbn [directLookup]; [discriminate|]. destruct (directMatch p k) eqn:E.
  - intro H. injection H as ->. exists k. split; [left; reflexivity|]. apply directMatch_spec, E.
  - intro H. destruct (IH H) as (k' & H1 & H2). exists k'. split; [right; exact H1|exact H2].
Qed.
Lemma directLookup_none table p : directLookup table p = None <-> forall k v, In (k, v) table -> ~ entry_matches p k.
Proof.
  induction table as [|[k w] r IH]; cbn [directLookup].
  - split; [intros _ k v []|reflexivity].
  - destruct (directMatch p k) eqn:E.
    + split; [discriminate|]. intro H. exfalso. apply (H k w); [left; reflexivity|]. apply directMatch_spec, E.
    + rewrite IH. split.
      * intros H k' v' [He|Hin]; [injection He as <- <-; intro Hc; apply directMatch_spec in Hc; congruence|]. apply (H _ _ Hin).
      * intros H k' v' Hin. apply (H k' v'). right. exact Hin.
Qed.
(* with at most one matching key the answer does not depend on the order of the map *)
Lemma directLookup_order table table' p : Permutation table table' ->
  (forall k k' v v', In (k, v) table -> In (k', v') table -> entry_matches p k -> entry_matches p k' -> v = v') ->
  directLookup table p = directLookup table' p.
Proof.
  intros Hp Hu. destruct (directLookup table p) as [v|] eqn:E.
  - destruct (directLookup_some _ _ _ E) as (k & H1 & H2). destruct (directLookup table' p) as [v'|] eqn:E'.
    + destruct (directLookup_some _ _ _ E') as (k' & H1' & H2'). f_equal. apply (Hu k k'); auto. eapply Permutation_in; [symmetry; exact Hp|exact H1'].
    + exfalso. apply (proj1 (directLookup_none _ _) E' k v); [eapply Permutation_in; eassumption|exact H2].
  - symmetry. apply directLookup_none. intros k v Hin. apply (proj1 (directLookup_none _ _) E k v). eapply Permutation_in; [symmetry; exact Hp|exact Hin].
Qed.

(* ---------------------------------------------------------------- C58 *)

Lemma trimmed_fmtZ z : trimmed (fmtZ z) /\ fmtZ z <> [].
Proof.
  assert (Hc : forall c, In c (fmtZ z) -> isSpace c = false).
  { intros c Hin. unfold isSpace. apply fmtZ_chars in Hin as [[d Hd]| ->]; [|reflexivity]. unfold digitOf in Hd.
    destruct (N.leb_spec 48 (b2n c)); [|discriminate]. destruct (N.leb_spec (b2n c) 13); [lia|]. rewrite andb_false_r. cbn [orb]. apply N.eqb_neq. lia. }
  split; [|apply fmtZ_ne]. split.
  - intros c r E. apply Hc. rewrite E. left. reflexivity.
  - intros c r E. apply Hc. rewrite E. apply in_or_app. right. left. reflexivity.
Qed.

Lemma trimSplit_one c s : ~ In c s -> trimSpace s <> [] -> trimSplit s [c] = [trimSpace s].
Proof.
  intros H1 H2. change s with (joinStr [c] [s]) at 1. rewrite (trimSplit_join c [s]); [reflexivity| |]; repeat constructor; assumption.
Qed.

Lemma parseExport_both proto z : ~ In x3a proto -> trimSpace proto <> [] -> (-9223372036854775808 <= z <= 9223372036854775807)%Z ->
  parseExportInfo (proto ++ s2b ":" ++ fmtZ z) = (trimSpace proto, z, false).
Proof.
  intros H1 H2 Hz. destruct (trimmed_fmtZ z) as [T1 T2]. pose proof (trimSpace_id _ T1) as T3. unfold parseExportInfo. change (s2b ":") with [x3a].
  change (proto ++ [x3a] ++ fmtZ z) with (joinStr [x3a] [proto; fmtZ z]). rewrite trimSplit_join.
  - cbn [map]. rewrite T3. destruct (bs_eqb (trimSpace proto) []) eqn:E; [apply bs_eqb_spec in E; contradiction|]. rewrite parse_fmtZ by exact Hz. reflexivity.
  - repeat constructor; [exact H1|]. apply fmtZ_free. reflexivity.
  - repeat constructor; [exact H2|]. rewrite T3. exact T2.
Qed.
Lemma parseExport_port z : (-9223372036854775808 <= z <= 9223372036854775807)%Z -> parseExportInfo (fmtZ z) = (s2b "motan2", z, false).
Proof.
  intro Hz. destruct (trimmed_fmtZ z) as [T1 T2]. pose proof (trimSpace_id _ T1) as T3. unfold parseExportInfo. change (s2b ":") with [x3a].
  rewrite trimSplit_one; [|apply fmtZ_free; reflexivity|rewrite T3; exact T2]. rewrite T3.
  destruct (bs_eqb (fmtZ z) []) eqn:E; [apply bs_eqb_spec in E; contradiction|]. rewrite parse_fmtZ by exact Hz. reflexivity.
Qed.
Lemma parseExport_error e p z err : parseExportInfo e = (p, z, err) -> p <> [] /\ (-9223372036854775808 <= z <= 9223372036854775807)%Z.
Proof.
  unfold parseExportInfo. destruct (trimSplit e (s2b ":")) as [|a [|b [|? ?]]].
  - intro H. vm_compute in H. injection H as <- <- <-. split; [discriminate|lia].
  - destruct (parseInt64 _) as [pi er] eqn:E. intro H. injection H as <- <- <-. split; [discriminate|]. change pi with (fst (pi, er)). rewrite <- E. apply parseInt64_range.
  - destruct (parseInt64 _) as [pi er] eqn:E. intro H. injection H as <- <- <-. split.
    + destruct (bs_eqb a []) eqn:Ea; [discriminate|]. apply bs_eqb_neq in Ea. exact Ea.
    + change pi with (fst (pi, er)). rewrite <- E. apply parseInt64_range.
  - intro H. vm_compute in H. injection H as <- <- <-. split; [discriminate|lia].
Qed.

Lemma existsb_bs s l : existsb (bs_eqb s) l = true <-> In s l.
Proof. rewrite existsb_exists. split; [intros (x & I & E); apply bs_eqb_spec in E; subst; exact I|intro I; exists s; split; [exact I|apply bs_eqb_refl]]. Qed.
Lemma duration u k unit d :
  (forall t z, param u k = Some t -> parseInt64 t = (z, NumOk) -> (- 2 ^ 31 <= z < 2 ^ 31)%Z -> (- 2 ^ 63 <= z * unit < 2 ^ 63)%Z ->
     getTimeDuration u k unit d = (z * unit)%Z) /\
  ((forall t z, param u k = Some t -> parseInt64 t = (z, NumOk) -> ~ (- 2 ^ 31 <= z < 2 ^ 31)%Z) -> getTimeDuration u k unit d = d).
Proof.
  unfold getTimeDuration. fold (param u k). change (pget (uParams u) k) with (param u k). change (2 ^ 31)%Z with 2147483648%Z. change (2 ^ 63)%Z with 9223372036854775808%Z. split.
  - intros t z -> -> H R. replace (-2147483648 <=? z)%Z with true by (symmetry; apply Z.leb_le; lia). replace (z <=? 2147483647)%Z with true by (symmetry; apply Z.leb_le; lia).
    cbn [andb]. unfold wrapI64. rewrite Z.mod_small by lia. lia.
  - intro H. destruct (param u k) as [t|]; [|reflexivity]. destruct (parseInt64 t) as [z []] eqn:E; try reflexivity. specialize (H t z eq_refl E).
    destruct (Z.leb_spec (-2147483648) z), (Z.leb_spec z 2147483647); cbn [andb]; try reflexivity. lia.
Qed.
Lemma bool_value u k d :
  (forall t, param u k = Some t -> In t (map s2b ["1"; "t"; "T"; "true"; "TRUE"; "True"]%string) -> getBoolValue u k d = true) /\
  (forall t, param u k = Some t -> In t (map s2b ["0"; "f"; "F"; "false"; "FALSE"; "False"]%string) -> getBoolValue u k d = false) /\
  ((forall t, param u k = Some t -> ~ In t (map s2b ["1"; "t"; "T"; "true"; "TRUE"; "True"; "0"; "f"; "F"; "false"; "FALSE"; "False"]%string)) ->
     getBoolValue u k d = d).
Proof.
  unfold getBoolValue. change (pget (uParams u) k) with (param u k). split; [|split].
  - intros t -> I. unfold parseBool. rewrite (proj2 (existsb_bs t _) I). reflexivity.
  - intros t -> I. cbn [map In] in I. destruct I as [<-|[<-|[<-|[<-|[<-|[<-|[]]]]]]]; reflexivity.
  - intro H. destruct (param u k) as [t|]; [|reflexivity]. specialize (H t eq_refl). unfold parseBool.
    destruct (existsb (bs_eqb t) (map s2b ["1"; "t"; "T"; "true"; "TRUE"; "True"]%string)) eqn:E1.
    { apply existsb_bs in E1. destruct H. cbn [map In] in *. tauto. }
    destruct (existsb (bs_eqb t) (map s2b ["0"; "f"; "F"; "false"; "FALSE"; "False"]%string)) eqn:E2; [|reflexivity].
    apply existsb_bs in E2. destruct H. cbn [map In] in *. tauto.
Qed.
