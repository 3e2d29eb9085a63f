(* RevProofs.v: lemmas for C87. *)
From Verif Require Import Base GoStrings GoStrings2 Strconv BytesModel BytesSpec ProtoModel ProtoSpec ConvModel ConvSpec UrlModel UrlSpec UrlProofs V1Model V1Spec V1Proofs ServerModel ServerSpec ServerProofs RevModel RevSpec.
Ltac Zify.zify_post_hook ::= idtac.

Lemma putIfEmpty_param c k v k' : param (cUrl (putIfEmpty c k v)) k' = if bs_eqb k' k then Some (str_or (cUrl c) k v) else param (cUrl c) k'.
Proof.
  unfold putIfEmpty. rewrite getParam_str_or. unfold str_or. destruct (param (cUrl c) k) as [[|x w]|] eqn:E; cbn [bs_empty].
  - unfold UrlModel.putParam, param. cbn [cUrl withParams uParams pset]. rewrite (aget_aset bs_eqb bs_eqb_spec).
    destruct (bs_eqb k' k); [reflexivity|]. unfold pset. destruct (uParams (cUrl c)); reflexivity.
  - destruct (bs_eqb k' k) eqn:Q; [|reflexivity]. apply bs_eqb_spec in Q as ->. exact E.
  - unfold UrlModel.putParam, param. cbn [cUrl withParams uParams pset]. rewrite (aget_aset bs_eqb bs_eqb_spec).
    destruct (bs_eqb k' k); [reflexivity|]. unfold pset. destruct (uParams (cUrl c)); reflexivity.
Qed.
Lemma putIfEmpty_fields c k v : uProtocol (cUrl (putIfEmpty c k v)) = uProtocol (cUrl c) /\ uHost (cUrl (putIfEmpty c k v)) = uHost (cUrl c) /\
  uPort (cUrl (putIfEmpty c k v)) = uPort (cUrl c) /\ uPath (cUrl (putIfEmpty c k v)) = uPath (cUrl c) /\ uGroup (cUrl (putIfEmpty c k v)) = uGroup (cUrl c) /\
  cAddress (putIfEmpty c k v) = cAddress c /\ cPortStr (putIfEmpty c k v) = cPortStr c /\ cIdentity (putIfEmpty c k v) = cIdentity c.
Proof. unfold putIfEmpty. destruct (bs_empty _); repeat split; reflexivity. Qed.

Lemma backend_ok u protocol port : backend u protocol port (cUrl (backendUrl u protocol port)) /\
  cAddress (backendUrl u protocol port) = [] /\ cPortStr (backendUrl u protocol port) = [] /\ cIdentity (backendUrl u protocol port) = [].
Proof.
  unfold backendUrl. set (c := mkCurl _ _ _ _ _ _). set (c1 := putIfEmpty c _ _).
  destruct (putIfEmpty_fields c1 (s2b "errorCountThreshold") (s2b "0")) as (A1 & A2 & A3 & A4 & A5 & A6 & A7 & A8).
  destruct (putIfEmpty_fields c (s2b "connectRetryInterval") (s2b "5000")) as (B1 & B2 & B3 & B4 & B5 & B6 & B7 & B8). fold c1 in B1, B2, B3, B4, B5, B6, B7, B8.
  assert (P0 : forall k, param (cUrl c) k = param u k).
  { intro k. unfold c, copyUrl, fresh, param. cbn [cUrl uParams withParams]. destruct (uParams u); reflexivity. }
  assert (S0 : forall k v, str_or (cUrl c) k v = str_or u k v) by (intros k v; unfold str_or; rewrite P0; reflexivity).
  split; [|rewrite A6, A7, A8, B6, B7, B8; repeat split; reflexivity].
  unfold backend. rewrite A1, A2, A3, A4, A5, B1, B2, B3, B4, B5. split; [reflexivity|]. split; [unfold c; cbn [cUrl uHost]; apply getParam_str_or|].
  split; [reflexivity|]. split; [reflexivity|]. split; [reflexivity|]. intro k. rewrite putIfEmpty_param. unfold backend_param.
  destruct (bs_eqb k (s2b "errorCountThreshold")) eqn:E.
  - apply bs_eqb_spec in E as ->. change (bs_eqb (s2b "errorCountThreshold") (s2b "connectRetryInterval")) with false. cbv iota. f_equal.
    unfold c1, str_or. rewrite putIfEmpty_param. change (bs_eqb (s2b "errorCountThreshold") (s2b "connectRetryInterval")) with false. cbv iota. rewrite P0. reflexivity.
  - unfold c1. rewrite putIfEmpty_param. destruct (bs_eqb k (s2b "connectRetryInterval")) eqn:E'; [|apply P0].
    apply bs_eqb_spec in E' as ->. rewrite S0. reflexivity.
Qed.
Lemma backend_identity u protocol port : fst (getIdentity (backendUrl u protocol port)) = identity_of (cUrl (backendUrl u protocol port)).
Proof.
  destruct (backend_ok u protocol port) as (_ & A & B & C). unfold getIdentity. rewrite C. unfold getPortStr. rewrite B. cbn [fst snd].
  cbn [cUrl]. unfold identity_of. rewrite getParam_str_or. rewrite <- !app_assoc.
  destruct (bs_eqb (uProtocol (cUrl (backendUrl u protocol port))) (s2b "direct")); cbn [fst]; rewrite <- ?app_assoc, ?app_nil_r; reflexivity.
Qed.

Lemma lruns_snoc l o : lruns (l ++ [o]) = lstep (lruns l) o.
Proof. unfold lruns. rewrite fold_left_app. reflexivity. Qed.
Lemma last_reg_snoc l o k : last_reg (l ++ [o]) k = match o with LRegister sv p => if bs_eqb k sv then Some p else last_reg l k | LRefer _ => last_reg l k end.
Proof.
  induction l as [|a l IH]; [destruct o; cbn; try reflexivity; destruct (bs_eqb k service); reflexivity|]. cbn [app last_reg].
  destruct a; rewrite IH; destruct o; cbn; try reflexivity. destruct (bs_eqb k service0); reflexivity.
Qed.
Lemma refers_app a b : refers (a ++ b) = refers a ++ refers b.
Proof. unfold refers. apply flat_map_app. Qed.
Lemma lruns_ok l : (forall k, aget bs_eqb (l_reg (lruns l)) k = last_reg l k) /\ map fst (l_eps (lruns l)) = refers l.
Proof.
  induction l as [|o l [I1 I2]] using rev_ind; [split; reflexivity|]. rewrite lruns_snoc. rewrite refers_app. split.
  - intro k. rewrite last_reg_snoc. destruct o as [sv p|u]; cbn [lstep].
    + cbn [l_reg]. rewrite (aget_aset bs_eqb bs_eqb_spec). rewrite I1. reflexivity.
    + destruct (aget bs_eqb (l_reg (lruns l)) (uPath u)); cbn [l_reg]; apply I1.
  - destruct o as [sv p|u]; cbn [lstep]; [cbn [l_eps]; rewrite I2, app_nil_r; reflexivity|].
    destruct (aget bs_eqb (l_reg (lruns l)) (uPath u)); cbn [l_eps]; rewrite map_app, I2; reflexivity.
Qed.
Lemma lruns_eps l a u b : l = a ++ LRefer u :: b -> nth_error (l_eps (lruns l)) (length (refers a)) = Some (u, last_reg a (uPath u)).
Proof.
  revert l. induction b as [|o b IH] using rev_ind; intros l ->.
  - rewrite lruns_snoc. destruct (lruns_ok a) as [I1 I2]. assert (L : length (l_eps (lruns a)) = length (refers a)) by (rewrite <- I2, map_length; reflexivity).
    cbn [lstep]. rewrite I1. destruct (last_reg a (uPath u)); cbn [l_eps]; rewrite nth_error_app2 by lia; rewrite L, Nat.sub_diag; reflexivity.
  - specialize (IH _ eq_refl). change (a ++ LRefer u :: b ++ [o]) with (a ++ (LRefer u :: b) ++ [o]). rewrite app_assoc, lruns_snoc.
    assert (G : forall x, nth_error (l_eps (lruns (a ++ LRefer u :: b)) ++ [x]) (length (refers a)) = Some (u, last_reg a (uPath u))).
    { intro x. rewrite nth_error_app1; [exact IH|]. apply nth_error_Some. rewrite IH. discriminate. }
    destruct o as [sv p|v]; cbn [lstep]; [exact IH|]. destruct (aget bs_eqb _ (uPath v)); cbn [l_eps]; apply G.
Qed.

(* motan1: an exception response that carries no request id *)
Lemma v1_zero {A} (c : scfg A) gunzip ip m q e max : decodeV1Request gunzip m = VOk q -> isV1HeartbeatReq q = false ->
  let msg := s2b "build v1 exception res. org err:" ++ eMsg e in
  (N.of_nat (length msg) < 65536)%N -> (N.of_nat (length (exception_stream msg)) + 16 <= max)%N -> (max < 2 ^ 32)%N -> vRid m <> 0%N ->
  exists b, processV1 c gunzip ip (fun _ => HRes (mkV1resp 0 None (Some e))) m = Write b /\ motan1_answer max 0 b /\ ~ motan1_answer max (vRid m) b.
Proof.
  intros D Hb msg L L2 L3 Hr.
  assert (N0 : msg <> []) by (unfold msg; discriminate).
  destruct (exception_read gunzip max 0 msg [] N0 ltac:(lia) L L2 L3) as (F & m' & R & I1 & _). rewrite app_nil_r in R.
  exists (buildV1ExceptionResponse 0 msg). split.
  - unfold processV1. rewrite D. cbv zeta. rewrite Hb. unfold encodeV1Resp. cbn [w_orig w_exc w_id]. fold msg.
    destruct (buildV1ExceptionResponse 0 msg) eqn:E; [|reflexivity]. unfold v1_frame in F. discriminate F.
  - split; [exists m'; auto|]. intros (m2 & R2 & I2). rewrite R2 in R. injection R as ->. congruence.
Qed.
