(* RevProps.v: C87. *)
From Verif Require Import Base GoStrings GoStrings2 Strconv BytesModel BytesSpec ProtoModel ProtoSpec ConvModel ConvSpec UrlModel UrlSpec UrlProofs V1Model V1Spec V1Proofs ServerModel ServerSpec ServerProofs RevModel RevSpec RevProofs.
Ltac Zify.zify_post_hook ::= idtac.

(* A service exported with proxy = "protocol:port", or just "port" (protocol motan2), is called at that protocol and port
   of proxy.host (127.0.0.1 if not given), under its own path, group and parameters, the two connection parameters
   defaulted where they are missing or empty; the endpoint goes by the identity of that address. *)
Theorem C87_backend : forall known u protocol port proto,
  param u (s2b "proxy") = Some (proto ++ s2b ":" ++ fmtZ port) /\ ~ In x3a proto /\ trimSpace proto = protocol /\ protocol <> [] \/
  param u (s2b "proxy") = Some (fmtZ port) /\ protocol = s2b "motan2" ->
  (0 < port <= 9223372036854775807)%Z -> known protocol = true ->
  exists c, r_ep (initMotan known (newMotanProvider u)) = Some c /\ backend u protocol port (cUrl c) /\ fst (getIdentity c) = identity_of (cUrl c) /\
    forall up, rAvailable (initMotan known (newMotanProvider u)) up = up.
Proof.
  intros known u protocol port proto H P K.
  assert (E : parseExportInfo (getParam u (s2b "proxy") []) = (protocol, port, false)).
  { destruct H as [(H1 & H2 & H3 & H4)|(H1 & ->)].
    - rewrite getParam_str_or. unfold str_or. rewrite H1. destruct (proto ++ s2b ":" ++ fmtZ port) eqn:Q; [destruct proto; discriminate Q|]. rewrite <- Q. rewrite parseExport_both; subst; try lia; auto.
    - rewrite getParam_str_or. unfold str_or. rewrite H1. destruct (fmtZ port) eqn:Q; [exfalso; exact (fmtZ_ne port Q)|]. rewrite <- Q. apply parseExport_port. lia. }
  assert (G : initMotan known (newMotanProvider u) = mkRprov u (Some (backendUrl u protocol port)) true).
  { unfold initMotan, newMotanProvider. cbn [r_url]. rewrite E. destruct (Z.leb_spec port 0) as [Q|Q]; [lia|]. rewrite K. reflexivity. }
  rewrite G. exists (backendUrl u protocol port). split; [reflexivity|]. split; [apply backend_ok|]. split; [apply backend_identity|]. intro up. reflexivity.
Qed.
Print Assumptions C87_backend.

(* A proxy parameter whose port is no number, or not positive, or whose protocol is unknown leaves the service
   unavailable: every call is refused with an exception and nothing is sent. *)
Theorem C87_bad : forall known u up att, let '(protocol, port, err) := parseExportInfo (str_or u (s2b "proxy") []) in
  err = true \/ (port <= 0)%Z \/ known protocol = false ->
  rAvailable (initMotan known (newMotanProvider u)) up = false /\
  exists id x, callMotan (initMotan known (newMotanProvider u)) up att = Some (Refuse id x) /\ eCode x = 503%Z.
Proof.
  intros known u up att. destruct (parseExportInfo (str_or u (s2b "proxy") [])) as [[protocol port] err] eqn:E. intro H.
  assert (A : rAvailable (initMotan known (newMotanProvider u)) up = false).
  { unfold initMotan, newMotanProvider. cbn [r_url]. rewrite getParam_str_or, E. destruct err; [reflexivity|]. destruct (Z.leb_spec port 0) as [Q|Q]; [reflexivity|].
    destruct H as [H|[H|H]]; [discriminate H|lia|]. rewrite H. reflexivity. }
  split; [exact A|]. unfold callMotan. rewrite A. eexists _, _. split; reflexivity.
Qed.
Print Assumptions C87_bad.

(* An available reverse proxy hands every request to its backend, with the attachments it came with; only a request
   that says nothing about whom it was forwarded for gets the caller's address there.  An unavailable one sends nothing. *)
Theorem C87_forward : forall p up att,
  (rAvailable p up = true ->
     exists e att', callMotan p up att = Some (Forward e att') /\ r_ep p = Some e /\
       (is_set att (s2b "x-forwarded-for") \/ is_set att (s2b "X-Forwarded-For") -> att' = att) /\
       (~ is_set att (s2b "x-forwarded-for") -> ~ is_set att (s2b "X-Forwarded-For") ->
          forall k, aget bs_eqb att' k = if bs_eqb k (s2b "x-forwarded-for") then Some (value_or_empty att (s2b "host")) else aget bs_eqb att k)) /\
  (rAvailable p up = false -> exists id x, callMotan p up att = Some (Refuse id x)).
Proof.
  intros p up att. assert (S : forall k, is_set att k <-> bs_empty (loadOrEmpty att k) = false).
  { intro k. unfold is_set, loadOrEmpty. destruct (aget bs_eqb att k) as [[|x v]|]; cbn [bs_empty]; split.
    - intros (v & E & N). congruence.
    - discriminate.
    - reflexivity.
    - intros _. eexists. split; [reflexivity|discriminate].
    - intros (v & E & _). discriminate E.
    - discriminate. }
  split; intro A; unfold callMotan; rewrite A; [|eexists _, _; reflexivity].
  unfold rAvailable in A. destruct (r_ep p) as [e|]; [|apply andb_prop in A as [_ A]; discriminate A].
  eexists _, _. split; [reflexivity|]. split; [reflexivity|]. rewrite !S. split.
  - intros [->| ->]; [reflexivity|]. rewrite andb_false_r. reflexivity.
  - intros N1 N2 k. destruct (bs_empty (loadOrEmpty att (s2b "x-forwarded-for"))); [|contradiction (N1 eq_refl)].
    destruct (bs_empty (loadOrEmpty att (s2b "X-Forwarded-For"))); [|contradiction (N2 eq_refl)]. cbn [andb]. rewrite (aget_aset bs_eqb bs_eqb_spec). reflexivity.
Qed.
Print Assumptions C87_forward.

(* Finding: an unavailable reverse proxy answers under request id 0.  A motan1 caller waits for its own id: what the
   server writes is no answer to it (motan2 answers get the request's id from the server). *)
Theorem C87_motan1_unanswered_refuted : forall A (c : scfg A) gunzip ip m q p up max,
  decodeV1Request gunzip m = VOk q -> isV1HeartbeatReq q = false -> vRid m <> 0%N -> (1000 <= max)%N -> (max < 2 ^ 32)%N -> rAvailable p up = false ->
  exists id x b, (forall att, callMotan p up att = Some (Refuse id x)) /\
    processV1 c gunzip ip (fun _ => HRes (mkV1resp id None (Some x))) m = Write b /\ ~ motan1_answer max (vRid m) b.
Proof.
  intros A c gunzip ip m q p up max D Hb Hr L1 L2 Av. eexists _, _.
  edestruct (v1_zero c gunzip ip m q (mkExc 503 (s2b "reverse proxy call err: motanProvider is unavailable") 503) max D Hb) as (b & P1 & _ & P3).
  - vm_compute. reflexivity.
  - eapply N.le_trans; [|exact L1]. vm_compute. discriminate.
  - exact L2.
  - exact Hr.
  - exists b. split; [intro att; unfold callMotan; rewrite Av; reflexivity|]. split; [exact P1|exact P3].
Qed.
Print Assumptions C87_motan1_unanswered_refuted.

(* Finding: without a proxy parameter the service is not refused: calls go to motan2://127.0.0.1:9982, whatever listens there. *)
Theorem C87_unset_refuted : forall known u, param u (s2b "proxy") = None -> known (s2b "motan2") = true -> forall up att, up = true ->
  exists e att', callMotan (initMotan known (newMotanProvider u)) up att = Some (Forward e att') /\ uProtocol (cUrl e) = s2b "motan2" /\ uPort (cUrl e) = 9982%Z.
Proof.
  intros known u H K up att ->. unfold initMotan, newMotanProvider. cbn [r_url]. rewrite getParam_str_or. unfold str_or. rewrite H.
  change (parseExportInfo []) with (s2b "motan2", 9982%Z, false). cbv beta iota zeta. change (9982 <=? 0)%Z with false. cbv iota. rewrite K.
  eexists _, _. split; [reflexivity|]. destruct (backend_ok u (s2b "motan2") 9982) as ((B1 & _ & B3 & _) & _). split; [exact B1|exact B3].
Qed.
Print Assumptions C87_unset_refuted.

(* Finding: a misconfigured provider cannot be destroyed: it has no endpoint and the call panics. *)
Theorem C87_destroy_refuted : forall known u, let '(protocol, port, err) := parseExportInfo (str_or u (s2b "proxy") []) in
  err = true \/ (port <= 0)%Z \/ known protocol = false -> destroyMotan (initMotan known (newMotanProvider u)) = None.
Proof.
  intros known u. destruct (parseExportInfo (str_or u (s2b "proxy") [])) as [[protocol port] err] eqn:E. intro H.
  unfold destroyMotan, initMotan, newMotanProvider. cbn [r_url]. rewrite getParam_str_or, E. destruct err; [reflexivity|]. destruct (Z.leb_spec port 0) as [Q|Q]; [reflexivity|].
  destruct H as [H|[H|H]]; [discriminate H|lia|]. rewrite H. reflexivity.
Qed.
Print Assumptions C87_destroy_refuted.

(* The meta service answers a motan2 call with what was serialized, under the call's id, and nothing else is ever an answer with a value. *)
Theorem C87_meta : forall id v1 ser, match metaCall id v1 ser with
  | (i, inl b) => v1 = false /\ ser = Some b /\ i = id
  | (i, inr x) => i = 0%N /\ ((v1 = true /\ x = mkExc 500 (s2b "meta provider not support motan1 protocol") 0) \/
                              (v1 = false /\ ser = None /\ x = mkExc 500 (s2b "meta provider serialize fail") 0))
  end.
Proof. intros id [] [b|]; cbn; auto 6. Qed.
Print Assumptions C87_meta.

(* Finding: the meta service's motan1 answer carries id 0 as well. *)
Theorem C87_meta_motan1_refuted : forall A (c : scfg A) gunzip ip m q ser max,
  decodeV1Request gunzip m = VOk q -> isV1HeartbeatReq q = false -> vRid m <> 0%N -> (1000 <= max)%N -> (max < 2 ^ 32)%N ->
  exists id x b, metaCall (vRid m) true ser = (id, inr x) /\
    processV1 c gunzip ip (fun _ => HRes (mkV1resp id None (Some x))) m = Write b /\ ~ motan1_answer max (vRid m) b.
Proof.
  intros A c gunzip ip m q ser max D Hb Hr L1 L2. eexists _, _.
  edestruct (v1_zero c gunzip ip m q (mkExc 500 (s2b "meta provider not support motan1 protocol") 0) max D Hb) as (b & P1 & _ & P3).
  - vm_compute. reflexivity.
  - eapply N.le_trans; [|exact L1]. vm_compute. discriminate.
  - exact L2.
  - exact Hr.
  - exists b. split; [reflexivity|]. split; [exact P1|exact P3].
Qed.
Print Assumptions C87_meta_motan1_refuted.

(* Local calls: a reference calls the provider that was last registered for its path when it was made, whatever is
   registered or referred to later; a reference made when there was none answers every call with an exception under
   the caller's id. *)
Theorem C87_local : forall before u after id service, let s := lruns (before ++ LRefer u :: after) in
  localCall s (length (refers before)) id service =
    match last_reg before (uPath u) with
    | Some p => Some (inl p)
    | None => Some (inr (id, mkExc 500 (s2b "no local provider for: " ++ service) 1))
    end.
Proof.
  intros before u after id service s. unfold localCall, s. rewrite (lruns_eps _ before u after eq_refl). destruct (last_reg before (uPath u)); reflexivity.
Qed.
Print Assumptions C87_local.
Theorem C87_local_discover : forall u, exists v, localDiscover u = [v] /\ uProtocol v = s2b "local" /\ uHost v = uHost u /\ uPort v = uPort u /\ uPath v = uPath u /\
  uGroup v = uGroup u /\ forall k, param v k = param u k.
Proof. intro u. eexists. split; [reflexivity|]. repeat (split; [reflexivity|]). intro k. unfold param. cbn [uParams]. destruct (uParams u); reflexivity. Qed.
Print Assumptions C87_local_discover.

(* Finding: two references to one path share the provider, which is left with the url of the later one. *)
Theorem C87_local_shared_refuted : exists before u v p,
  let s := lruns (before ++ [LRefer u; LRefer v]) in
  localCall s 0 1 [] = Some (inl p) /\ localCall s 1 1 [] = Some (inl p) /\ uGroup u <> uGroup v /\ aget Nat.eqb (l_url s) p = Some v.
Proof.
  exists [LRegister (s2b "svc") 0], (mkUrl (s2b "local") [] 0 (s2b "svc") (s2b "g1") None), (mkUrl (s2b "local") [] 0 (s2b "svc") (s2b "g2") None), 0.
  repeat split; try reflexivity. discriminate.
Qed.
Print Assumptions C87_local_shared_refuted.

Definition exRev := mkUrl (s2b "motan2") (s2b "10.0.0.1") 8100 (s2b "com.S") (s2b "g") (Some [(s2b "proxy", s2b "motan:9000"); (s2b "errorCountThreshold", s2b "3")]).
Definition exV1 : v1msg := mkV1 (v1_frame [xf1; xf1; x00; x00] x01 x00 7 (call_stream x01 (mkCall (ByName (s2b "com.S") (s2b "hello") (s2b "void")) [] [])))
  x01 x00 7 (N.of_nat (length (call_stream x01 (mkCall (ByName (s2b "com.S") (s2b "hello") (s2b "void")) [] [])))).
Example C87_example :
  (exists c, r_ep (initMotan (fun _ => true) (newMotanProvider exRev)) = Some c /\ backend exRev (s2b "motan") 9000 (cUrl c) /\ param (cUrl c) (s2b "errorCountThreshold") = Some (s2b "3")) /\
  rAvailable (initMotan (fun _ => true) (newMotanProvider exRev)) true = true /\
  parseExportInfo (s2b "motan:x") = (s2b "motan", 0%Z, true) /\
  (exists q, decodeV1Request (fun _ => None) exV1 = VOk q /\ isV1HeartbeatReq q = false) /\ vRid exV1 <> 0%N /\
  localCall (lruns [LRegister (s2b "s") 1; LRegister (s2b "s") 2; LRefer (mkUrl [] [] 0 (s2b "s") [] None); LRegister (s2b "s") 3]) 0 9 [] = Some (inl 2).
Proof.
  split; [|split; [reflexivity|split; [reflexivity|split; [|split; [discriminate|reflexivity]]]]].
  - destruct (C87_backend (fun _ => true) exRev (s2b "motan") 9000 (s2b "motan")) as (c & H1 & H2 & _).
    + left. split; [reflexivity|]. split; [|split; [reflexivity|discriminate]]. intro I. cbn in I. repeat destruct I as [I|I]; try discriminate I. exact I.
    + lia.
    + reflexivity.
    + exists c. split; [exact H1|]. split; [exact H2|]. destruct H2 as (_ & _ & _ & _ & _ & H2). rewrite H2. reflexivity.
  - eexists. split; [vm_compute; reflexivity|]. reflexivity.
Qed.

(* the message of C87 also meets the hypotheses of C31_motan1_given *)
Example C31_motan1_given_example : forall c : scfg unit, exists q i, decodeV1Request (fun _ => None) exV1 = VOk q /\ isV1HeartbeatReq q = false /\
  i_id i = 7%N /\ i_service i = s2b "com.S" /\ i_method i = s2b "hello" /\ att_value (i_attach i) (s2b "host") = s2b "1.2.3.4" /\
  forall h, processV1 c (fun _ => None) (s2b "1.2.3.4") h exV1 = processV1 c (fun _ => None) (s2b "1.2.3.4") (fun _ => h i) exV1.
Proof.
  intro c. destruct (decodeV1Request (fun _ => None) exV1) as [q| | |] eqn:E; try (vm_compute in E; discriminate E).
  assert (Q : isV1HeartbeatReq q = false /\ rService q = s2b "com.S" /\ rMethod q = s2b "hello") by (vm_compute in E; injection E as <-; repeat split).
  destruct Q as (Q1 & Q2 & Q3). destruct (@processV1_given unit c (fun _ => None) (s2b "1.2.3.4") exV1 q E Q1) as (i & I1 & I2 & I3 & I4 & _ & _ & I7).
  exists q, i. split; [reflexivity|]. split; [exact Q1|]. split; [exact I2|]. split; [congruence|]. split; [congruence|]. split; [rewrite I7; reflexivity|exact I1].
Qed.
