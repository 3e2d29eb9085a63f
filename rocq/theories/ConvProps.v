(* ConvProps.v: the theorems about request and response conversion (C10). *)
From Verif Require Import Base BytesModel BytesSpec Strconv ProtoModel ProtoSpec ConvModel ConvSpec ConvProofs.

(* C10, requests: converted, encoded, sent, decoded and converted back *)
Theorem C10_request : forall A (X : ext) (asBytes : A -> option bs) ser (q : mrequest A) m max ob rest,
  gzip_lossless X -> (cProxy (qCtx q) = true -> cOriginal (qCtx q) = None) ->
  NoDup (akeys (qAttach q)) -> (qID q < 2 ^ 64)%N ->
  one_line (qService q) -> one_line (qMethod q) -> one_line (qDesc q) ->
  (qDesc q = [] -> aget bs_eqb (qAttach q) (s2b "M_md") = None) ->
  (forall n, num_sent ser (qCtx q) n -> (0 <= n <= 31)%Z) ->
  buf_reusable ob -> sizes_ok max m ->
  convertToReqMessage X asBytes ser q = inl m ->
  exists m' r b, decodeMsg max (bytesOf (encodeMsg ob m) ++ rest) = DecOk m' rest /\
    convertToRequest X true m' = inl r /\ args_bytes asBytes ser q b /\
    (aget bs_eqb (qAttach q) (s2b "M_rid") = None -> rqID r = qID q) /\
    (forall s, aget bs_eqb (qAttach q) (s2b "M_rid") = Some s -> encodable (s2b "M_rid", s) = true ->
       rqID r = toUnsigned 64 (fst (parseInt64 s))) /\
    rqService r = qService q /\ rqMethod r = qMethod q /\ rqDesc r = qDesc q /\
    rqBody r = match b with [] => None | _ => Some b end /\
    rqProxy r = cProxy (qCtx q) /\ IsOneWay (mHeader (rqOriginal r)) = cOneway (qCtx q) /\
    (forall k v, In (k, v) (qAttach q) -> encodable (k, v) = true -> ~ In k req_reserved ->
       aget bs_eqb (rqAttach r) k = Some v) /\
    (forall k, aget bs_eqb (rqAttach r) k <> None ->
       In k (akeys (qAttach q)) \/ In k (s2b "M_rid" :: req_reserved)).
Proof. intros A. exact request_over_wire. Qed.
Print Assumptions C10_request.

(* C10, responses *)
Theorem C10_response : forall A (X : ext) (asBytes : A -> option bs) ser (p : mresponse A) m max ob rest,
  gzip_lossless X -> (forall e, pExc p = Some e -> json_lossless X e) -> (cProxy (pCtx p) = true -> cOriginal (pCtx p) = None) ->
  NoDup (akeys (pAttach p)) -> (pID p < 2 ^ 64)%N ->
  (forall s, ser = Some s -> (0 <= s_num s <= 31)%Z) -> (0 <= cSerNum (pCtx p) <= 31)%Z ->
  buf_reusable ob -> sizes_ok max m ->
  convertToResMessage X asBytes ser p = inl m ->
  exists m' r, decodeMsg max (bytesOf (encodeMsg ob m) ++ rest) = DecOk m' rest /\
    convertToResponse X true m' = inl r /\
    rpID r = pID p /\ rpExc r = pExc p /\ rpProxy r = cProxy (pCtx p) /\ isRequest (mHeader m') = false /\
    (pExc p = None -> match pValue p with
                      | None => rpBody r = None
                      | Some v => exists b, res_bytes asBytes ser (pCtx p) v b /\ rpBody r = match b with [] => None | _ => Some b end
                      end) /\
    (forall k v, In (k, v) (pAttach p) -> encodable (k, v) = true -> (k <> s2b "M_e" \/ pExc p = None) ->
       aget bs_eqb (rpAttach r) k = Some v) /\
    (forall k, aget bs_eqb (rpAttach r) k <> None -> In k (akeys (pAttach p)) \/ k = s2b "M_e").
Proof. intros A. exact response_over_wire. Qed.
Print Assumptions C10_response.

(* the processing time of a response is the number in the attachment M_pt; a request says which protocol it is to be sent
   on with, motan2 unless it says otherwise itself *)
Theorem C10_process_time : forall X has m r, convertToResponse X has m = inl r ->
  forall z, parseInt64 (loadOrEmpty (mMeta m) (s2b "M_pt")) = (z, NumOk) -> rpTime r = z.
Proof.
  intros X has m r H z P. unfold convertToResponse in H. cbv zeta in H. change MProcessTime with (s2b "M_pt") in H. unfold loadOrEmpty in P.
  destruct (aget bs_eqb (mMeta m) (s2b "M_pt")) as [v|].
  - destruct (if _ && _ then _ else _) as [b|e]; [|discriminate H]. destruct (if N.eqb _ 1 then _ else _) as [x|e]; [|discriminate H]. injection H as <-. cbn [rpTime]. rewrite P. reflexivity.
  - vm_compute in P. discriminate P.
Qed.
Print Assumptions C10_process_time.
Theorem C10_proxy_protocol : forall A (X : ext) (asBytes : A -> option bs) ser (q : mrequest A) m,
  gzip_lossless X -> (cProxy (qCtx q) = true -> cOriginal (qCtx q) = None) -> convertToReqMessage X asBytes ser q = inl m ->
  loadOrEmpty (mMeta m) (s2b "M_pp") = match loadOrEmpty (qAttach q) (s2b "M_pp") with [] => s2b "motan2" | x => x end.
Proof. intros A. exact proxy_protocol_sent. Qed.
Print Assumptions C10_proxy_protocol.
(* a proxied request carries its id in the attachments as a decimal that parses back to it, over all 64-bit ids *)
Theorem C10_proxy_id : forall X m r,
  IsProxy (mHeader m) = true -> aget bs_eqb (mMeta m) (s2b "M_rid") = None -> (hReqID (mHeader m) < 2 ^ 64)%N ->
  convertToRequest X true m = inl r ->
  rqID r = hReqID (mHeader m) /\
  toUnsigned 64 (fst (parseInt64 (loadOrEmpty (rqAttach r) (s2b "M_rid")))) = hReqID (mHeader m).
Proof. exact proxy_id_carried. Qed.
Print Assumptions C10_proxy_id.

Theorem C10_exception_response : forall rid msg,
  exists m, buildExceptionResponse rid msg = Some m /\
    view (mHeader m) = mkView false false false false false 1 1 6 rid /\ mMeta m = [(s2b "M_e", msg)] /\ mBody m = [].
Proof. exact exception_response_ok. Qed.
Print Assumptions C10_exception_response.

Theorem C10_heartbeat : forall isReq rid,
  let m := buildHeartbeat isReq rid in
  view (mHeader m) = mkView true false false true isReq 1 0 6 rid /\ mMeta m = [] /\ mBody m = [].
Proof. exact heartbeat_ok. Qed.
Print Assumptions C10_heartbeat.

(* a response carrying both a value and an exception loses its value *)
Definition ex_X : ext := mkExt (fun b => Some (x1f :: b)) (fun z => match z with _ :: b => Some b | [] => None end)
  (fun e => x7b :: fmtZ (eCode e)) (fun s => match s with _ :: t => Some (Some (mkExc (fst (parseInt64 t)) [] 0)) | [] => None end).
Definition ex_ctx := mkCtx false false 2 false 0 None.
Definition ex_ser : serialization bs := mkSer bs 6 (fun b => Some b) (fun l => Some (concat l)).
Theorem C10_value_with_exception_refuted :
  ~ (forall A (X : ext) (asBytes : A -> option bs) ser (p : mresponse A) m r v b,
       convertToResMessage X asBytes ser p = inl m -> convertToResponse X true (received m) = inl r ->
       pValue p = Some v -> res_bytes asBytes ser (pCtx p) v b -> b <> [] -> rpBody r = Some b).
Proof.
  intro H.
  specialize (H bs ex_X (fun b => Some b) (Some ex_ser) (mkRes bs 1 (Some (s2b "v")) (Some (mkExc 500 [] 0)) [] ex_ctx)).
  specialize (H _ _ (s2b "v") (s2b "v") eq_refl eq_refl eq_refl).
  assert (C : rpBody (mkRRes 1 None (Some (mkExc 500 [] 0)) 0 [(s2b "M_e", x7b :: s2b "500")] false) = Some (s2b "v")).
  { apply H; [|discriminate]. right. split; [reflexivity|]. exists ex_ser. split; reflexivity. }
  discriminate.
Qed.
Print Assumptions C10_value_with_exception_refuted.

Definition ex_q : mrequest bs := mkReq bs 5 (s2b "svc") (s2b "m") [] [s2b "abc"; s2b "de"] [(s2b "user", s2b "u1"); (s2b "M_pp", s2b "grpc")] ex_ctx.
Example C10_request_satisfiable :
  gzip_lossless ex_X /\ NoDup (akeys (qAttach ex_q)) /\ one_line (qService ex_q) /\
  exists m, convertToReqMessage ex_X (fun b => Some b) (Some ex_ser) ex_q = inl m /\ sizes_ok 1000 m /\ IsGzip (mHeader m) = true.
Proof.
  split; [intros b z H; injection H as <-; split; [discriminate|reflexivity]|].
  split; [repeat constructor; cbn; intuition discriminate|].
  split; [intro H; cbn in H; intuition discriminate|].
  eexists. split; [reflexivity|]. split; [|reflexivity]. vm_compute. repeat split; discriminate.
Qed.

Definition ex_p : mresponse bs := mkRes bs 5 None (Some (mkExc 503 [] 0)) [(s2b "host", s2b "h1")] ex_ctx.
Example C10_response_satisfiable :
  (forall e, pExc ex_p = Some e -> json_lossless ex_X e) /\
  exists m, convertToResMessage ex_X (fun b => Some b) (Some ex_ser) ex_p = inl m /\ sizes_ok 1000 m /\ GetStatus (mHeader m) = 1%N.
Proof.
  split.
  - intros e H. injection H as <-. split; [vm_compute; reflexivity|]. split; [discriminate|].
    intro H. vm_compute in H. intuition discriminate.
  - eexists. split; [reflexivity|]. split; [|reflexivity]. vm_compute. repeat split; discriminate.
Qed.

(* ------------------------------------------------------------ C54: an agent forwards what it received *)

(* A request received as [m] (compressed or not) is kept uncompressed, and sent on with the same argument bytes,
   the same header up to the gzip flag and the proxy mark, and the request's current attachments (the map is shared
   with the received message), the group being the requested one. *)
Theorem C54_forward_request : forall A (X : ext) (asBytes : A -> option bs) ser m r (q : mrequest A) b,
  gzip_lossless X -> plain_body X m b -> convertToRequest X true m = inl r ->
  cProxy (qCtx q) = true -> cOriginal (qCtx q) = Some (mkMsg (mHeader (rqOriginal r)) (qAttach q) (mBody (rqOriginal r))) ->
  exists m2, convertToReqMessage X asBytes ser q = inl m2 /\ plain_body X m2 b /\
    (exists g, view (mHeader m2) = spec_hop (spec_hop (view (mHeader m)) (OpGzip g)) (OpProxy true)) /\
    (forall k, aget bs_eqb (mMeta m2) k =
       if bs_eqb k (s2b "M_g") then Some (loadOrEmpty (qAttach q) (s2b "M_g")) else aget bs_eqb (qAttach q) k).
Proof. intros A. exact forward_request. Qed.
Print Assumptions C54_forward_request.

Theorem C54_original_uncompressed : forall X m r b,
  plain_body X m b -> convertToRequest X true m = inl r ->
  mBody (rqOriginal r) = b /\ IsGzip (mHeader (rqOriginal r)) = false.
Proof. intros X m r b H1 H2. destruct (original_plain X m r b H1 H2) as (A & B & _). split; assumption. Qed.
Print Assumptions C54_original_uncompressed.

(* A response received by the agent goes back with the same metadata, body and header, marked as proxied. *)
Theorem C54_forward_response : forall A (X : ext) (asBytes : A -> option bs) ser o (p : mresponse A),
  cProxy (pCtx p) = true -> cOriginal (pCtx p) = Some o ->
  exists m2, convertToResMessage X asBytes ser p = inl m2 /\ mMeta m2 = mMeta o /\ mBody m2 = mBody o /\
    view (mHeader m2) = spec_hop (view (mHeader o)) (OpProxy true).
Proof. intros A. exact forward_response. Qed.
Print Assumptions C54_forward_response.

Example C54_example :
  let m := mkMsg (SetGzip true (BuildHeader true false 6 5 0)) [(s2b "M_p", s2b "svc")] [x1f; x61; x62] in
  plain_body ex_X m [x61; x62] /\ exists r, convertToRequest ex_X true m = inl r /\ rqBody r = Some [x61; x62].
Proof. cbn zeta. split; [right; repeat split; discriminate|]. eexists. split; reflexivity. Qed.
