(* HrModel.v: an http request handled by the agent's http proxy as an RPC (server/httpProxyServer.go 303-355), through the cluster of
   the domain (cluster/httpCluster.go 193-199) and a proxying endpoint (endpoint/motanCommonEndpoint.go 148-217, 420-484, 519-567),
   to a server whose provider sends it on to an http upstream (provider/httpProvider.go 249-309, 459-476).
   Simplifications: the cluster has one endpoint that is asked once, and its filters pass everything on (retries are HaModel.v, filters
   FilterModel.v); the header of the http request as written by fasthttp is a byte string. *)
From Verif Require Import Base BytesModel Strconv GoStrings GoStrings2 ProtoModel ConvModel SimpleModel UrlModel ServerModel ProvModel HttpModel HttpSpec.
From Verif Require EpModel WebModel HprovModel.

(* the agent's side: json and gzip, the largest answer accepted, the url of the domain's cluster, the endpoint's url and gzip size,
   the texts of decoding errors and of the channel's errors *)
Record hagent := mkHa { ha_ext : ConvModel.ext; ha_max : N; ha_cluster : url; ha_ep : url; ha_gzip : Z; ha_etext : derr -> bs; ha_chan : bs }.

(* httpProxyServer.go 304-320: the request made from an http request; httpCluster.go 195-197: its source; 153-175 and
   motanCommonEndpoint.go 205-217: the group of the endpoint; 150-151: the context of a proxying endpoint *)
Definition proxyRequest (a : hagent) (service path header body : bs) : mrequest value :=
  let att := aset bs_eqb (aset bs_eqb [] (s2b "HTTP_PROXY") (s2b "true")) (s2b "M_p") service in
  let att := if bs_empty (loadOrEmpty att (s2b "M_s")) then aset bs_eqb att (s2b "M_s") (getParam (ha_cluster a) (s2b "application") []) else att in
  mkReq _ 0 service path [] [VBytes header; VBytes body] (EpModel.fitGroup (ha_ep a) false att)
        (mkCtx false true (ha_gzip a) false 0 None).

(* motanCommonEndpoint.go 420-484: the message sent, under the stream's number *)
Definition proxyMessage (a : hagent) (sid : N) (q : mrequest value) : message + cerr :=
  match convertToReqMessage (ha_ext a) (fun v => match v with VBytes b => Some b | _ => None end) (Some simpleSer) q with
  | inl m => inl (withID m sid)
  | inr e => inr e
  end.

(* ------------------------------------------------------------ the server *)

(* what the http provider uses of the world, see HprovModel.v *)
Record hworld := mkHw { w_spf : bs -> bs -> bs; w_ord : HprovModel.strmap -> HprovModel.strmap; w_newReq : bs -> bs -> option bs;
  w_do : HprovModel.sent -> HprovModel.wres; w_xff : bs -> bool; w_raw : Z -> HprovModel.strmap -> bs; w_query : HprovModel.sent -> bs; w_qget : bs -> bs -> bs }.
(* the server: its settings, its provider table, the http provider and gzip size behind each entry, what the arguments of requests
   that are not proxied decode to, what framework providers answer, and the texts of decoding errors *)
Record hserver := mkHs { hs_cfg : scfg value; hs_table : ptable; hs_prov : nat -> HprovModel.hprov; hs_gzip : nat -> Z;
  hs_args : rrequest -> HprovModel.deser (list harg); hs_fw : rrequest -> hret (mresponse value); hs_etext : derr -> bs; hs_world : hworld }.

(* httpProvider.go 252-258: the two byte slices the arguments are decoded into; a value that is no []byte leaves its slice nil *)
Definition sliceOf (v : value) : bs := match assigned TPBytes v with Some (VBytes b) => b | _ => [] end.
Definition pairOf (etext : derr -> bs) (q : rrequest) : option (HprovModel.deser (bs * bs)) :=
  match rqBody q with
  | None => Some (HprovModel.DOk ([], []))
  | Some b => match fst (deserializeMulti b (Some [TPBytes; TPBytes])) with
              | DOk (h :: b :: _) => Some (HprovModel.DOk (sliceOf h, sliceOf b))
              | DOk _ => Some (HprovModel.DOk ([], []))
              | DErr e => Some (HprovModel.DErr (etext e))
              | DPanic | DFuel => None
              end
  end.
(* the response as the server sees it: httpProvider.go 306, 351, 449 *)
Definition asValue (v : HprovModel.hval) : option value :=
  match v with
  | HprovModel.HvNone => None
  | HprovModel.HvStr s => Some (VStr s)
  | HprovModel.HvBytes b => Some (VBytes b)
  | HprovModel.HvPair h b => Some (VArr [VBytes h; VBytes b])
  end.
Definition asResponse (r : HprovModel.hresp) : mresponse value :=
  mkRes _ (HprovModel.a_id r) (asValue (HprovModel.a_val r))
        (match HprovModel.a_exc r with Some (code, msg, ty) => Some (mkExc code msg ty) | None => None end)
        (HprovModel.a_att r) ctx0.
(* httpProvider.go 459-476 Call: the http requests made, and the response *)
Definition providerCall (g : hserver) (k : nat) (q : rrequest) : list HprovModel.sent * hret (mresponse value) :=
  let w := hs_world g in
  match pairOf (hs_etext g) q with
  | None => ([], HPanic)
  | Some pr =>
      let '(s, r) := HprovModel.httpCall (w_spf w) (w_ord w) (w_newReq w) (w_do w) (w_xff w) (w_raw w) (w_query w) (w_qget w) (hs_prov g k)
                       (HprovModel.mkMreq (rqID q) (rqMethod q) (rqAttach q) (hs_args g q) pr) in
      (s, match r with Some r => HRes (withGzip (hs_gzip g k) (asResponse r)) | None => HPanic end)
  end.
(* server.go 209-229: the handler over http providers, and the http requests made while it runs *)
Definition hRun (g : hserver) (q : rrequest) (c : callee) : hret (mresponse value) :=
  match c with Prov p => snd (providerCall g (v_id p) q) | Framework _ => hs_fw g q end.
Definition hAnswer (g : hserver) (q : rrequest) : dans (mresponse value) * list callee :=
  handlerCall (hs_table g) (mkDreq (rqID q) (rqService q) (rqAttach q)) (hRun g q).
Definition hHandler (g : hserver) (q : rrequest) : hret (mresponse value) :=
  match fst (hAnswer g q) with
  | FromProvider r => HRes r
  | ExcAnswer rid e => HRes (excResponse rid e)
  | DNil => HNil
  end.
Definition hSent (g : hserver) (q : rrequest) : list HprovModel.sent :=
  flat_map (fun c => match c with Prov p => fst (providerCall g (v_id p) q) | Framework _ => [] end) (snd (hAnswer g q)).
(* motanserver.go 210-250: the request the handler is given for a message, and what is sent upstream for it *)
Definition hRequest (g : hserver) (ip : bs) (m : message) : rrequest + cerr :=
  convertToRequest (s_ext (hs_cfg g)) (match s_ser (hs_cfg g) (GetSerialize (mHeader m)) with Some _ => true | None => false end)
    (mkMsg (SetProxy (s_proxy (hs_cfg g)) (mHeader m)) (aset bs_eqb (mMeta m) (s2b "host") ip) (mBody m)).
Definition hSentFor (g : hserver) (ip : bs) (m : message) : list HprovModel.sent :=
  if IsHeartbeat (mHeader m) then [] else match hRequest g ip m with inl q => hSent g q | inr _ => [] end.

(* ------------------------------------------------------------ the answer *)

(* httpProxyServer.go 349-354: what the type assertions see of an element of the reply *)
Definition partOf (v : value) : WebModel.part :=
  match v with VNull => WebModel.PNil | VBytes b => WebModel.PBytes b | _ => WebModel.POther end.
(* motanCommonEndpoint.go 519-567 Stream.notify, httpProxyServer.go 328-348: the response of a call; a response without a value
   leaves the reply empty *)
Definition readReply (a : hagent) (b : bs) : WebModel.callres :=
  match decodeMsg (ha_max a) b with
  | DecErr _ _ => WebModel.CExc 400 (s2b "channel call error:" ++ ha_chan a)
  | DecOk m _ =>
      match convertToResponse (ha_ext a) true (withID (mkMsg (SetProxy true (mHeader m)) (mMeta m) (mBody m)) 0) with
      | inr _ => WebModel.CExc 1004 (s2b "convert response fail")
      | inl s =>
          match rpExc s with
          | Some e => WebModel.CExc (eCode e) (eMsg e)
          | None =>
              match rpBody s with
              | None => WebModel.CReply []
              | Some b => match fst (deserialize b TPArr) with
                          | DOk v => WebModel.CReply (match assigned TPArr v with Some (VArr l) => map partOf l | _ => [] end)
                          | DErr e => WebModel.CBad (ha_etext a e)
                          | DPanic | DFuel => WebModel.CNil
                          end
              end
          end
      end
  end.

(* One http request: what is sent to the upstream, and what the http proxy does.  [ip]: the agent's address as the server sees it;
   [pt]: the time the handler took; [sid]: the stream's number. *)
Definition httpOverRpc (a : hagent) (g : hserver) (ip : bs) (pt : Z) (sid : N) (service path header body : bs) : list HprovModel.sent * WebModel.webres :=
  let lost := WebModel.CExc 400 (s2b "channel call error:" ++ ha_chan a) in
  match proxyMessage a sid (proxyRequest a service path header body) with
  | inr _ => ([], WebModel.rpcProxyResult lost)
  | inl m =>
      match readOne (s_max (hs_cfg g)) (concat (getEncodedBytes None m)) with
      | RGot (J2 m') _ =>
          (hSentFor g ip m',
           WebModel.rpcProxyResult (match processV2 (hs_cfg g) ip pt (hHandler g) m' with
                                    | Write r => readReply a (concat (getEncodedBytes None r))
                                    | CloseConn | Silent => lost
                                    end))
      | _ => ([], WebModel.rpcProxyResult lost)
      end
  end.
