(* RelayModel.v: a call through the agent: the client's request reaches the agent's server (server/motanserver.go 210-310 with
   proxy set), whose handler (agent.go 729-738, 828-877, 1109-1111) sends the message on through an endpoint
   (endpoint/motanCommonEndpoint.go 148-217, 420-484, 519-567) to a server and answers with the message that comes back.
   Simplifications: the cluster has one endpoint that is asked once, and its filters pass everything on (retries are HaModel.v, filters
   FilterModel.v, which cluster a request finds is AgentModel.v); the http clusters and what they do are a parameter. *)
From Verif Require Import Base BytesModel Strconv ProtoModel ConvModel SimpleModel UrlModel ServerModel ProvModel.
From Verif Require AgentModel EpModel.

(* the agent: the settings of its server, its tables, the references of its clusters, the endpoint behind each of them, the text of
   a channel's errors, what http clusters answer, and host:port of an endpoint (net.JoinHostPort) *)
Record gagent := mkAg { ag_cfg : scfg value; ag_map : AgentModel.smap; ag_http : list (bs * nat); ag_ref : nat -> url; ag_ep : nat -> url;
                        ag_gzip : nat -> Z; ag_max : N; ag_chan : bs; ag_httpCall : nat -> rrequest -> hret (mresponse value); ag_addr : url -> bs }.

(* agent.go 845-877: the texts of the errors of findCluster *)
Definition whyText (w : AgentModel.why) (service : bs) (a : list (bs * bs)) : bs :=
  match w with
  | AgentModel.EmptyService => s2b "empty service is not supported. service: " ++ service
  | AgentModel.UnknownService => s2b "cluster not found. service: " ++ service
  | AgentModel.EmptyGroup => s2b "multiple clusters are matched with service: " ++ service ++ s2b ", but the group is empty"
  | AgentModel.NoMatch => s2b "no cluster matches the request; info: {service: " ++ service ++ s2b ", group: " ++ loadOrEmpty a (s2b "M_g") ++
      s2b ", protocol: " ++ loadOrEmpty a (s2b "M_pp") ++ s2b ", version: " ++ loadOrEmpty a (s2b "M_v") ++ s2b "}"
  end.

(* agent.go 1109-1111 getDefaultResponse, motanCommonEndpoint.go 342-348 defaultErrMotanResponse *)
Definition exc400 (rid : N) (msg : bs) : mresponse value := excResponse rid (mkExc 400 msg 1).

(* agent.go 731, motanCommonEndpoint.go 150-151, 175, 420-484: the defaults are filled in, the group fitted to the endpoint, and the
   client's message, whose metadata are the request's attachments, is sent on under the stream's number *)
Definition agentMessage (ag : gagent) (c : nat) (sid : N) (rq : rrequest) : message + cerr :=
  let a := EpModel.fitGroup (ag_ep ag c) false (AgentModel.fillDefault false (ag_ref ag c) (rqAttach rq)) in
  let o := rqOriginal rq in
  match convertToReqMessage (s_ext (ag_cfg ag)) (s_asBytes (ag_cfg ag)) (Some simpleSer)
          (mkReq value (rqID rq) (rqService rq) (rqMethod rq) (rqDesc rq) [] a
                 (mkCtx (IsOneWay (mHeader o)) true (ag_gzip ag c) false 0 (Some (mkMsg (mHeader o) a (mBody o))))) with
  | inl m => inl (withID m sid)
  | inr e => inr e
  end.

(* motanProtocol.go 765-804 as in ConvModel.convertToResponse, with what it leaves in the message: the body of a normal answer is
   decompressed *)
Definition afterConversion (X : ext) (m : message) : message :=
  if N.eqb (GetStatus (mHeader m)) 0 && (0 <? length (mBody m)) && IsGzip (mHeader m)
  then mkMsg (SetGzip false (mHeader m)) (mMeta m) (decodeGzipBody X (mBody m)) else m.

(* what is stored in a response's attachments on the way back: the server's address (agent.go 839-841, core/motan.go 970-972; [addr])
   and the time the call took if the answer has none (motanserver.go 263-265; [pt]) *)
Definition stored (pt : Z) (addr : bs) (a : list (bs * bs)) : list (bs * bs) :=
  let a1 := if bs_empty addr then a else aset bs_eqb a (s2b "x-forwarded-for") addr in
  if bs_empty (loadOrEmpty a1 MProcessTime) then aset bs_eqb a1 MProcessTime (fmtZ pt) else a1.

(* motanCommonEndpoint.go 519-567 Stream.notify: the response of a stream whose endpoint is a proxy.  The response's attachments are
   the message's metadata, so what is stored in the one is stored in the other. *)
Definition agentResponse (X : ext) (rid : N) (pt : Z) (addr : bs) (r : message) : mresponse value :=
  let m := withID (mkMsg (SetProxy true (mHeader r)) (mMeta r) (mBody r)) rid in
  match convertToResponse X true m with
  | inr _ => mkRes _ rid None (Some (mkExc 1004 (s2b "convert response fail") 1)) (stored pt addr []) ctx0
  | inl s => let o := afterConversion X m in
             mkRes _ (rpID s) None (rpExc s) (stored pt addr (mMeta o))
                   (mkCtx false true 0 false 0 (Some (mkMsg (mHeader o) (stored pt addr (mMeta o)) (mBody o))))
  end.

(* agent.go 828-843 Call, 729-738 clusterCall; [send]: what comes back from the server for the bytes sent, if anything in time *)
Definition agentHandler (ag : gagent) (send : bs -> option bs) (sid : N) (pt : Z) (rq : rrequest) : hret (mresponse value) :=
  match AgentModel.route (ag_map ag) (ag_http ag) (rqService rq) (rqAttach rq) with
  | AgentModel.Refused w => HRes (exc400 (rqID rq) (s2b "cluster not found. cluster: " ++ whyText w (rqService rq) (rqAttach rq)))
  | AgentModel.ToHttp h => ag_httpCall ag h rq
  | AgentModel.ToCluster c =>
      let addr := ag_addr ag (ag_ep ag c) in
      let failed := mkRes value (rqID rq) None (Some (mkExc 400 (s2b "channel call error:" ++ ag_chan ag) 1)) (stored pt addr []) ctx0 in
      match agentMessage ag c sid rq with
      | inr _ => HRes failed
      | inl m =>
          match send (concat (getEncodedBytes None m)) with
          | None => HRes failed
          | Some b =>
              match decodeMsg (ag_max ag) b with
              | DecErr _ _ => HRes failed
              | DecOk r _ => HRes (agentResponse (s_ext (ag_cfg ag)) (rqID rq) pt addr r)
              end
          end
      end
  end.

(* the server behind the agent: the bytes it writes for the bytes of one message *)
Definition serve (g : gserver) (ip : bs) (pt : Z) (b : bs) : option bs :=
  match readOne (s_max (g_cfg g)) b with
  | RGot (J2 m) _ => match processV2 (g_cfg g) ip pt (gHandler g) m with
                     | Write r => Some (concat (getEncodedBytes None r))
                     | CloseConn | Silent => None
                     end
  | _ => None
  end.

(* one call through the agent, as ProvModel.roundTrip is one without: [ip], [pt], [sid] at the agent's server, [ip2], [pt2], [sid2]
   at the server behind it *)
Definition relayTrip (c : gclient) (ag : gagent) (g : gserver) (ip : bs) (pt : Z) (sid : N) (ip2 : bs) (pt2 : Z) (sid2 : N) (reply : target)
    (q : mrequest value) : outcome :=
  match sendRequest c sid q with
  | inr _ => Error (s2b "convert motan request fail!")
  | inl m =>
      match readOne (s_max (ag_cfg ag)) (concat (getEncodedBytes None m)) with
      | RGot (J2 m') _ =>
          match processV2 (ag_cfg ag) ip pt (agentHandler ag (serve g ip2 pt2) sid2 pt) m' with
          | Write r => readAnswer c (qID q) reply (concat (getEncodedBytes None r))
          | CloseConn | Silent => Lost
          end
      | _ => Lost
      end
  end.
