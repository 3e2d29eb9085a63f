(* RelaySpec.v: what a call through the agent should be, for C113. *)
From Verif Require Import Base BytesModel BytesSpec Strconv ProtoModel ProtoSpec ConvModel ConvSpec SimpleModel SimpleSpec UrlModel UrlSpec
  ServerModel ServerSpec ProvModel ProvSpec RelayModel.
From Verif Require AgentModel AgentSpec.

(* an agent: its server is a proxy, and it shares gzip and json with its clients *)
Definition is_agent (c : gclient) (ag : gagent) : Prop := s_proxy (ag_cfg ag) = true /\ s_ext (ag_cfg ag) = c_ext c.

(* the value of a key as the next hop sees it: empty values and values with a newline are not sent *)
Definition sent_value (k v : bs) : bs := if encodable (k, v) then v else [].

(* the request as the agent's handler is given it, for the message a client sent *)
Definition at_agent (ag : gagent) (ip : bs) (m : message) : rrequest + cerr :=
  convertToRequest (s_ext (ag_cfg ag)) true
    (mkMsg (SetProxy true (mHeader (received m))) (aset bs_eqb (mMeta (received m)) (s2b "host") ip) (mBody (received m))).
(* the request as the handler of the server behind the agent is given it *)
Definition at_server (g : gserver) (ip : bs) (m : message) : rrequest + cerr :=
  convertToRequest (s_ext (g_cfg g)) true
    (mkMsg (SetProxy false (mHeader (received m))) (aset bs_eqb (mMeta (received m)) (s2b "host") ip) (mBody (received m))).

(* the message, what the agent makes of it, the server's answer and what the agent makes of that are not larger than the
   receivers accept *)
Definition relay_fits (c : gclient) (ag : gagent) (k : nat) (g : gserver) (ip : bs) (pt : Z) (sid : N) (ip2 : bs) (pt2 : Z) (sid2 : N)
    (q : mrequest value) : Prop :=
  forall m, sendRequest c sid q = inl m ->
    sizes_ok (s_max (ag_cfg ag)) m /\
    (forall rq m2, at_agent ag ip m = inl rq -> agentMessage ag k sid2 rq = inl m2 ->
       sizes_ok (s_max (g_cfg g)) m2 /\
       forall r, processV2 (g_cfg g) ip2 pt2 (gHandler g) (received m2) = Write r -> sizes_ok (ag_max ag) r) /\
    (forall w, processV2 (ag_cfg ag) ip pt (agentHandler ag (serve g ip2 pt2) sid2 pt) (received m) = Write w -> sizes_ok (c_max c) w).

(* the agent sends the request on through cluster k *)
Definition relayed_by (c : gclient) (ag : gagent) (ip : bs) (sid : N) (q : mrequest value) (k : nat) : Prop :=
  forall m rq, sendRequest c sid q = inl m -> at_agent ag ip m = inl rq ->
    AgentModel.route (ag_map ag) (ag_http ag) (rqService rq) (rqAttach rq) = AgentModel.ToCluster k.
