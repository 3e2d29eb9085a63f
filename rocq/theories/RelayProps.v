(* RelayProps.v: C113, a call through the agent gives the result a direct call would. *)
From Verif Require Import Base BytesModel BytesSpec Strconv GoStrings ProtoModel ProtoSpec ConvModel ConvSpec SimpleModel SimpleSpec UrlModel UrlSpec
  ServerModel ServerSpec ProvModel ProvSpec RelayModel RelaySpec ServerProofs ProvProofs RelayProofs.
From Verif Require AgentModel AgentSpec.

(* The caller sees what the specification of calling the method says, a value or an error, as without the agent. *)
Theorem C113_same_result : forall c ag k g ip pt sid ip2 pt2 sid2 reply q p,
  plain_server c g -> is_agent c ag -> ordinary q -> args_ok (qArgs q) -> (sid < 2 ^ 64)%N -> (sid2 < 2 ^ 64)%N ->
  relay_fits c ag k g ip pt sid ip2 pt2 sid2 q -> relayed_by c ag ip sid q k ->
  aget bs_eqb (g_table g) (qService q) = Some p -> results_ok (g_impl g (v_id p)) (qArgs q) ->
  let r := spec_method (g_impl g (v_id p)) (firstUpper (g_uni g) (qMethod q)) (qMethod q) (qArgs q) reply (g_etext g (DBuf ErrEOF))
             (s_errText (g_cfg g) CErrSerialize) in
  (forall e, r = Fails e -> json_lossless (c_ext c) e) ->
  relayTrip c ag g ip pt sid ip2 pt2 sid2 reply q = seen reply r.
Proof. exact relay_call. Qed.
Print Assumptions C113_same_result.

(* The agent is transparent: the outcome is that of the same request sent to the server directly. *)
Theorem C113_as_direct : forall c ag k g ip pt sid ip2 pt2 sid2 ip3 pt3 sid3 reply q,
  plain_server c g -> is_agent c ag -> ordinary q -> args_ok (qArgs q) -> (sid < 2 ^ 64)%N -> (sid2 < 2 ^ 64)%N -> (sid3 < 2 ^ 64)%N ->
  relay_fits c ag k g ip pt sid ip2 pt2 sid2 q -> sizes_fit c g ip3 pt3 sid3 q -> relayed_by c ag ip sid q k ->
  (forall p, aget bs_eqb (g_table g) (qService q) = Some p -> results_ok (g_impl g (v_id p)) (qArgs q)) ->
  (forall p e, aget bs_eqb (g_table g) (qService q) = Some p ->
     spec_method (g_impl g (v_id p)) (firstUpper (g_uni g) (qMethod q)) (qMethod q) (qArgs q) reply (g_etext g (DBuf ErrEOF))
       (s_errText (g_cfg g) CErrSerialize) = Fails e -> json_lossless (c_ext c) e) ->
  json_lossless (c_ext c) (mkExc 404 (s2b "provider not exist serviceKey=" ++ qService q) 1) ->
  relayTrip c ag g ip pt sid ip2 pt2 sid2 reply q = roundTrip c g ip3 pt3 sid3 reply q.
Proof.
  intros c ag k g ip pt sid ip2 pt2 sid2 ip3 pt3 sid3 reply q Hps Hag Ho Ha H1 H2 H3 Hf1 Hf2 Hr Hres Hj Hj2.
  destruct (aget bs_eqb (g_table g) (qService q)) as [p|] eqn:Hp.
  - rewrite (relay_call c ag k g ip pt sid ip2 pt2 sid2 reply q p) by (auto || (intros; eapply Hj; eauto)).
    symmetry. apply every_call; auto. intros e E. exact (Hj p e eq_refl E).
  - rewrite (relay_not_served c ag k g ip pt sid ip2 pt2 sid2 reply q) by auto. symmetry. apply not_served; auto.
Qed.
Print Assumptions C113_as_direct.

(* A service the server behind the agent does not export is reported as it would be without the agent. *)
Theorem C113_not_exported : forall c ag k g ip pt sid ip2 pt2 sid2 reply q,
  plain_server c g -> is_agent c ag -> ordinary q -> args_ok (qArgs q) -> (sid < 2 ^ 64)%N -> (sid2 < 2 ^ 64)%N ->
  relay_fits c ag k g ip pt sid ip2 pt2 sid2 q -> relayed_by c ag ip sid q k -> aget bs_eqb (g_table g) (qService q) = None ->
  json_lossless (c_ext c) (mkExc 404 (s2b "provider not exist serviceKey=" ++ qService q) 1) ->
  relayTrip c ag g ip pt sid ip2 pt2 sid2 reply q = Error (s2b "provider not exist serviceKey=" ++ qService q).
Proof. exact relay_not_served. Qed.
Print Assumptions C113_not_exported.

(* What the server's handler is given: the caller's request id, service, method, arguments and attachments, with the agent as the
   host, and the group of the endpoint, or of the request, or of the reference. *)
Theorem C113_request_seen : forall c ag k g ip sid ip2 sid2 q,
  plain_server c g -> is_agent c ag -> ordinary q -> args_ok (qArgs q) -> (sid < 2 ^ 64)%N ->
  exists m rq m2 rs, sendRequest c sid q = inl m /\ at_agent ag ip m = inl rq /\ agentMessage ag k sid2 rq = inl m2 /\ at_server g ip2 m2 = inl rs /\
    rqID rs = sid /\ rqService rs = qService q /\ rqMethod rs = qMethod q /\
    rqBody rs = (match qArgs q with [] => None | a => Some (concat (map wire a)) end) /\
    loadOrEmpty (rqAttach rs) (s2b "host") = ip2 /\
    (let asked := sent_value (s2b "M_g") (loadOrEmpty (qAttach q) (s2b "M_g")) in
     asked <> [] \/ uGroup (ag_ref ag k) <> [] ->
     loadOrEmpty (rqAttach rs) (s2b "M_g") =
       sent_value (s2b "M_g") (match uGroup (ag_ep ag k) with [] => match asked with [] => uGroup (ag_ref ag k) | _ => asked end | own => own end)) /\
    (forall key, ~ In key [s2b "host"; s2b "M_rid"; s2b "M_p"; s2b "M_m"; s2b "M_pp"; s2b "M_g"; s2b "M_s"] ->
       loadOrEmpty (rqAttach rs) key = sent_value key (loadOrEmpty (qAttach q) key)).
Proof. exact seen_at_server. Qed.
Print Assumptions C113_request_seen.

(* What the agent answers with: under the caller's id, with the status and the attachments of the server's answer, and the address
   of the server that gave it. *)
Theorem C113_answer : forall c ag k g ip pt sid ip2 pt2 sid2 q m rq m2 b r2 rest s,
  gzip_lossless (c_ext c) -> is_agent c ag -> ordinary q -> args_ok (qArgs q) -> (sid < 2 ^ 64)%N ->
  sendRequest c sid q = inl m -> at_agent ag ip m = inl rq -> AgentModel.route (ag_map ag) (ag_http ag) (rqService rq) (rqAttach rq) = AgentModel.ToCluster k ->
  agentMessage ag k sid2 rq = inl m2 -> serve g ip2 pt2 (concat (getEncodedBytes None m2)) = Some b -> decodeMsg (ag_max ag) b = DecOk r2 rest ->
  convertToResponse (c_ext c) true r2 = inl s ->
  let addr := ag_addr ag (ag_ep ag k) in
  exists w, processV2 (ag_cfg ag) ip pt (agentHandler ag (serve g ip2 pt2) sid2 pt) (received m) = Write w /\
    hReqID (mHeader w) = sid /\ GetStatus (mHeader w) = GetStatus (mHeader r2) /\
    (addr <> [] -> loadOrEmpty (mMeta w) (s2b "x-forwarded-for") = addr) /\
    loadOrEmpty (mMeta w) (s2b "M_pt") = (match loadOrEmpty (mMeta r2) (s2b "M_pt") with [] => fmtZ pt | t => t end) /\
    (forall key, key <> s2b "x-forwarded-for" -> key <> s2b "M_pt" -> loadOrEmpty (mMeta w) key = loadOrEmpty (mMeta r2) key).
Proof. exact answer_kept. Qed.
Print Assumptions C113_answer.

(* A request no cluster takes is answered with an error that says why. *)
Theorem C113_refused : forall c ag k g ip pt sid ip2 pt2 sid2 reply q w m rq,
  plain_server c g -> is_agent c ag -> ordinary q -> args_ok (qArgs q) -> (sid < 2 ^ 64)%N -> relay_fits c ag k g ip pt sid ip2 pt2 sid2 q ->
  sendRequest c sid q = inl m -> at_agent ag ip m = inl rq ->
  AgentModel.route (ag_map ag) (ag_http ag) (rqService rq) (rqAttach rq) = AgentModel.Refused w ->
  let said := fun text => json_lossless (c_ext c) (mkExc 400 (s2b "cluster not found. cluster: " ++ text) 1) ->
                relayTrip c ag g ip pt sid ip2 pt2 sid2 reply q = Error (s2b "cluster not found. cluster: " ++ text) in
  (w = AgentModel.EmptyService -> said (s2b "empty service is not supported. service: " ++ qService q)) /\
  (w = AgentModel.UnknownService -> said (s2b "cluster not found. service: " ++ qService q)) /\
  (w = AgentModel.EmptyGroup -> said (s2b "multiple clusters are matched with service: " ++ qService q ++ s2b ", but the group is empty")) /\
  (w = AgentModel.NoMatch -> said (s2b "no cluster matches the request; info: {service: " ++ qService q ++ s2b ", group: " ++
     loadOrEmpty (rqAttach rq) (s2b "M_g") ++ s2b ", protocol: " ++ loadOrEmpty (rqAttach rq) (s2b "M_pp") ++ s2b ", version: " ++
     loadOrEmpty (rqAttach rq) (s2b "M_v") ++ s2b "}")).
Proof.
  intros c ag k g ip pt sid ip2 pt2 sid2 reply q w m rq H1 H2 H3 H4 H5 H6 H7 H8 H9. cbv zeta.
  pose proof (agent_refuses c ag k g ip pt sid ip2 pt2 sid2 reply q w m rq H1 H2 H3 H4 H5 H6 H7 H8 H9) as R.
  assert (E : rqService rq = qService q).
  { destruct (agent_side c ag k ip sid sid2 q H3 H4 (proj2 (proj2 (proj2 (proj2 H1)))) H2 H5) as (m0 & rq0 & m2 & S1 & S2 & S3 & S4 & S5 & _).
    rewrite H7 in S1. injection S1 as <-. rewrite H8 in S3. injection S3 as <-. exact S5. }
  rewrite <- E. repeat split; intros ->; intro Hj; exact (proj2 (R Hj)).
Qed.
Print Assumptions C113_refused.

(* When nothing comes back from the server, the caller gets an error of the agent, not silence. *)
Theorem C113_lost : forall c ag k g ip pt sid ip2 pt2 sid2 reply q m rq m2,
  plain_server c g -> is_agent c ag -> ordinary q -> args_ok (qArgs q) -> (sid < 2 ^ 64)%N -> relay_fits c ag k g ip pt sid ip2 pt2 sid2 q ->
  relayed_by c ag ip sid q k -> sendRequest c sid q = inl m -> at_agent ag ip m = inl rq -> agentMessage ag k sid2 rq = inl m2 ->
  serve g ip2 pt2 (concat (getEncodedBytes None m2)) = None -> json_lossless (c_ext c) (mkExc 400 (s2b "channel call error:" ++ ag_chan ag) 1) ->
  relayTrip c ag g ip pt sid ip2 pt2 sid2 reply q = Error (s2b "channel call error:" ++ ag_chan ag).
Proof. exact agent_loses. Qed.
Print Assumptions C113_lost.

(* A request an http cluster takes is answered by that cluster: nothing is sent to a server behind the agent. *)
Theorem C113_http : forall c ag g ip pt ip2 pt2 sid2 m rq h,
  is_agent c ag -> at_agent ag ip m = inl rq ->
  AgentModel.route (ag_map ag) (ag_http ag) (rqService rq) (rqAttach rq) = AgentModel.ToHttp h ->
  processV2 (ag_cfg ag) ip pt (agentHandler ag (serve g ip2 pt2) sid2 pt) (received m) = processV2 (ag_cfg ag) ip pt (ag_httpCall ag h) (received m).
Proof. exact agent_http. Qed.
Print Assumptions C113_http.

(* ------------------------------------------------------------ a concrete agent *)

Definition r_ext : ext := mkExt (fun _ => None) (fun _ => None) (fun e => (if Z.eqb (eCode e) 400 then x34 else if Z.eqb (eCode e) 404 then x35 else x7b) :: eMsg e)
  (fun s => match s with x34 :: t => Some (Some (mkExc 400 t 1)) | x35 :: t => Some (Some (mkExc 404 t 1)) | _ :: t => Some (Some (mkExc 500 t 1)) | [] => None end).
(* Add(a int64, b int64) int64; Boom(s string) *)
Definition r_service : service := mkService
  [(s2b "Add", mkMethod [PI64; PI64] (fun l => match l with [VI64 a; VI64 b] => Returns [VI64 ((a + b) mod 1000)] | _ => Panics end));
   (s2b "Boom", mkMethod [PString] (fun _ => Panics))] 0.
Definition r_cfg (proxy : bool) : scfg value :=
  mkScfg proxy true r_ext (fun _ => s2b "unsupported") (fun n => if N.eqb n 6 then Some simpleSer else None) (fun _ => None) 1000.
Definition r_server : gserver := mkG (r_cfg false) [(s2b "svc", mkPv 1 (s2b "svc") [])] (fun _ => r_service) (fun _ => HNil) (fun s => s) (fun _ => s2b "EOF").
Definition r_client : gclient := mkC r_ext 1000 0 (fun _ => s2b "EOF") (fun _ => s2b "bad").
Definition r_url : url := mkUrl (s2b "motan2") (s2b "h") 80 (s2b "svc") (s2b "grp") None.
Definition r_agent : gagent := mkAg (r_cfg true) [(s2b "svc", [AgentModel.mkItem r_url 0]); (s2b "gone", [AgentModel.mkItem r_url 0])] [] (fun _ => r_url)
  (fun _ => mkUrl (s2b "motan2") (s2b "h2") 81 (s2b "svc") (s2b "grp2") None) (fun _ => 0%Z) 1000 (s2b "timeout") (fun _ _ => HNil) (fun u => uHost u).
Definition r_req (svc meth : bs) (args : list value) : mrequest value :=
  buildRequest (mkUrl (s2b "motan2") (s2b "h") 80 svc (s2b "grp") None) (s2b "app") meth args.
Definition r_call (reply : target) (q : mrequest value) : outcome := relayTrip r_client r_agent r_server (s2b "1.2.3.4") 3 77 (s2b "5.6.7.8") 2 501 reply q.

Lemma r_plain : plain_server r_client r_server.
Proof.
  split; [reflexivity|]. split; [reflexivity|]. split; [|split; [reflexivity|intros b z H; discriminate H]].
  intros n s H. cbn in H. destruct (N.eqb n 6); [injection H as <-; cbn; lia|discriminate H].
Qed.

Example C113_example :
  let q := r_req (s2b "svc") (s2b "add") [VI64 40; VI64 2] in
  plain_server r_client r_server /\ is_agent r_client r_agent /\ ordinary q /\ args_ok (qArgs q) /\ results_ok r_service (qArgs q) /\
  relay_fits r_client r_agent 0 r_server (s2b "1.2.3.4") 3 77 (s2b "5.6.7.8") 2 501 q /\ relayed_by r_client r_agent (s2b "1.2.3.4") 77 q 0 /\
  r_call TPInt64 q = Value (VI64 42) (Some (VI64 42)) /\
  r_call TPInt64 (r_req (s2b "svc") (s2b "sub") []) = roundTrip r_client r_server (s2b "9.9.9.9") 1 12 TPInt64 (r_req (s2b "svc") (s2b "sub") []) /\
  r_call TPInt64 (r_req (s2b "gone") (s2b "add") []) = Error (s2b "provider not exist serviceKey=gone") /\
  r_call TPInt64 (r_req (s2b "other") (s2b "add") []) = Error (s2b "cluster not found. cluster: cluster not found. service: other") /\
  (forall msg, one_line msg -> json_lossless r_ext (mkExc 400 msg 1)).
Proof.
  cbv zeta. split; [exact r_plain|]. split; [split; reflexivity|].
  split. { apply built_ordinary; intro H; cbn in H; intuition discriminate. }
  split; [split; [repeat constructor; cbn; lia|]; split; reflexivity|].
  split.
  { intros n m v vs Hin H. cbn in Hin.
    destruct Hin as [E|[E|[]]]; injection E as <- <-; vm_compute in H; try discriminate H; injection H as <- <-; vm_compute; intuition congruence. }
  split.
  { intros m H. vm_compute in H. injection H as <-. split; [vm_compute; intuition congruence|]. split.
    - intros rq m2 H1 H2. vm_compute in H1. injection H1 as <-. vm_compute in H2. injection H2 as <-. split; [vm_compute; intuition congruence|].
      intros r H. vm_compute in H. injection H as <-. vm_compute; intuition congruence.
    - intros w H. vm_compute in H. injection H as <-. vm_compute; intuition congruence. }
  split. { intros m rq H1 H2. vm_compute in H1. injection H1 as <-. vm_compute in H2. injection H2 as <-. reflexivity. }
  split; [vm_compute; reflexivity|]. split; [vm_compute; reflexivity|]. split; [vm_compute; reflexivity|]. split; [vm_compute; reflexivity|].
  intros msg Hm. split; [reflexivity|]. split; [discriminate|]. intros [E|E]; [discriminate E|exact (Hm E)].
Qed.

(* an agent whose http clusters serve a domain *)
Definition r_agent_http : gagent := mkAg (r_cfg true) [] [(s2b "api.example", 4)] (fun _ => r_url) (fun _ => r_url) (fun _ => 0%Z) 1000 (s2b "timeout")
  (fun h rq => HRes (mkRes value (rqID rq) (Some (VI64 (Z.of_nat h))) None [] ctx0)) (fun u => uHost u).
Example C113_http_example : exists m rq, sendRequest r_client 77 (r_req (s2b "api.example") (s2b "/p") []) = inl m /\
  is_agent r_client r_agent_http /\ at_agent r_agent_http (s2b "1.2.3.4") m = inl rq /\
  AgentModel.route (ag_map r_agent_http) (ag_http r_agent_http) (rqService rq) (rqAttach rq) = AgentModel.ToHttp 4 /\
  relayTrip r_client r_agent_http r_server (s2b "1.2.3.4") 3 77 (s2b "5.6.7.8") 2 501 TPInt64 (r_req (s2b "api.example") (s2b "/p") []) = Value (VI64 4) (Some (VI64 4)).
Proof. eexists. eexists. split; [vm_compute; reflexivity|]. split; [split; reflexivity|]. split; [vm_compute; reflexivity|]. split; vm_compute; reflexivity. Qed.
