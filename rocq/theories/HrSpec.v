(* HrSpec.v: what should become of an http request that the agent's http proxy sends as an RPC, for C116. *)
From Verif Require Import Base BytesModel BytesSpec Strconv GoStrings GoStrings2 ProtoModel ProtoSpec ConvModel ConvSpec SimpleModel SimpleSpec UrlModel
  ServerModel ServerSpec ProvModel ProvSpec HttpModel HttpSpec HrModel.
From Verif Require WebModel HprovModel.

(* the server is no agent, knows the simple serialization, and shares gzip and json with the agent *)
Definition serves (a : hagent) (g : hserver) : Prop :=
  s_proxy (hs_cfg g) = false /\ s_ser (hs_cfg g) 6 = Some simpleSer /\ s_ext (hs_cfg g) = ha_ext a /\ gzip_lossless (ha_ext a).

(* the message and its answer are not larger than the receivers accept *)
Definition hr_fits (a : hagent) (g : hserver) (ip : bs) (pt : Z) (sid : N) (service path header body : bs) : Prop :=
  (N.of_nat (length header + length body + 10) < 2 ^ 32)%N /\
  forall m, proxyMessage a sid (proxyRequest a service path header body) = inl m ->
    sizes_ok (s_max (hs_cfg g)) m /\
    forall r, processV2 (hs_cfg g) ip pt (hHandler g) (received m) = Write r -> sizes_ok (ha_max a) r.

(* what comes back from the upstream's side: an exception, or the raw header and the body of an http response *)
Inductive upres := UExc (code : Z) (msg : bs) | UAnswer (head body : bs).

(* the path asked for upstream: rewritten by the location rules, or as it was *)
Definition upstream_path (w : hworld) (hp : HprovModel.hprov) (path header : bs) : option bs :=
  if HprovModel.p_rewrite hp then
    let query := if m_query (HprovModel.p_matcher hp) then w_query w (HprovModel.STransparent header [] [] [] None []) else [] in
    match pick (HprovModel.p_matcher hp) path query (w_qget w query) true with Some (_, path') => Some path' | None => None end
  else Some path.

(* the http request sent to the upstream for an http request with this raw header and body, [calls] being the headers added *)
Definition upstream_request (w : hworld) (hp : HprovModel.hprov) (path' header body ip : bs) (calls : list hcall) : HprovModel.sent :=
  HprovModel.STransparent header calls (HprovModel.p_schema hp) path' (if w_xff w header then None else Some ip) body.

Definition upstream_result (w : hworld) (hp : HprovModel.hprov) (s : HprovModel.sent) : upres :=
  match w_do w s with
  | HprovModel.WErr e => UExc 503 e
  | HprovModel.WResp st h b _ => if HprovModel.p_exc hp && (400 <=? st)%Z then UExc st b else UAnswer (w_raw w st h) b
  end.

(* the answer given to the http client *)
Definition web_answer (r : upres) : WebModel.webres :=
  match r with
  | UExc code msg => if (code =? 1001)%Z then WebModel.WForward else WebModel.WGateway (s2b "err_msg: " ++ msg)
  | UAnswer h b => WebModel.WReply (Some h) b
  end.

(* an exception or an answer the wire can carry *)
Definition carried (X : ConvModel.ext) (r : upres) : Prop :=
  match r with
  | UExc code msg => json_lossless X (mkExc code msg 2)
  | UAnswer h b => (N.of_nat (length h + length b + 15) < 2 ^ 32)%N
  end.

(* the headers added say what the call is *)
Definition motan_headers (calls : list hcall) (service path app group : bs) : Prop :=
  forall c, In c calls <->
    exists k v, c = HSet k v /\ v <> [] /\
      In (k, v) [(s2b "MOTAN-p", service); (s2b "MOTAN-m", path); (s2b "MOTAN-pp", s2b "motan2"); (s2b "MOTAN-s", app); (s2b "MOTAN-g", group)].
