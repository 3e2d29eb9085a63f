(* GrpcProps.v: C114, calls through gRPC endpoints and the breeze serialization. *)
From Verif Require Import Base BytesModel Strconv ProtoModel ProtoSpec ConvModel ConvSpec SimpleModel UrlModel ServerModel ProvModel GrpcModel GrpcSpec GrpcProofs.

(* What is asked of gRPC and what becomes of its answer: the path names service and method, the payload is the argument's bytes, the
   metadata say what the attachments say; the answer's bytes are the value, an error's code and text the exception. *)
Theorem C114_call : forall invoke rid service meth arg b rest attach,
  arg = GDes b \/ arg = GBytes b ->
  exists md, says md attach /\
    let asked := mkInv (s2b "/" ++ service ++ s2b "/" ++ meth) md b in
    (forall out, invoke asked = GOk out -> exists p, grpcCall invoke rid service meth (arg :: rest) attach = HRes p /\
       pID p = rid /\ pValue p = Some (VBytes out) /\ pExc p = None /\ cSerialized (pCtx p) = true /\ cSerNum (pCtx p) = 1%Z) /\
    (forall code desc, invoke asked = GErr code desc -> exists p, grpcCall invoke rid service meth (arg :: rest) attach = HRes p /\
       pID p = rid /\ pValue p = None /\ pExc p = Some (mkExc code desc code)).
Proof.
  intros invoke rid service meth arg b rest attach Harg. exists (mdNew attach). split; [apply md_says|]. cbv zeta.
  destruct Harg as [-> | ->]; split; intros; cbn [grpcCall]; cbv zeta; rewrite H; eexists; repeat split; reflexivity.
Qed.
Print Assumptions C114_call.

(* An argument that is not bytes is refused with an exception; nothing is sent. *)
Theorem C114_not_bytes : forall invoke rid service meth rest attach,
  exists p, grpcCall invoke rid service meth (GOther :: rest) attach = HRes p /\ pID p = rid /\ pValue p = None /\
    pExc p = Some (mkExc 500 (s2b "grpc argument must be []byte") 1).
Proof. intros. eexists. split; [reflexivity|]. repeat split. Qed.
Print Assumptions C114_not_bytes.

(* Behind the agent: the client's body reaches the gRPC server as it is (uncompressed), and the gRPC server's bytes reach the client as
   the body of an answer under its own id, marked as serialized by gRPC. *)
Theorem C114_agent_value : forall (c : scfg value) ip pt inv addr m rq b out,
  s_proxy c = true -> IsHeartbeat (mHeader m) = false -> s_asBytes c (VBytes out) = Some out ->
  convertToRequest (s_ext c) true (mkMsg (SetProxy true (mHeader m)) (aset bs_eqb (mMeta m) (s2b "host") ip) (mBody m)) = inl rq ->
  rqBody rq = Some b -> inv (mkInv (s2b "/" ++ rqService rq ++ s2b "/" ++ rqMethod rq) (mdNew (rqAttach rq)) b) = GOk out ->
  exists w, processV2 c ip pt (grpcHandler inv addr) m = Write w /\
    view (mHeader w) = mkView false false false true false 1 0 1 (hReqID (mHeader m)) /\ mBody w = out /\
    (addr <> [] -> loadOrEmpty (mMeta w) (s2b "x-forwarded-for") = addr).
Proof. exact agent_value. Qed.
Print Assumptions C114_agent_value.

Theorem C114_agent_error : forall (c : scfg value) ip pt inv addr m rq b code desc,
  s_proxy c = true -> IsHeartbeat (mHeader m) = false ->
  convertToRequest (s_ext c) true (mkMsg (SetProxy true (mHeader m)) (aset bs_eqb (mMeta m) (s2b "host") ip) (mBody m)) = inl rq ->
  rqBody rq = Some b -> inv (mkInv (s2b "/" ++ rqService rq ++ s2b "/" ++ rqMethod rq) (mdNew (rqAttach rq)) b) = GErr code desc ->
  exists w, processV2 c ip pt (grpcHandler inv addr) m = Write w /\
    view (mHeader w) = mkView false false false true false 1 1 1 (hReqID (mHeader m)) /\ mBody w = [] /\
    loadOrEmpty (mMeta w) (s2b "M_e") = x_toJSON (s_ext c) (mkExc code desc code).
Proof. exact agent_error. Qed.
Print Assumptions C114_agent_error.

Theorem C114_metadata : forall m, says (mdNew m) m.
Proof. exact md_says. Qed.
Print Assumptions C114_metadata.

(* Breeze: several values are read back as they were written, whatever follows; the bytes are those of the values one after the other;
   writing fails exactly when one of the values cannot be written. *)
Theorem C114_breeze_multi : forall B ts vs b rest, Forall2 (reads_back B) ts vs -> bzSerializeMulti B vs = Some b ->
  bzDeSerializeMulti B ts (b ++ rest) = Some vs.
Proof. exact breeze_multi. Qed.
Print Assumptions C114_breeze_multi.
Theorem C114_breeze_one : forall B t v b rest, reads_back B t v -> bzSerialize B v = Some b -> bzDeSerialize B t (b ++ rest) = Some v.
Proof. exact breeze_one. Qed.
Print Assumptions C114_breeze_one.
Theorem C114_breeze_bytes : forall B vs b, bzSerializeMulti B vs = Some b -> exists ps, Forall2 (fun v p => bz_write B v = Some p) vs ps /\ b = concat ps.
Proof. exact breeze_bytes. Qed.
Print Assumptions C114_breeze_bytes.
Theorem C114_breeze_fails : forall B vs, bzSerializeMulti B vs = None <-> exists v, In v vs /\ bz_write B v = None.
Proof. exact breeze_fails. Qed.
Print Assumptions C114_breeze_fails.

(* ------------------------------------------------------------ findings *)

(* A call without arguments panics; behind the agent the client is told of a panic of the cluster. *)
Theorem C114_no_argument_refuted : forall invoke addr rq, rqBody rq = None ->
  grpcCall invoke (rqID rq) (rqService rq) (rqMethod rq) [] (rqAttach rq) = HPanic /\
  exists p, grpcHandler invoke addr rq = HRes p /\ pExc p = Some (mkExc 500 (s2b "cluster call panic") 1).
Proof. intros invoke addr rq H. split; [reflexivity|]. unfold grpcHandler. rewrite H. eexists. split; reflexivity. Qed.
Print Assumptions C114_no_argument_refuted.

(* Attachments whose keys differ in capitals only arrive as two values of one key, in whichever order Go visits them. *)
Theorem C114_capitals_refuted :
  mdNew [(s2b "User", s2b "a"); (s2b "user", s2b "b")] = [(s2b "user", [s2b "a"; s2b "b"])] /\
  mdNew [(s2b "user", s2b "b"); (s2b "User", s2b "a")] = [(s2b "user", [s2b "b"; s2b "a"])].
Proof. split; vm_compute; reflexivity. Qed.
Print Assumptions C114_capitals_refuted.

(* ------------------------------------------------------------ a concrete case *)

Definition gr_ext : ext := mkExt (fun _ => None) (fun _ => None) (fun e => x7b :: eMsg e)
  (fun s => match s with _ :: t => Some (Some (mkExc 500 t 1)) | [] => None end).
Definition gr_cfg : scfg value := mkScfg true true gr_ext (fun _ => s2b "unsupported") (fun _ => None) (fun v => match v with VBytes b => Some b | _ => None end) 1000.
(* answers the reversed payload, or an error when there is no metadata under "tenant" *)
Definition gr_inv (i : invocation) : greply :=
  match aget bs_eqb (inv_md i) (s2b "tenant") with Some [_] => GOk (rev (inv_payload i)) | _ => GErr 16 (inv_path i) end.
Definition gr_msg (meta : list (bs * bs)) : message := mkMsg (BuildHeader true false 1 9 0) ((s2b "M_p", s2b "svc") :: (s2b "M_m", s2b "do") :: meta) (s2b "abc").

Example C114_example :
  (exists rq, convertToRequest (s_ext gr_cfg) true (mkMsg (SetProxy true (mHeader (gr_msg [(s2b "Tenant", s2b "t1")])))
     (aset bs_eqb (mMeta (gr_msg [(s2b "Tenant", s2b "t1")])) (s2b "host") (s2b "1.1.1.1")) (s2b "abc")) = inl rq /\ rqBody rq = Some (s2b "abc")) /\
  (exists w, processV2 gr_cfg (s2b "1.1.1.1") 5 (grpcHandler gr_inv (s2b "h:1")) (gr_msg [(s2b "Tenant", s2b "t1")]) = Write w /\ mBody w = s2b "cba" /\ GetSerialize (mHeader w) = 1%N) /\
  (exists w, processV2 gr_cfg (s2b "1.1.1.1") 5 (grpcHandler gr_inv (s2b "h:1")) (gr_msg []) = Write w /\ loadOrEmpty (mMeta w) (s2b "M_e") = s2b "{/svc/do") /\
  let B := mkBrz (fun v => match v with VByte c => Some [c] | _ => None end) (fun _ b => match b with c :: r => Some (VByte c, r) | [] => None end) in
  Forall2 (reads_back B) [PByte; PByte] [VByte x61; VByte x62] /\ bzSerializeMulti B [VByte x61; VByte x62] = Some (s2b "ab").
Proof.
  split; [eexists; split; vm_compute; reflexivity|]. split; [eexists; split; [vm_compute; reflexivity|split; vm_compute; reflexivity]|].
  split; [eexists; split; vm_compute; reflexivity|]. cbv zeta. split; [|reflexivity].
  repeat constructor; intros b rest H; injection H as <-; reflexivity.
Qed.
