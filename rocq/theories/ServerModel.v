(* ServerModel.v: server/motanserver.go (connections and the processing of one message), server/server.go
   (DefaultMessageHandler, DefaultExporter) and the provider table of agent.go serverAgentMessageHandler. *)
From Verif Require Import Base BytesModel Strconv GoStrings ProtoModel ConvModel V1Model UrlModel.
Set Implicit Arguments.

(* ------------------------------------------------------------ one motan2 message *)

(* core/constants.go HostKey *)
Definition HostKey := s2b "host".

(* What the message handler does with one request: a response, a nil response, or a panic.  Its code is arbitrary. *)
Inductive hret (R : Type) := HRes (p : R) | HNil | HPanic.
Arguments HNil {R}. Arguments HPanic {R}.

(* What becomes of a message: these bytes or this message are written, the connection is closed, or nothing happens
   (HandlePanic at motanserver.go:211 and 313 recovers and returns). *)
Inductive fate (R : Type) := Write (r : R) | CloseConn | Silent.
Arguments CloseConn {R}. Arguments Silent {R}.

(* server settings and the libraries used: json and gzip ([ext]), err.Error() of a conversion error, the
   serialization registered under a number (extension factory), the type assertion to []byte *)
Record scfg (A : Type) := mkScfg { s_proxy : bool; s_heartbeat : bool; s_ext : ext; s_errText : cerr -> bs;
                                   s_ser : N -> option (serialization A); s_asBytes : A -> option bs; s_max : N }.

(* motanProtocol.go BuildExceptionResponse with an exception 500 as JSON; the setters never refuse these arguments,
   so the default is not used *)
Definition exc500 {A} (c : scfg A) (rid : N) (msg : bs) : message :=
  match buildExceptionResponse rid (x_toJSON (s_ext c) (mkExc 500 msg 1)) with
  | Some m => m
  | None => mkMsg (mkHdr x00 x00 x00 rid) [] []
  end.

(* motanserver.go:261-266: the response context gets the server's proxy flag, and the process time attachment is
   filled in when empty; [pt] is the measured time in ms *)
Definition fillRes {A} (proxy : bool) (pt : Z) (p : mresponse A) : mresponse A :=
  let c := pCtx p in
  mkRes _ (pID p) (pValue p) (pExc p)
    (if bs_empty (loadOrEmpty (pAttach p) MProcessTime) then aset bs_eqb (pAttach p) MProcessTime (fmtZ pt) else pAttach p)
    (mkCtx (cOneway c) proxy (cGzipSize c) (cSerialized c) (cSerNum c) (cOriginal c)).

Definition withID (m : message) (rid : N) : message :=
  mkMsg (mkHdr (hMsgType (mHeader m)) (hVerStatus (mHeader m)) (hSerialize (mHeader m)) rid) (mMeta m) (mBody m).

(* motanserver.go:210-310 processV2, without tracing, timestamps and the recycling of messages *)
Definition processV2 {A} (c : scfg A) (ip : bs) (pt : Z) (h : rrequest -> hret (mresponse A)) (m0 : message) : fate message :=
  let m := mkMsg (SetProxy (s_proxy c) (mHeader m0)) (aset bs_eqb (mMeta m0) HostKey ip) (mBody m0) in
  let rid := hReqID (mHeader m) in
  let ser := s_ser c (GetSerialize (mHeader m)) in
  let hasSer := match ser with Some _ => true | None => false end in
  let res :=
    if IsHeartbeat (mHeader m) then
      if negb (s_heartbeat c) then CloseConn else Write (buildHeartbeat false rid)
    else
      match convertToRequest (s_ext c) hasSer m with
      | inr e => Write (exc500 c rid (s2b "deserialize fail. err:" ++ s_errText c e ++ s2b " method:" ++ loadOrEmpty (mMeta m) MMethod))
      | inl q =>
          match h q with
          | HPanic => Silent
          | HNil => Write (exc500 c rid (s2b "convert to response fail. err:handler call return nil"))
          | HRes p =>
              match convertToResMessage (s_ext c) (s_asBytes c) ser (fillRes (s_proxy c) pt p) with
              | inl r => Write r
              | inr e => Write (exc500 c rid (s2b "convert to response fail. err:" ++ s_errText c e))
              end
          end
      end in
  match res with
  | Write r => Write (withID r rid)
  | f => f
  end.

(* ------------------------------------------------------------ one motan1 message *)

Definition MVersion := s2b "M_v".
Definition MSource := s2b "M_s".
Definition V1Group := s2b "group".
Definition V1Version := s2b "version".
Definition V1Application := s2b "application".

(* motanserver.go:387-398 setV1Attachments *)
Definition fillAttach (att : list (bs * bs)) (k from : bs) : list (bs * bs) :=
  if bs_empty (loadOrEmpty att k) then aset bs_eqb att k (loadOrEmpty att from) else att.
Definition setV1Attachments (att : list (bs * bs)) : list (bs * bs) :=
  fillAttach (fillAttach (fillAttach att MGroup V1Group) MVersion V1Version) MSource V1Application.

(* a response as the motan1 encoder sees it: id, the original motan1 message of the context, the exception *)
Record v1resp := mkV1resp { w_id : N; w_orig : option v1msg; w_exc : option exc }.
(* the request the handler is given *)
Record v1call_in := mkV1in { i_id : N; i_service : bs; i_method : bs; i_desc : bs; i_attach : list (bs * bs); i_orig : v1msg }.

(* motan1Protocol.go:161-169 EncodeMotanV1Response *)
Definition encodeV1Resp (r : v1resp) : option bs :=
  match w_orig r with
  | Some m => Some (encodeV1Response m (w_id r))
  | None =>
      match w_exc r with
      | Some e => Some (buildV1ExceptionResponse (w_id r) (s2b "build v1 exception res. org err:" ++ eMsg e))
      | None => None
      end
  end.

(* motanserver.go:312-369 processV1.  A decoding error returns a nil request, which setV1Attachments (called before
   the error is looked at) dereferences: a panic.  The branch building an exception answer is unreachable. *)
Definition processV1 {A} (c : scfg A) (gunzip : bs -> option bs) (ip : bs) (h : v1call_in -> hret v1resp) (m : v1msg) : fate bs :=
  match decodeV1Request gunzip m with
  | VErr _ => Silent
  | VPanic | VFuel => Silent
  | VOk q =>
      let att := aset bs_eqb (setV1Attachments (rAttach q)) HostKey ip in
      let out :=
        if isV1HeartbeatReq q then
          if negb (s_heartbeat c) then CloseConn else Write (buildV1HeartbeatRes (vRid m))
        else
          match h (mkV1in (vRid m) (rService q) (rMethod q) (rDesc q) att m) with
          | HPanic => Silent
          | HNil => Write []
          | HRes r => match encodeV1Resp r with Some b => Write b | None => Silent end
          end in
      match out with
      | Write [] => Silent
      | f => f
      end
  end.

(* ------------------------------------------------------------ one connection *)

(* A message read from the connection and being processed by its own goroutine or pool worker. *)
Inductive job := J2 (m : message) | J1 (m : v1msg).
Inductive jstate := Running | Finished.

(* [k_in]: bytes received and not yet read; [k_jobs]: messages read, in order; [k_out]: what has been written, with
   the number of the job that wrote it; one write of a response is atomic (the connection's write lock). *)
Record conn := mkConn { k_in : bs; k_eof : bool; k_jobs : list (job * jstate); k_out : list (nat * bs); k_closed : bool }.
Definition initConn : conn := mkConn [] false [] [] false.

(* the peer sends bytes or closes; the read loop reads one message; the pool refuses the message just read; a job
   ends, its handler having behaved as given, having taken [pt] ms and encoding into buffer [ob]; a job ends with
   its write failing, which closes the connection *)
Inductive cop (A : Type) :=
| Arrive (b : bs) | PeerClose | ReadOne (accepted : bool)
| EndJob (i : nat) (pt : Z) (h2 : rrequest -> hret (mresponse A)) (h1 : v1call_in -> hret v1resp)
| EndJobLost (i : nat).
Arguments Arrive {A}. Arguments PeerClose {A}. Arguments ReadOne {A}. Arguments EndJobLost {A}.

(* one round of the loop of motanserver.go:178-207: [None] waits for more bytes *)
Inductive reading := RGot (j : job) (rest : bs) | RStop | RWait.
Definition readOne (max : N) (s : bs) : reading :=
  if length s <? 4 then RWait
  else match checkMotanVersion s with
       | None => RStop
       | Some v =>
           if N.eqb v 0 then
             match readV1 max s with
             | ROkV1 m rest => RGot (J1 m) rest
             | RErrV1 VEof _ => RWait
             | RErrV1 _ _ => RStop
             end
           else if N.eqb v 1 then
             match decodeMsg max s with
             | DecOk m rest => RGot (J2 m) rest
             | DecErr PEof _ => RWait
             | DecErr _ _ => RStop
             end
           else RStop
       end.

(* the bytes written for a job *)
Definition jobFate {A} (c : scfg A) (gunzip : bs -> option bs) (ip : bs) (pt : Z) h2 h1 (j : job) : fate bs :=
  match j with
  | J1 m => processV1 c gunzip ip h1 m
  | J2 m => match processV2 c ip pt h2 m with
            | Write r => Write (concat (getEncodedBytes None r))
            | CloseConn => CloseConn
            | Silent => Silent
            end
  end.

(* motanserver.go:164-208 handleConn with the jobs it starts.  After the connection is closed nothing is read or
   written any more.  A refused message (pool overloaded, error of Submit ignored at 200) leaves no job running. *)
Definition cstep {A} (c : scfg A) (gunzip : bs -> option bs) (ip : bs) (s : conn) (o : cop A) : option conn :=
  match o with
  | Arrive b => if k_eof s || k_closed s then None else Some (mkConn (k_in s ++ b) false (k_jobs s) (k_out s) false)
  | PeerClose => Some (mkConn (k_in s) true (k_jobs s) (k_out s) (k_closed s))
  | ReadOne acc =>
      if k_closed s then None
      else match readOne (s_max c) (k_in s) with
           | RGot j rest =>
               if acc then Some (mkConn rest (k_eof s) (k_jobs s ++ [(j, Running)]) (k_out s) false)
               else match j with
                    | J2 _ => Some (mkConn rest (k_eof s) (k_jobs s ++ [(j, Finished)]) (k_out s) false)
                    | J1 _ => None
                    end
           | RStop => Some (mkConn (k_in s) (k_eof s) (k_jobs s) (k_out s) true)
           | RWait => if k_eof s then Some (mkConn (k_in s) true (k_jobs s) (k_out s) true) else None
           end
  | EndJob i pt h2 h1 =>
      match nth_error (k_jobs s) i with
      | Some (j, Running) =>
          let jobs := list_set (k_jobs s) i (j, Finished) in
          match jobFate c gunzip ip pt h2 h1 j with
          | Write b => Some (mkConn (k_in s) (k_eof s) jobs (if k_closed s then k_out s else k_out s ++ [(i, b)]) (k_closed s))
          | CloseConn => Some (mkConn (k_in s) (k_eof s) jobs (k_out s) true)
          | Silent => Some (mkConn (k_in s) (k_eof s) jobs (k_out s) (k_closed s))
          end
      | _ => None
      end
  | EndJobLost i =>
      match nth_error (k_jobs s) i with
      | Some (j, Running) => Some (mkConn (k_in s) (k_eof s) (list_set (k_jobs s) i (j, Finished)) (k_out s) true)
      | _ => None
      end
  end.
Fixpoint cruns {A} (c : scfg A) gunzip ip (s : conn) (l : list (cop A)) : option conn :=
  match l with
  | [] => Some s
  | o :: r => match cstep c gunzip ip s o with Some s' => cruns c gunzip ip s' r | None => None end
  end.

(* ------------------------------------------------------------ DefaultMessageHandler *)

(* Providers are objects: [v_id] is the pointer; path and url do not change while registered. *)
Record provider := mkPv { v_id : nat; v_path : bs; v_group : bs }.
Definition pv_eqb (p q : provider) : bool := Nat.eqb (v_id p) (v_id q).
Definition ptable := list (bs * provider).

(* server.go:194-203 AddProvider, RmProvider *)
Definition addProvider (t : ptable) (p : provider) : ptable := aset bs_eqb t (v_path p) p.
Definition rmProvider (t : ptable) (p : provider) : ptable :=
  match aget bs_eqb t (v_path p) with
  | Some dp => if pv_eqb p dp then adel bs_eqb t (v_path p) else t
  | None => t
  end.
(* agent.go:1001-1003 getServiceKey, 1034-1041 AddProvider, RmProvider of the agent's handler *)
Definition serviceKey (group path : bs) : bs := group ++ s2b "_" ++ path.
Definition addProviderA (t : ptable) (p : provider) : ptable := aset bs_eqb t (serviceKey (v_group p) (v_path p)) p.
Definition rmProviderA (t : ptable) (p : provider) : ptable := adel bs_eqb t (serviceKey (v_group p) (v_path p)).

Inductive pop := AddP (p : provider) | RmP (p : provider).
Definition hstep (t : ptable) (o : pop) : ptable := match o with AddP p => addProvider t p | RmP p => rmProvider t p end.
Definition hstepA (t : ptable) (o : pop) : ptable := match o with AddP p => addProviderA t p | RmP p => rmProviderA t p end.
Definition hruns (l : list pop) : ptable := fold_left hstep l [].
Definition hrunsA (l : list pop) : ptable := fold_left hstepA l [].

Definition MFrameworkService := s2b "M_fws".
Definition MetaServiceName := s2b "com.weibo.api.motan.runtime.meta.MetaService".
Definition ServiceNotSupport := s2b "service not support".
Definition EProviderNotExist : Z := 404.
Definition ProviderNotExistPrefix := s2b "provider not exist serviceKey=".

(* the parts of a request looked at *)
Record dreq := mkDreq { d_id : N; d_service : bs; d_attach : list (bs * bs) }.
(* the answer of Call: what a provider returned, or an exception response made here *)
Inductive dans (R : Type) := FromProvider (r : R) | ExcAnswer (id : N) (e : exc) | DNil.
Arguments ExcAnswer {R}. Arguments DNil {R}.
(* providers called, with the answer *)
Inductive callee := Prov (p : provider) | Framework (service : bs).

Definition panicAnswer {R} (q : dreq) : dans R := ExcAnswer (d_id q) (mkExc 500 (s2b "provider call panic") 1).

(* server.go:209-229 Call with [find] the table lookup and [key] the key used; the second component lists the
   providers called.  A nil response of a provider is dereferenced (GetRPCContext): a panic, recovered into an
   exception; a nil response of a framework provider is returned. *)
Definition dispatch {R} (fw : list bs) (t : ptable) (key : bs) (q : dreq) (run : callee -> hret R) : dans R * list callee :=
  if negb (bs_empty (loadOrEmpty (d_attach q) MFrameworkService)) then
    if existsb (bs_eqb (d_service q)) fw then
      (match run (Framework (d_service q)) with HRes r => FromProvider r | HNil => DNil | HPanic => panicAnswer q end,
       [Framework (d_service q)])
    else (ExcAnswer (d_id q) (mkExc 501 ServiceNotSupport 1), [])
  else
    match aget bs_eqb t key with
    | Some p => (match run (Prov p) with HRes r => FromProvider r | HNil | HPanic => panicAnswer q end, [Prov p])
    | None => (ExcAnswer (d_id q) (mkExc EProviderNotExist (ProviderNotExistPrefix ++ key) 1), [])
    end.
Definition handlerCall {R} (t : ptable) (q : dreq) (run : callee -> hret R) : dans R * list callee :=
  dispatch [MetaServiceName] t (d_service q) q run.
(* agent.go:1005-1032: keyed by group and service, the group from the motan2 or else the motan1 attachment *)
Definition requestGroup (q : dreq) : bs :=
  let g := loadOrEmpty (d_attach q) MGroup in if bs_empty g then loadOrEmpty (d_attach q) (s2b "group") else g.
Definition handlerCallA {R} (fw : list bs) (t : ptable) (q : dreq) (run : callee -> hret R) : dans R * list callee :=
  dispatch fw t (serviceKey (requestGroup q) (d_service q)) q run.

(* ------------------------------------------------------------ DefaultExporter *)

(* A registry is named by a number; [e_log] lists the calls made on registries and on the message handler. *)
Inductive rcall := Reg (r : nat) (u : url) | UnReg (r : nat) (u : url) | RmProv.
Record exporter := mkExp { e_prov : option url; e_url : option url; e_regs : list nat; e_exported : bool; e_avail : bool;
                           e_log : list rcall }.
Definition initExp (p : option url) : exporter := mkExp p None [] false false [].

(* the environment: meta information put in the url, registries by name ([Some None]: known name, no extension) *)
Record xenv := mkXenv { x_meta : list (bs * bs); x_regs : bs -> option (option nat) }.

Definition NodeTypeKey := s2b "nodeType".
Definition NodeTypeService := s2b "service".
Definition RegistryKey := s2b "registry".
Definition URLRegisterMeta := s2b "registerMeta".

Inductive xres := XOk | XAlready | XNoProvider | XNoRegistry.

(* core/url.go PutParam, for each pair *)
Definition putParam (u : url) (kv : bs * bs) : url :=
  withParams u (Some (aset bs_eqb (match uParams u with Some m => m | None => [] end) (fst kv) (snd kv))).

(* server.go:66-114 Export.  The url is the provider's, changed in place, so the provider's url becomes it too. *)
Definition exportUrl (X : xenv) (u : url) : url :=
  let u1 := if getBoolValue u URLRegisterMeta false then fold_left putParam (x_meta X) u else u in
  putParam u1 (NodeTypeKey, NodeTypeService).
Definition chosenRegs (X : xenv) (u : url) : option (list nat) :=
  match pget (uParams (exportUrl X u)) RegistryKey with
  | None => None
  | Some regs => Some (flat_map (fun r => match x_regs X r with Some (Some n) => [n] | _ => [] end) (trimSplit regs (s2b ",")))
  end.
Definition export (X : xenv) (e : exporter) : exporter * xres :=
  if e_exported e then (e, XAlready)
  else match e_prov e with
       | None => (e, XNoProvider)
       | Some u =>
           let u' := exportUrl X u in
           match chosenRegs X u with
           | None => (mkExp (Some u') (Some u') (e_regs e) (e_exported e) (e_avail e) (e_log e), XNoRegistry)
           | Some rs => (mkExp (Some u') (Some u') rs true true (e_log e ++ map (fun r => Reg r u') rs), XOk)
           end
       end.

(* server.go:116-129 Unexport *)
Definition unexport (e : exporter) : exporter :=
  if e_exported e then
    match e_url e with
    | Some u => mkExp (e_prov e) (e_url e) (e_regs e) false (e_avail e) (e_log e ++ map (fun r => UnReg r u) (e_regs e) ++ [RmProv])
    | None => e
    end
  else e.
(* server.go:139-153 Available, Unavailable *)
Inductive xop := OExport (X : xenv) | OUnexport | OAvailable | OUnavailable.
Definition xstep (e : exporter) (o : xop) : exporter :=
  match o with
  | OExport X => fst (export X e)
  | OUnexport => unexport e
  | OAvailable => mkExp (e_prov e) (e_url e) (e_regs e) (e_exported e) true (e_log e)
  | OUnavailable => mkExp (e_prov e) (e_url e) (e_regs e) (e_exported e) false (e_log e)
  end.
Definition xruns (e : exporter) (l : list xop) : exporter := fold_left xstep l e.
