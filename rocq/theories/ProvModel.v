(* ProvModel.v: a call through the whole stack: client.go (BuildRequest, BaseCall), endpoint/motanEndpoint.go Call,
   the wire (ProtoModel, ConvModel), server/motanserver.go processV2 and server/server.go DefaultMessageHandler
   (ServerModel), provider/provider.go DefaultProvider, with the simple serialization (SimpleModel). *)
From Verif Require Import Base BytesModel Strconv GoStrings ProtoModel ConvModel SimpleModel UrlModel ServerModel.

(* ------------------------------------------------------------ DefaultProvider *)

(* The static types of parameters, as far as the values the simple serialization produces tell them apart:
   PMap is map[interface{}]interface{}, PArr is []interface{}, PIface is interface{}; POther is every other type
   (int has its own name because it is the common one). *)
Inductive ptype := PString | PStrMap | PBytes | PStrArr | PBool | PByte | PI16 | PI32 | PI64 | PF32 | PF64 | PMap | PArr
                 | PIface | PInt | POther.
Definition ptype_eqb (a b : ptype) : bool :=
  match a, b with
  | PString, PString | PStrMap, PStrMap | PBytes, PBytes | PStrArr, PStrArr | PBool, PBool | PByte, PByte | PI16, PI16
  | PI32, PI32 | PI64, PI64 | PF32, PF32 | PF64, PF64 | PMap, PMap | PArr, PArr | PIface, PIface | PInt, PInt | POther, POther => true
  | _, _ => false
  end.

(* the dynamic type of a value; nil has none *)
Definition typeOf (v : value) : option ptype :=
  match v with
  | VNull => None
  | VStr _ => Some PString | VStrMap _ => Some PStrMap | VBytes _ => Some PBytes | VStrArr _ => Some PStrArr
  | VBool _ => Some PBool | VByte _ => Some PByte | VI16 _ => Some PI16 | VI32 _ => Some PI32 | VInt _ => Some PInt
  | VI64 _ => Some PI64 | VF32 _ => Some PF32 | VF64 _ => Some PF64 | VMap _ => Some PMap | VArr _ => Some PArr
  | VUnsupported => Some POther
  end.

(* A method of a Go service: its parameter types and what it does, for any arguments: it returns values or panics.
   Simplification: methods are not variadic. *)
Inductive mout := Returns (vs : list value) | Panics.
Record method := mkMethod { g_params : list ptype; g_run : list value -> mout }.
(* provider.go:64-82 Initialize: the exported methods of the service by name; [v_gzip] is the "mingzSize" parameter
   of the provider's url *)
Record service := mkService { v_methods : list (bs * method); v_gzip : Z }.

(* core/util.go:120-128 FirstUpper on ASCII strings; [uni] stands for package unicode on the others; [None]: the
   index r[0] is out of range *)
Definition isLower (c : byte) : bool := (97 <=? b2n c)%N && (b2n c <=? 122)%N.
Definition upperByte (c : byte) : byte := if isLower c then n2b (b2n c - 32) else c.
Definition firstUpper (uni : bs -> bs) (s : bs) : option bs :=
  match s with
  | [] => None
  | c :: r => Some (if forallb (fun x => (b2n x <? 128)%N) s then upperByte c :: r else uni s)
  end.

(* What a request's Arguments hold: a value, or a *DeserializableValue around the body. *)
Inductive arg := AVal (v : value) | ALazy (body : bs).

(* simple.go:337-340: of the reflect.Type targets only []byte makes a difference *)
Definition targetOf (p : ptype) : target := match p with PBytes => TBytesType | _ => TPOther end.

(* core/motan.go:613-626 ProcessDeserializable *)
Inductive pdres := PdOk (args : list arg) | PdErr (e : derr) | PdPanic.
Definition processDeserializable (ts : list target) (args : list arg) : pdres :=
  match args with
  | [ALazy b] => match fst (deserializeMulti b (Some ts)) with
                 | DOk vs => PdOk (map AVal vs)
                 | DErr e => PdErr e
                 | DPanic | DFuel => PdPanic
                 end
  | _ => PdOk args
  end.

(* reflect.Value.Call: as many arguments as parameters, none of them the zero Value (reflect.ValueOf(nil)), each
   assignable to its parameter; otherwise it panics *)
Definition assignable (p : ptype) (a : arg) : bool :=
  match a with
  | AVal v => match typeOf v with None => false | Some t => match p with PIface => true | _ => ptype_eqb p t end end
  | ALazy _ => match p with PIface => true | _ => false end
  end.
Fixpoint allAssignable (ps : list ptype) (args : list arg) : bool :=
  match ps, args with
  | [], [] => true
  | p :: ps', a :: args' => assignable p a && allAssignable ps' args'
  | _, _ => false
  end.
(* the model's methods see decoded values; a *DeserializableValue is passed on only by [assignable] to an interface
   parameter, where it is a value of another type *)
Definition argValue (a : arg) : value := match a with AVal v => v | ALazy _ => VUnsupported end.
Definition reflectCall (m : method) (args : list arg) : mout :=
  if allAssignable (g_params m) args then g_run m (map argValue args) else Panics.

(* provider.go:128-132: the first result, as a reflect.Value; a nil interface{} inside a reflect.Value is no kind the
   simple serialization knows (simple.go:75-79, 115), unlike a plain nil *)
Definition firstResult (vs : list value) : option value :=
  match vs with [] => None | VNull :: _ => Some VUnsupported | v :: _ => Some v end.

Definition ctx0 : rpcctx := mkCtx false false 0 false 0 None.
(* core/motan.go:726-731 BuildExceptionResponse *)
Definition excResponse (rid : N) (e : exc) : mresponse value := mkRes _ rid None (Some e) [] ctx0.

(* provider.go:104-135 Call; [etext] is err.Error() of a decoding error *)
Definition defaultCall (uni : bs -> bs) (etext : derr -> bs) (s : service) (q : rrequest) : hret (mresponse value) :=
  match firstUpper uni (rqMethod q) with
  | None => HPanic
  | Some name =>
      match aget bs_eqb (v_methods s) name with
      | None => HRes (excResponse (rqID q) (mkExc 500 (s2b "method " ++ rqMethod q ++ s2b " is not found in provider.") 1))
      | Some m =>
          let args0 := match rqBody q with None => [] | Some b => [ALazy b] end in
          let args := if 0 <? length (g_params m) then processDeserializable (map targetOf (g_params m)) args0 else PdOk args0 in
          match args with
          | PdPanic => HPanic
          | PdErr e => HRes (excResponse (rqID q) (mkExc 500 (s2b "deserialize arguments fail." ++ etext e) 1))
          | PdOk l => match reflectCall m l with
                      | Panics => HPanic
                      | Returns vs => HRes (mkRes _ (rqID q) (firstResult vs) None [] ctx0)
                      end
          end
      end
  end.

(* ------------------------------------------------------------ the server *)

(* serialize/simple.go as a Serialization (number 6) *)
Definition simpleSer : serialization value :=
  mkSer value 6 (fun v => match serialize v with SOk p => Some p | _ => None end)
                (fun vs => match serializeMulti vs with SOk p => Some p | _ => None end).

(* server.go:222: the provider's gzip size is put in the response's context *)
Definition withGzip (gz : Z) (p : mresponse value) : mresponse value :=
  let c := pCtx p in
  mkRes _ (pID p) (pValue p) (pExc p) (pAttach p) (mkCtx (cOneway c) (cProxy c) gz (cSerialized c) (cSerNum c) (cOriginal c)).

(* everything about the server: its settings, its provider table, the service behind each provider, what its framework
   providers answer, and the texts of decoding errors *)
Record gserver := mkG { g_cfg : scfg value; g_table : ptable; g_impl : nat -> service; g_fw : rrequest -> hret (mresponse value);
                        g_uni : bs -> bs; g_etext : derr -> bs }.

(* server.go:209-229 DefaultMessageHandler.Call over default providers *)
Definition gHandler (g : gserver) (q : rrequest) : hret (mresponse value) :=
  let run c := match c with
               | Prov p => let s := g_impl g (v_id p) in
                           match defaultCall (g_uni g) (g_etext g) s q with HRes r => HRes (withGzip (v_gzip s) r) | f => f end
               | Framework _ => g_fw g q
               end in
  match fst (handlerCall (g_table g) (mkDreq (rqID q) (rqService q) (rqAttach q)) run) with
  | FromProvider r => HRes r
  | ExcAnswer rid e => HRes (excResponse rid e)
  | DNil => HNil
  end.

(* ------------------------------------------------------------ the client *)

(* client.go:84-97 BuildRequest; [app] is the application of the client's own url *)
Definition buildRequest (u : url) (app : bs) (meth : bs) (args : list value) : mrequest value :=
  let a := getParam u (s2b "application") [] in
  mkReq _ 0 (uPath u) meth [] args
    (aset bs_eqb (aset bs_eqb (aset bs_eqb (aset bs_eqb (aset bs_eqb []
       (s2b "M_v") (getParam u (s2b "version") []))
       (s2b "M_mdu") (getParam u (s2b "module") []))
       (s2b "M_s") (if bs_empty a then app else a))
       (s2b "M_g") (uGroup u))
       (s2b "M_p") (uPath u))
    ctx0.

(* the client's endpoint: json and gzip, the largest answer accepted, its gzip size, the texts of errors *)
Record gclient := mkC { c_ext : ext; c_max : N; c_gzip : Z; c_etext : derr -> bs; c_cerr : cerr -> bs }.

(* What the caller sees: the value decoded and what is stored through its reply pointer, an error text, or nothing
   (no answer, a panic). *)
Inductive outcome := Value (v : value) (stored : option value) | Error (msg : bs) | Lost.

(* motanEndpoint.go:143-170 Call with a motan2 stream: the request's context gets the endpoint's gzip size (no proxy),
   the message gets the stream's number.  Simplification: the endpoint's group is the request's. *)
Definition sendRequest (c : gclient) (sid : N) (q : mrequest value) : message + cerr :=
  let x := qCtx q in
  let q' := mkReq _ (qID q) (qService q) (qMethod q) (qDesc q) (qArgs q) (qAttach q)
              (mkCtx (cOneway x) false (c_gzip c) (cSerialized x) (cSerNum x) (cOriginal x)) in
  match convertToReqMessage (c_ext c) (fun v => match v with VBytes b => Some b | _ => None end) (Some simpleSer) q' with
  | inl m => inl (withID m sid)
  | inr e => inr e
  end.

(* motanEndpoint.go:188-211, client.go:49-58: the answer is converted, deserialized for the reply and reduced to an
   error or nil *)
Definition readAnswer (c : gclient) (rid : N) (reply : target) (b : bs) : outcome :=
  match decodeMsg (c_max c) b with
  | DecErr _ _ => Lost
  | DecOk m _ =>
      let h := SetProxy false (mHeader m) in
      match convertToResponse (c_ext c) true (withID (mkMsg h (mMeta m) (mBody m)) rid) with
      | inr e => Error (s2b "convert response fail!" ++ c_cerr c e)
      | inl s =>
          match rpExc s with
          | Some e => Error (eMsg e)
          | None =>
              match rpBody s with
              | None => Value VNull None
              | Some b => match fst (deserialize b reply) with
                          | DOk v => Value v (assigned reply v)
                          | DErr e => Error (c_etext c e)
                          | DPanic | DFuel => Lost
                          end
              end
          end
      end
  end.

(* One call: the bytes of the request reach the server, which reads one message from them, and the bytes of its answer
   reach the client.  [ip]: the peer's address; [pt]: the time the handler took. *)
Definition roundTrip (c : gclient) (g : gserver) (ip : bs) (pt : Z) (sid : N) (reply : target) (q : mrequest value) : outcome :=
  match sendRequest c sid q with
  | inr _ => Error (s2b "convert motan request fail!")
  | inl m =>
      match readOne (s_max (g_cfg g)) (concat (getEncodedBytes None m)) with
      | RGot (J2 m') _ =>
          match processV2 (g_cfg g) ip pt (gHandler g) m' with
          | Write r => readAnswer c (qID q) reply (concat (getEncodedBytes None r))
          | CloseConn | Silent => Lost
          end
      | _ => Lost
      end
  end.

(* client.go:45-48 Call *)
Definition clientCall (c : gclient) (g : gserver) (ip : bs) (pt : Z) (sid : N) (u : url) (app : bs) (meth : bs)
  (args : list value) (reply : target) : outcome :=
  roundTrip c g ip pt sid reply (buildRequest u app meth args).
