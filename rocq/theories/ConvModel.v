(* ConvModel.v: protocol/motanProtocol.go:518-817, requests and responses to and from wire messages. *)
From Verif Require Import Base BytesModel Strconv ProtoModel.

(* ------------------------------------------------------------ external libraries, as parameters *)

(* compress/gzip and encoding/json; [None] is an error.  json.Unmarshal of "null" yields a nil exception. *)
Record exc := mkExc { eCode : Z; eMsg : bs; eType : Z }.
Record ext := mkExt { x_gz : bs -> option bs; x_ungz : bs -> option bs;
                      x_toJSON : exc -> bs; x_ofJSON : bs -> option (option exc) }.
(* core/motan.go Serialization, applied to values of some type A *)
Record serialization (A : Type) := mkSer { s_num : Z; s_one : A -> option bs; s_multi : list A -> option bs }.
Arguments s_num {A}. Arguments s_one {A}. Arguments s_multi {A}.

(* metadata keys, motanProtocol.go:44-57 *)
Definition MPath := s2b "M_p".
Definition MMethod := s2b "M_m".
Definition MException := s2b "M_e".
Definition MProcessTime := s2b "M_pt".
Definition MMethodDesc := s2b "M_md".
Definition MGroup := s2b "M_g".
Definition MProxyProtocol := s2b "M_pp".
Definition MRequestID := s2b "M_rid".
Definition defaultProtocol := s2b "motan2".
Definition SimpleNum : Z := 6.

(* core/map.go StringMap.LoadOrEmpty *)
Definition loadOrEmpty (m : list (bs * bs)) (k : bs) : bs :=
  match aget bs_eqb m k with Some v => v | None => [] end.

Inductive cerr := CErrSerializeNil | CErrSerializedData | CErrSerialize | CErrJSON.

(* core/motan.go RPCContext, the fields used here; OriginalMessage when it is a motan2 message *)
Record rpcctx := mkCtx { cOneway : bool; cProxy : bool; cGzipSize : Z; cSerialized : bool; cSerNum : Z;
                         cOriginal : option message }.
Record mrequest (A : Type) := mkReq { qID : N; qService : bs; qMethod : bs; qDesc : bs; qArgs : list A;
                                      qAttach : list (bs * bs); qCtx : rpcctx }.
Arguments qID {A}. Arguments qService {A}. Arguments qMethod {A}. Arguments qDesc {A}. Arguments qArgs {A}.
Arguments qAttach {A}. Arguments qCtx {A}.
Record mresponse (A : Type) := mkRes { pID : N; pValue : option A; pExc : option exc;
                                       pAttach : list (bs * bs); pCtx : rpcctx }.
Arguments pID {A}. Arguments pValue {A}. Arguments pExc {A}. Arguments pAttach {A}. Arguments pCtx {A}.

(* motanProtocol.go:550-560 EncodeMessageGzip; EncodeGzip of an empty body returns it unchanged (never reached
   because the body is longer than a positive gzipSize) *)
Definition encodeMessageGzip (X : ext) (m : message) (gzipSize : Z) : message :=
  if (0 <? gzipSize)%Z && (gzipSize <? Z.of_nat (length (mBody m)))%Z && negb (IsGzip (mHeader m)) then
    match x_gz X (mBody m) with
    | None => m
    | Some z => mkMsg (SetGzip true (mHeader m)) (mMeta m) z
    end
  else m.

(* motanProtocol.go:499-506 DecodeGzipBody *)
Definition decodeGzipBody (X : ext) (b : bs) : bs :=
  match b with [] => b | _ => match x_ungz X b with Some r => r | None => b end end.

(* what ConvertToRequest builds: the request, with its single lazily deserializable argument *)
Record rrequest := mkRReq { rqID : N; rqService : bs; rqMethod : bs; rqDesc : bs; rqBody : option bs;
                            rqAttach : list (bs * bs); rqProxy : bool; rqOriginal : message }.

(* motanProtocol.go:604-637 ConvertToRequest; [hasSer] is serialize <> nil *)
Definition convertToRequest (X : ext) (hasSer : bool) (m : message) : rrequest + cerr :=
  let h := mHeader m in
  let '(rid, meta) :=
    match aget bs_eqb (mMeta m) MRequestID with
    | None => (hReqID h, if IsProxy h then aset bs_eqb (mMeta m) MRequestID (fmtZ (toSigned 64 (hReqID h))) else mMeta m)
    | Some s => (toUnsigned 64 (fst (parseInt64 s)), mMeta m)
    end in
  let mk body orig := mkRReq rid (loadOrEmpty meta MPath) (loadOrEmpty meta MMethod) (loadOrEmpty meta MMethodDesc)
                             body meta (IsProxy h) orig in
  if 0 <? length (mBody m) then
    let body := if IsGzip h then decodeGzipBody X (mBody m) else mBody m in
    let h' := if IsGzip h then SetGzip false h else h in
    if negb (IsProxy h) && negb hasSer then inr CErrSerializeNil
    else inl (mk (Some body) (mkMsg h' meta body))
  else inl (mk None (mkMsg h meta (mBody m))).

(* motanProtocol.go:640-702 ConvertToReqMessage; [asBytes] is the type assertion to []byte.  The returned
   message shares its metadata with the request's attachments, which therefore also become [mMeta]. *)
Definition convertToReqMessage {A} (X : ext) (asBytes : A -> option bs) (ser : option (serialization A))
    (q : mrequest A) : message + cerr :=
  let c := qCtx q in
  match (if cProxy c then cOriginal c else None) with
  | Some o => inl (encodeMessageGzip X
                     (mkMsg (SetProxy true (mHeader o)) (aset bs_eqb (mMeta o) MGroup (loadOrEmpty (qAttach q) MGroup)) (mBody o))
                     (cGzipSize c))
  | None =>
      let hd := if cSerialized c then Some (cSerNum c) else match ser with Some s => Some (s_num s) | None => None end in
      match hd with
      | None => inr CErrSerializeNil
      | Some num =>
          let h := BuildHeader true false num (qID q) 0 in
          let body :=
            match qArgs q with
            | [] => inl []
            | args =>
                if cSerialized c then
                  match args with
                  | [a] => match asBytes a with Some b => inl b | None => inr CErrSerializedData end
                  | _ => inr CErrSerializedData
                  end
                else match ser with
                     | Some s => match s_multi s args with Some b => inl b | None => inr CErrSerialize end
                     | None => inr CErrSerializeNil
                     end
            end in
          match body with
          | inr e => inr e
          | inl b =>
              let m1 := encodeMessageGzip X (mkMsg h (qAttach q) b) (cGzipSize c) in
              let h1 := if cOneway c then SetOneWay true (mHeader m1) else mHeader m1 in
              let h2 := if cProxy c then SetProxy true h1 else h1 in
              let a1 := aset bs_eqb (mMeta m1) MPath (qService q) in
              let a2 := aset bs_eqb a1 MMethod (qMethod q) in
              let a3 := if bs_empty (loadOrEmpty a2 MProxyProtocol) then aset bs_eqb a2 MProxyProtocol defaultProtocol else a2 in
              let a4 := if bs_empty (qDesc q) then a3 else aset bs_eqb a3 MMethodDesc (qDesc q) in
              inl (mkMsg h2 a4 (mBody m1))
          end
      end
  end.

(* motanProtocol.go:705-762 ConvertToResMessage *)
Definition convertToResMessage {A} (X : ext) (asBytes : A -> option bs) (ser : option (serialization A))
    (p : mresponse A) : message + cerr :=
  let c := pCtx p in
  match (if cProxy c then cOriginal c else None) with
  | Some o => inl (mkMsg (SetProxy true (mHeader o)) (mMeta o) (mBody o))
  | None =>
      let attach := match pExc p with Some e => aset bs_eqb (pAttach p) MException (x_toJSON X e) | None => pAttach p end in
      let status := match pExc p with Some _ => 1%Z | None => 0%Z end in
      let serialized := match pExc p with Some _ => cSerialized c || cProxy c | None => cSerialized c end in
      let hd := if serialized then Some (cSerNum c) else match ser with Some s => Some (s_num s) | None => None end in
      match hd with
      | None => inr CErrSerializeNil
      | Some num =>
          let h := BuildHeader false false num (pID p) status in
          let body :=
            match pValue p with
            | None => inl []
            | Some v =>
                if serialized then match asBytes v with Some b => inl b | None => inr CErrSerializedData end
                else match ser with
                     | Some s => match s_one s v with Some b => inl b | None => inr CErrSerialize end
                     | None => inr CErrSerializeNil
                     end
            end in
          match body with
          | inr e => inr e
          | inl b =>
              let m1 := encodeMessageGzip X (mkMsg h attach b) (cGzipSize c) in
              let h2 := if cProxy c then SetProxy true (mHeader m1) else mHeader m1 in
              inl (mkMsg h2 (mMeta m1) (mBody m1))
          end
      end
  end.

Record rresponse := mkRRes { rpID : N; rpBody : option bs; rpExc : option exc; rpTime : Z;
                             rpAttach : list (bs * bs); rpProxy : bool }.

(* motanProtocol.go:765-804 ConvertToResponse *)
Definition convertToResponse (X : ext) (hasSer : bool) (m : message) : rresponse + cerr :=
  let h := mHeader m in
  let pt := match aget bs_eqb (mMeta m) MProcessTime with
            | Some s => match parseInt64 s with (z, NumOk) => z | _ => 0%Z end
            | None => 0%Z
            end in
  let body :=
    if N.eqb (GetStatus h) 0 && (0 <? length (mBody m)) then
      if negb (IsProxy h) && negb hasSer then inr CErrSerializeNil
      else inl (Some (if IsGzip h then decodeGzipBody X (mBody m) else mBody m))
    else inl None in
  match body with
  | inr e => inr e
  | inl b =>
      let ex :=
        if N.eqb (GetStatus h) 1 then
          let e := loadOrEmpty (mMeta m) MException in
          if bs_empty e then inl None else match x_ofJSON X e with Some r => inl r | None => inr CErrJSON end
        else inl None in
      match ex with
      | inr e => inr e
      | inl ex => inl (mkRRes (hReqID h) b ex pt (mMeta m) (IsProxy h))
      end
  end.

(* motanProtocol.go:806-817 BuildExceptionResponse on a clean pooled message; [None] would be a refused setter *)
Definition obind {A B} (o : option A) (f : A -> option B) : option B := match o with Some a => f a | None => None end.
Definition buildExceptionResponse (rid : N) (errmsg : bs) : option message :=
  let h0 := SetProxy false (SetRequest false (mkHdr x00 x00 x00 rid)) in
  obind (SetVersion 1 h0) (fun h1 => obind (SetStatus 1 h1) (fun h2 => obind (SetSerialize SimpleNum h2) (fun h3 =>
    Some (mkMsg h3 [(MException, errmsg)] [])))).

(* motanProtocol.go:149-158 BuildHeartbeat *)
Definition buildHeartbeat (isReq : bool) (rid : N) : message :=
  mkMsg (SetHeartbeat true (BuildHeader isReq true SimpleNum rid 0)) [] [].
