(* ProtoModel.v: protocol/motanProtocol.go, the motan2 wire protocol. *)
From Verif Require Import Base BytesModel.

(* protocol/motanProtocol.go:34-41 *)
Definition MotanMagic : N := 0xf1f1.
Definition HeaderLength : nat := 13.
Definition MetaStartOffset : nat := 17.
Definition Version2 : N := 1.
(* protocol/motanProtocol.go:24 *)
Definition DefaultBufferSize : nat := 256.

(* protocol/motanProtocol.go:59-65.  Magic is written from the constant and set to the constant by the decoder, so
   it is not kept. *)
Record header := mkHdr { hMsgType : byte; hVerStatus : byte; hSerialize : byte; hReqID : N }.

(* ------------------------------------------------------------ bit fields of the header *)

Definition band (b : byte) (m : N) : byte := n2b (N.land (b2n b) m).
Definition bor (b : byte) (m : N) : byte := n2b (N.lor (b2n b) m).
Definition bit_is (b : byte) (m : N) (v : N) : bool := N.eqb (N.land (b2n b) m) v.
Definition setType (h : header) (t : byte) : header := mkHdr t (hVerStatus h) (hSerialize h) (hReqID h).
Definition setVS (h : header) (v : byte) : header := mkHdr (hMsgType h) v (hSerialize h) (hReqID h).
Definition setSer (h : header) (s : byte) : header := mkHdr (hMsgType h) (hVerStatus h) s (hReqID h).

(* Go's uint8(int) conversion *)
Definition u8 (z : Z) : N := Z.to_N (z mod 256).

(* motanProtocol.go:160-166 SetVersion; [None] is ErrVersion.  Negative arguments pass the check and are truncated. *)
Definition SetVersion (v : Z) (h : header) : option header :=
  if (31 <? v)%Z then None
  else Some (setVS h (n2b (N.lor (N.land (b2n (hVerStatus h)) 0x07) (N.land (N.shiftl (u8 v) 3) 0xf8)))).
(* motanProtocol.go:168-170 GetVersion *)
Definition GetVersion (h : header) : N := N.land (N.shiftr (b2n (hVerStatus h)) 3) 0x1f.
(* motanProtocol.go:172-181 *)
Definition SetHeartbeat (x : bool) (h : header) : header :=
  setType h (if x then bor (hMsgType h) 0x10 else band (hMsgType h) 0xef).
Definition IsHeartbeat (h : header) : bool := bit_is (hMsgType h) 0x10 0x10.
(* motanProtocol.go:183-193 *)
Definition SetGzip (x : bool) (h : header) : header :=
  setType h (if x then bor (hMsgType h) 0x08 else band (hMsgType h) 0xf7).
Definition IsGzip (h : header) : bool := bit_is (hMsgType h) 0x08 0x08.
(* motanProtocol.go:195-205 *)
Definition SetOneWay (x : bool) (h : header) : header :=
  setType h (if x then bor (hMsgType h) 0x04 else band (hMsgType h) 0xfb).
Definition IsOneWay (h : header) : bool := bit_is (hMsgType h) 0x04 0x04.
(* motanProtocol.go:207-217 *)
Definition SetProxy (x : bool) (h : header) : header :=
  setType h (if x then bor (hMsgType h) 0x02 else band (hMsgType h) 0xfd).
Definition IsProxy (h : header) : bool := bit_is (hMsgType h) 0x02 0x02.
(* motanProtocol.go:219-229 *)
Definition SetRequest (x : bool) (h : header) : header :=
  setType h (if x then band (hMsgType h) 0xfe else bor (hMsgType h) 0x01).
Definition isRequest (h : header) : bool := bit_is (hMsgType h) 0x01 0x00.
(* motanProtocol.go:231-241 *)
Definition SetStatus (s : Z) (h : header) : option header :=
  if (7 <? s)%Z then None
  else Some (setVS h (n2b (N.lor (N.land (b2n (hVerStatus h)) 0xf8) (N.land (u8 s) 0x07)))).
Definition GetStatus (h : header) : N := N.land (b2n (hVerStatus h)) 0x07.
(* motanProtocol.go:243-253 *)
Definition SetSerialize (s : Z) (h : header) : option header :=
  if (31 <? s)%Z then None
  else Some (setSer h (n2b (N.lor (N.land (b2n (hSerialize h)) 0x07) (N.land (N.shiftl (u8 s) 3) 0xf8)))).
Definition GetSerialize (h : header) : N := N.land (N.shiftr (b2n (hSerialize h)) 3) 0x1f.

(* motanProtocol.go:257-275 BuildHeader; msgType is Req (0) or Res (1) *)
Definition BuildHeader (isReq : bool) (proxy : bool) (serialize : Z) (rid : N) (status : Z) : header :=
  let t0 := if proxy then bor x00 0x02 else x00 in
  let t1 := if isReq then band t0 0xfe else bor t0 0x01 in
  mkHdr t1 (n2b (N.lor 0x08 (N.land (u8 status) 0x07)))
           (n2b (N.shiftl (u8 serialize) 3)) rid.

(* ------------------------------------------------------------ messages *)

(* motanProtocol.go:84-92.  Type, canRelease and bytesBuffer are bookkeeping; the reused bytesBuffer is a parameter
   of Encode0 below.  Metadata is listed in the order in which StringMap.Range enumerates it. *)
Record message := mkMsg { mHeader : header; mMeta : list (bs * bs); mBody : bs }.

Definition newline : byte := x0a.
Definition u32of (n : nat) : N := (N.of_nat n mod two32)%N.

(* motanProtocol.go:297-310: entries with an empty key or value, or with a newline, are skipped *)
Definition writeMetaEntry (b : buffer) (kv : bs * bs) : buffer :=
  let (k, v) := kv in
  if bs_empty k || bs_empty v then b
  else if bs_has newline k || bs_has newline v then b
  else writeByte (write (writeByte (write b k) newline) v) newline.

(* motanProtocol.go:280-326 Encode0; [ob] is msg.bytesBuffer before the call *)
Definition encode0 (ob : option buffer) (m : message) : buffer :=
  let b0 := match ob with None => newBuf DefaultBufferSize BigE | Some b => reset b end in
  let b1 := writeUint16 b0 MotanMagic in
  let b2 := writeByte b1 (hMsgType (mHeader m)) in
  let b3 := writeByte b2 (hVerStatus (mHeader m)) in
  let b4 := writeByte b3 (hSerialize (mHeader m)) in
  let b5 := writeUint64 b4 (hReqID (mHeader m)) in
  let b6 := setWPos b5 MetaStartOffset in
  let b7 := fold_left writeMetaEntry (mMeta m) b6 in
  let w := getWPos b7 in
  let empty := Nat.eqb w MetaStartOffset in
  let metaWpos := if empty then w else w - 1 in
  let metaSize := if empty then 0 else metaWpos - MetaStartOffset in
  let b8 := setWPos b7 HeaderLength in
  let b9 := writeUint32 b8 (u32of metaSize) in
  let b10 := setWPos b9 metaWpos in
  writeUint32 b10 (u32of (length (mBody m))).

(* motanProtocol.go:340-347 Encode *)
Definition encodeMsg (ob : option buffer) (m : message) : buffer :=
  let b := encode0 ob m in
  if 0 <? length (mBody m) then write b (mBody m) else b.

(* motanProtocol.go:331-336 GetEncodedBytes after Encode0 *)
Definition getEncodedBytes (ob : option buffer) (m : message) : list bs :=
  [bytesOf (encode0 ob m); mBody m].

(* ------------------------------------------------------------ decoding *)

Inductive perr := PEof | PErrMagicNum | PErrVersion | PErrOverSize | PErrMetadata.
(* the message and what is left in the stream, or an error and what is left *)
Inductive decoded := DecOk (m : message) (rest : bs) | DecErr (e : perr) (rest : bs).

(* io.ReadAtLeast / readBytes (motanProtocol.go:508-516) of n bytes from a connection that will deliver exactly the
   bytes s and then end: [None] is io.EOF / io.ErrUnexpectedEOF and drains the stream.  How the bytes are split
   into packets does not matter to these loops; a reader returning data together with an error is not modelled. *)
Definition readN (n : N) (s : bs) : option bs * bs :=
  if (N.of_nat (length s) <? n)%N then (None, [])
  else (Some (firstn (N.to_nat n) s), skipn (N.to_nat n) s).

(* motanProtocol.go:452-465: one metadata segment ends *)
Definition emitSeg (seg : bs) (k : bs) (m : list (bs * bs)) : bs * list (bs * bs) :=
  if bs_empty k then (seg, m) else ([], aset bs_eqb m k seg).
(* the loop i = 0..metasize; seg is readSlice[s:i] *)
Fixpoint scanMeta (p : bs) (seg : bs) (k : bs) (m : list (bs * bs)) : bs * list (bs * bs) :=
  match p with
  | [] => emitSeg seg k m
  | c :: p' =>
      if byte_eqb c newline
      then let (k', m') := emitSeg seg k m in scanMeta p' [] k' m'
      else scanMeta p' (seg ++ [c]) k m
  end.

(* motanProtocol.go:399-497 DecodeWithTime; the pooled message starts with empty metadata.  [max] is
   maxContentLength; the returned time stamp is not modelled. *)
Definition decodeMsg (max : N) (s : bs) : decoded :=
  match readN 13 s with
  | (None, r) => DecErr PEof r
  | (Some hd, s1) =>
      if negb (N.eqb (getUint BigE (firstn 2 hd)) MotanMagic) then DecErr PErrMagicNum s1 else
      let h := mkHdr (nth 2 hd x00) (nth 3 hd x00) (nth 4 hd x00) (getUint BigE (skipn 5 hd)) in
      if negb (N.eqb (GetVersion h) Version2) then DecErr PErrVersion s1 else
      match readN 4 s1 with
      | (None, r) => DecErr PEof r
      | (Some ms, s2) =>
          let metasize := getUint BigE ms in
          if (max <? metasize)%N then DecErr PErrOverSize s2 else
          let metaRes :=
            if (0 <? metasize)%N then
              match readN metasize s2 with
              | (None, r) => inr (PEof, r)
              | (Some mb, s3) =>
                  let (k, m) := scanMeta mb [] [] [] in
                  if bs_empty k then inl (m, s3) else inr (PErrMetadata, s3)
              end
            else inl ([], s2) in
          match metaRes with
          | inr (e, r) => DecErr e r
          | inl (meta, s3) =>
              match readN 4 s3 with
              | (None, r) => DecErr PEof r
              | (Some bsz, s4) =>
                  let bodySize := getUint BigE bsz in
                  if (max <? bodySize)%N then DecErr PErrOverSize s4 else
                  match readN bodySize s4 with
                  | (None, r) => DecErr PEof r
                  | (Some body, s5) => DecOk (mkMsg h meta body) s5
                  end
              end
          end
      end
  end.

(* a connection's receive loop (e.g. server/motanserver.go:164-208, endpoint recvLoop): decode until the stream is
   exhausted or an error occurs.  Every decoded message consumes at least 21 bytes, so the number of bytes bounds
   the number of rounds. *)
Fixpoint decodeAll (fuel : nat) (max : N) (s : bs) : list message * option perr :=
  match s with
  | [] => ([], None)
  | _ =>
      match fuel with
      | O => ([], None)
      | S f =>
          match decodeMsg max s with
          | DecErr e _ => ([], Some e)
          | DecOk m rest => let (ms, e) := decodeAll f max rest in (m :: ms, e)
          end
      end
  end.

(* motanProtocol.go:377-389 CheckMotanVersion on the peeked bytes: [None] is an error *)
Definition checkMotanVersion (s : bs) : option N :=
  if length s <? 4 then None
  else if negb (N.eqb (getUint BigE (firstn 2 s)) MotanMagic) then None
  else Some (N.land (N.shiftr (b2n (nth 3 s x00)) 3) 0x1f).
