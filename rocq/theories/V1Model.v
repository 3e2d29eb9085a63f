(* V1Model.v: protocol/motan1Protocol.go, the motan1 wire protocol (Java object stream inside a two-level frame).

   A parser works on the bytes that are still unread instead of on a (slice, position) pair.  A position beyond the
   end of the slice (possible only after skipByteArray of an announced length larger than what remains) is
   represented as the end: the only read that follows is peekType, which answers io.EOF in both cases. *)
From Verif Require Import Base BytesModel.

(* errors: io.EOF, motan1Protocol.go:83-89, motanProtocol.go ErrOverSize/ErrMagicNum/ErrWrongSize, gzip *)
Inductive v1err := VEof | VOSVersion | VUnsupported | VParseAttach | VOverSize | VMagic | VWrongSize | VGzip | VNoMsg.
(* [VPanic]: a Go runtime panic (index or slice out of range).  [VFuel]: the recursion bound of the model was hit;
   excluded by theorem. *)
Inductive vres (A : Type) := VOk (a : A) | VErr (e : v1err) | VPanic | VFuel.
Arguments VOk {A} a. Arguments VErr {A} e. Arguments VPanic {A}. Arguments VFuel {A}.
Definition vbind {A B} (r : vres A) (f : A -> vres B) : vres B :=
  match r with VOk a => f a | VErr e => VErr e | VPanic => VPanic | VFuel => VFuel end.

(* motan1Protocol.go:25-37, 68 *)
Definition TC_ARRAY := x75.
Definition TC_CLASSDESC := x72.
Definition TC_NULL := x70.
Definition TC_REFERENCE := x71.
Definition TC_BLOCKDATA := x77.
Definition TC_BLOCKDATALONG := x7a.
Definition MAX_BLOCK_SIZE : nat := 1024.
Definition MAX_BLOCK_N : N := 1024.
Definition V1L1HeaderLength : nat := 16.
Definition V1AllHeaderLength : nat := 32.
Definition osHeader : bs := [xac; xed; x00; x05].

Definition be (k : nat) (s : bs) : N := getUint BigE (firstn k s).

(* ------------------------------------------------------------------ block writing *)

(* 395-403 writeBlockHeader; the length is at most MAX_BLOCK_SIZE at the only call *)
Definition blockHeader (l : nat) : bs :=
  if (N.of_nat l <=? 255)%N then [TC_BLOCKDATA; n2b (N.of_nat l)]
  else TC_BLOCKDATALONG :: putUint BigE 4 (N.of_nat l).

(* the variables of writeBlock; the output buffer is append-only here (see C01) *)
Record wstate := mkW { wOut : bs; wTRemain : nat; wFirst : bool; wLast : bool; wBlockPos : nat }.

(* 370-389 the loop "for r > 0" over the current slice [b] (its unwritten part) *)
Fixpoint writeChunk (fuel : nat) (st : wstate) (b : bs) : option wstate :=
  match b with
  | [] => Some st
  | _ =>
      match fuel with
      | O => None
      | S f =>
          let st1 :=
            if wFirst st || (MAX_BLOCK_SIZE <=? wBlockPos st) then
              mkW (wOut st ++ blockHeader (Nat.min (wTRemain st) MAX_BLOCK_SIZE)) (wTRemain st) false
                  (if wTRemain st <=? MAX_BLOCK_SIZE then true else wLast st) 0
            else st in
          let ws := Nat.min (length b) (MAX_BLOCK_SIZE - wBlockPos st1) in
          if 0 <? ws then
            writeChunk f (mkW (wOut st1 ++ firstn ws b) (wTRemain st1 - ws) (wFirst st1) (wLast st1) (wBlockPos st1 + ws))
                       (skipn ws b)
          else writeChunk f st1 b
      end
  end.

(* 365-392 the loop over the argument slices *)
Fixpoint writeChunks (st : wstate) (bs_ : list bs) : option wstate :=
  match bs_ with
  | [] => Some st
  | b :: r =>
      match (if wLast st then Some (mkW (wOut st ++ b) (wTRemain st - length b) (wFirst st) (wLast st) (wBlockPos st))
             else writeChunk (length b) st b) with
      | None => None
      | Some st' => writeChunks st' r
      end
  end.

(* 355-393 writeBlock(buf, bs...): the bytes appended to the buffer *)
Definition writeBlock (chunks : list bs) : option bs :=
  match writeChunks (mkW [] (length (concat chunks)) true false 0) chunks with
  | None => None
  | Some st => Some (wOut st)
  end.

(* ------------------------------------------------------------------ block reading *)

Definition isBlockTag (t : byte) : bool := byte_eqb t TC_BLOCKDATA || byte_eqb t TC_BLOCKDATALONG.

(* the part shared by 751-775 and 797-814: read the length behind tag [t] and take that many bytes.
   [inAppend] is appendBlockBytes, where nothing guarantees that the length byte of TC_BLOCKDATA exists. *)
Definition takeN (l : N) (r : bs) : vres (bs * bs) :=
  if (N.of_nat (length r) <? l)%N then VErr VEof
  else VOk (firstn (N.to_nat l) r, skipn (N.to_nat l) r).

Definition blockLen (t : byte) (r : bs) : vres (N * bs) :=
  if byte_eqb t TC_BLOCKDATA then
    match r with [] => VPanic | c :: r' => VOk (b2n c, r') end
  else if length r <? 4 then VErr VEof else VOk (be 4 r, skipn 4 r).

(* 790-822 appendBlockBytes: what is appended and what is left unread.  The type byte of whatever follows the last
   full block is consumed even when it is not a block. *)
Fixpoint appendBlockBytes (fuel : nat) (acc r : bs) : vres (bs * bs) :=
  match fuel with
  | O => VFuel
  | S f =>
      match r with
      | [] => VOk (acc, r)
      | t :: r1 =>
          if isBlockTag t then
            vbind (blockLen t r1) (fun '(l, r2) =>
            vbind (takeN l r2) (fun '(c, r3) =>
            if N.eqb l MAX_BLOCK_N then appendBlockBytes f (acc ++ c) r3 else VOk (acc ++ c, r3)))
          else VOk (acc, r1)
      end
  end.

(* 747-788 getBlock: content and unread rest *)
Definition getBlock (r : bs) : vres (bs * bs) :=
  match r with
  | t :: (_ :: _) as r1 =>
      if isBlockTag t then
        vbind (blockLen t r1) (fun '(l, r2) =>
        vbind (takeN l r2) (fun '(c, r3) =>
        if N.eqb l MAX_BLOCK_N then
          match r3 with
          | nt :: _ => if isBlockTag nt then appendBlockBytes (S (length r3)) c r3 else VOk (c, r3)
          | [] => VOk (c, r3)
          end
        else VOk (c, r3)))
      else VErr VUnsupported
  | _ => VErr VEof
  end.

(* ------------------------------------------------------------------ strings and attachments *)

(* 332-335 writeUtfStr *)
Definition writeUtf (s : bs) : bs := putUint BigE 2 (N.of_nat (length s) mod 2 ^ 16) ++ s.

(* 606-620, 633-640 readUtfFromBlock: the length is a signed 16-bit integer; zero and negative mean "" *)
Definition readUtf (b : bs) : vres (bs * bs) :=
  if length b <? 2 then VErr VEof
  else let l := toSigned 16 (be 2 b) in
       let b' := skipn 2 b in
       if (0 <? l)%Z then
         if (Z.of_nat (length b') <? l)%Z then VErr VEof
         else VOk (firstn (Z.to_nat l) b', skipn (Z.to_nat l) b')
       else VOk ([], b').

(* 312-330 encodeMotanV1Attachment; [att] in the order Range visits it *)
Definition versionV1Compress := x02.
Definition encodeAttachment (att : list (bs * bs)) (ver : byte) : bs :=
  (if byte_eqb ver versionV1Compress then putUint BigE 2 (N.of_nat (length att) mod 2 ^ 16)
   else putUint BigE 4 (N.of_nat (length att) mod 2 ^ 32)) ++
  concat (map (fun kv => writeUtf (fst kv) ++ writeUtf (snd kv)) att).

(* 692-705 the loop of readAttachments *)
Fixpoint readKVs (fuel : nat) (n : Z) (b : bs) (acc : list (bs * bs)) : vres (list (bs * bs)) :=
  if (n <=? 0)%Z then VOk acc
  else match fuel with
       | O => VFuel
       | S f => vbind (readUtf b) (fun '(k, b1) =>
                vbind (readUtf b1) (fun '(v, b2) =>
                readKVs f (n - 1) b2 (aset bs_eqb acc k v)))
       end.

(* 677-709 readAttachments; the position of the block after it is never used again *)
Definition readAttachments (ver : byte) (b : bs) : vres (list (bs * bs)) :=
  let k := if byte_eqb ver versionV1Compress then 2 else 4 in
  if length b <? k then VErr VEof
  else let size := if byte_eqb ver versionV1Compress then toSigned 16 (be 2 b) else Z.of_N (be 4 b) in
       readKVs (S (length b)) size (skipn k b) [].

(* ------------------------------------------------------------------ messages *)

(* 91-98 MotanV1Message without objStream *)
Record v1msg := mkV1 { vOrigin : bs; vVersion : byte; vFlag : byte; vRid : N; vInner : N }.

(* 171-203 ReadV1Message on the bytes still to be read from the connection, which then ends; Peek consumes nothing.
   Returns the message and the unread rest, or the error (with the unread rest). *)
Inductive v1read := ROkV1 (m : v1msg) (rest : bs) | RErrV1 (e : v1err) (rest : bs).
Definition readV1 (maxContentLength : N) (s : bs) : v1read :=
  if length s <? V1L1HeaderLength then RErrV1 VEof s
  else let len := (16 + be 4 (skipn 12 s))%N in
       if (len <? 32)%N || (16 + maxContentLength <? len)%N then RErrV1 VOverSize s
       else if (N.of_nat (length s) <? len)%N then RErrV1 VEof []
       else let ori := firstn (N.to_nat len) s in
            let rest := skipn (N.to_nat len) s in
            if negb (N.eqb (be 2 (skipn 16 ori)) 61680) then RErrV1 VMagic rest
            else let inner := be 4 (skipn 28 ori) in
                 if negb (N.eqb (inner + 32) len) then RErrV1 VWrongSize rest
                 else ROkV1 (mkV1 ori (nth 18 ori x00) (nth 19 ori x00) (be 8 (skipn 20 ori)) inner) rest.

(* 441-451 newObjectStream: the object stream bytes; [gunzip] is DecodeGzip *)
Definition objectStream (gunzip : bs -> option bs) (m : v1msg) : vres bs :=
  if byte_eqb (vVersion m) x02 && (34 <? length (vOrigin m)) && N.eqb (be 2 (skipn 32 (vOrigin m))) 8075 then
    match gunzip (skipn 32 (vOrigin m)) with None => VErr VGzip | Some d => VOk d end
  else VOk (skipn 32 (vOrigin m)).

(* 571-590 checkObjectStream: the service block and the unread rest *)
Definition checkObjectStream (s : bs) : vres (bs * bs) :=
  if length s <? 4 then VErr VOSVersion
  else if bs_eqb (firstn 4 s) osHeader then getBlock (skipn 4 s) else VErr VOSVersion.

(* 713-744 skipByteArray: the content (as far as present) and the unread rest.  With [withContent] an announced
   length beyond the end is a slice out of range; without it the position simply moves past the end. *)
Definition skipByteArray (withContent : bool) (r : bs) : vres (bs * bs) :=
  if length r <? 10 then VErr VEof
  else
    let after :=
      if byte_eqb (nth 1 r x00) TC_CLASSDESC then if length r <? 23 then VErr VEof else VOk (skipn 19 r)
      else if byte_eqb (nth 1 r x00) TC_REFERENCE then VOk (skipn 6 r)
      else VErr VUnsupported in
    vbind after (fun r1 =>
    if length r1 <? 4 then VErr VEof
    else let l := be 4 r1 in
         let r2 := skipn 4 r1 in
         if withContent && (N.of_nat (length r2) <? l)%N then VPanic
         else if (N.of_nat (length r2) <? l)%N then VOk (r2, [])
         else VOk (firstn (N.to_nat l) r2, skipn (N.to_nat l) r2)).

(* 482-507 the argument loop: argument count, unread rest at the end of the arguments, attachment block *)
Fixpoint skipArgs (fuel : nat) (argSize : nat) (r : bs) : vres (nat * bs * bs) :=
  match fuel with
  | O => VFuel
  | S f =>
      match r with
      | [] => VErr VEof
      | t :: r1 =>
          if byte_eqb t TC_NULL then skipArgs f (S argSize) r1
          else if byte_eqb t TC_ARRAY then vbind (skipByteArray false r) (fun '(_, r2) => skipArgs f (S argSize) r2)
          else if isBlockTag t then vbind (getBlock r) (fun '(b, _) => VOk (argSize, r, b))
          else VErr VUnsupported
      end
  end.

(* what parseReq leaves in the object stream and DecodeMotanV1Request in the request *)
Record v1req := mkV1Req { rService : bs; rMethod : bs; rDesc : bs; rAttach : list (bs * bs);
                          rArgSize : nat; rArgs : bs; rSBlock : bs; rAttPos : nat; rMagic : bs }.

(* 459-478 service infos: service, method, description and the unread part of the service block *)
Definition compressSign := s2b "v1compressMethodSign".
Definition readInfos (b : bs) : vres (bs * bs * bs * bs) :=
  vbind (readUtf b) (fun '(i0, b1) =>
  vbind (readUtf b1) (fun '(i1, b2) =>
  if bs_eqb i0 (s2b "1") then VOk (compressSign, i1, [], b2)
  else vbind (readUtf b2) (fun '(i2, b3) => VOk (i0, i1, i2, b3)))).

(* 453-525 parseReq *)
Definition parseReq (ver : byte) (s : bs) : vres v1req :=
  vbind (checkObjectStream s) (fun '(sb, r) =>
  vbind (readInfos sb) (fun '(svc, mth, dsc, sb1) =>
  match sb1 with
  | [] =>
      vbind (skipArgs (S (length r)) 0 r) (fun '(n, r1, ab) =>
      vbind (readAttachments ver ab) (fun att =>
      VOk (mkV1Req svc mth dsc att n (firstn (length r - length r1) r) sb 0 (firstn 4 s))))
  | _ =>
      vbind (readAttachments ver sb1) (fun att =>
      VOk (mkV1Req svc mth dsc att 0 [] sb (length sb - length sb1) (firstn 4 s)))
  end)).

(* 100-120 DecodeMotanV1Request; the request id is the message's *)
Definition decodeV1Request (gunzip : bs -> option bs) (m : v1msg) : vres v1req :=
  vbind (objectStream gunzip m) (parseReq (vVersion m)).

(* 337-344 writeV1Rid, 346-353 writeV1InnerLength *)
Definition writeV1Rid (b : bs) (rid : N) : bs :=
  if V1AllHeaderLength <=? length b then copyAt (copyAt b 4 (putUint BigE 8 rid)) 20 (putUint BigE 8 rid) else b.
Definition writeV1InnerLength (b : bs) (l : N) : bs :=
  if V1AllHeaderLength <=? length b then
    copyAt (copyAt b 12 (putUint BigE 4 ((l + 16) mod 2 ^ 32))) 28 (putUint BigE 4 (l mod 2 ^ 32)) else b.

(* 280-309 encodeMotanV1: the request decoded from [m], with attachments [att] and id [rid] *)
Definition encodeV1 (m : v1msg) (q : v1req) (att : list (bs * bs)) (rid : N) : option bs :=
  let attBytes := encodeAttachment att (vVersion m) in
  let body :=
    if rArgSize q =? 0 then writeBlock [firstn (rAttPos q) (rSBlock q); attBytes]
    else match writeBlock [rSBlock q], writeBlock [attBytes] with
         | Some x, Some y => Some (x ++ rArgs q ++ y)
         | _, _ => None
         end in
  match body with
  | None => None
  | Some b =>
      let ret := firstn 32 (vOrigin m) ++ rMagic q ++ b in
      Some (writeV1InnerLength (writeV1Rid ret rid) (N.of_nat (length ret - 32) mod 2 ^ 32))
  end.

(* ------------------------------------------------------------------ responses *)

Definition FLAG_RESPONSE := x01.
Definition FLAG_RESPONSE_EXCEPTION := x05.
Definition heartbeatStr := s2b "heartbeat".
Definition javaString := s2b "java.lang.String".
Definition hessian2HeartbeatBytes : bs := n2b 9 :: heartbeatStr.
(* 527-569 parseRes and 129-159 DecodeMotanV1Response: processTime, exception class (if any), string value (if it is
   the heartbeat string).  Other values stay in their wire form.  errMsg is for logging only. *)
Record v1res := mkV1Res { sTime : Z; sExc : option bs; sValue : option bs }.

Definition readLong (b : bs) : vres (Z * bs) :=
  if length b <? 8 then VErr VEof else VOk (toSigned 64 (be 8 b), skipn 8 b).

Definition parseRes (flag : byte) (s : bs) : vres v1res :=
  vbind (checkObjectStream s) (fun '(sb, r) =>
  vbind (readLong sb) (fun '(t, sb1) =>
  if byte_eqb flag FLAG_RESPONSE_EXCEPTION then
    VOk (mkV1Res t (Some (match readUtf sb1 with VOk (c, _) => c | _ => [] end)) None)
  else if byte_eqb flag FLAG_RESPONSE then
    match readUtf sb1 with
    | VOk (c, _) =>
        if bs_eqb c javaString then
          match skipByteArray true r with
          | VOk (content, _) => VOk (mkV1Res t None (if bs_eqb content hessian2HeartbeatBytes then Some heartbeatStr else None))
          | VErr _ => VOk (mkV1Res t None None)
          | VPanic => VPanic
          | VFuel => VFuel
          end
        else VOk (mkV1Res t None None)
    | _ => VOk (mkV1Res t None None)
    end
  else VOk (mkV1Res t None None))).

Definition decodeV1Response (gunzip : bs -> option bs) (m : v1msg) : vres v1res :=
  vbind (objectStream gunzip m) (parseRes (vFlag m)).

(* 161-169 EncodeMotanV1Response for a response that carries its original message *)
Definition encodeV1Response (m : v1msg) (rid : N) : bs := writeV1Rid (vOrigin m) rid.

Definition bytesN (l : list N) : bs := map n2b l.

(* 72-80 constants *)
Definition baseV1HeartbeatReq : bs := bytesN [241; 241; 0; 0; 24; 44; 223; 176; 126; 80; 0; 96; 0; 0; 0; 78; 240; 240; 1; 0; 24; 44; 223; 176; 126; 80; 0; 96; 0; 0; 0; 62; 172; 237; 0; 5; 119; 56; 0; 33; 99; 111; 109; 46; 119; 101; 105; 98; 111; 46; 97; 112; 105; 46; 109; 111; 116; 97; 110; 46; 114; 112; 99; 46; 104; 101; 97; 114; 116; 98; 101; 97; 116; 0; 9; 104; 101; 97; 114; 116; 98; 101; 97; 116; 0; 4; 118; 111; 105; 100; 0; 0; 0; 0]%N.
Definition baseV1HeartbeatRes : bs := bytesN [241; 241; 0; 1; 24; 44; 226; 160; 201; 25; 2; 108; 0; 0; 0; 81; 240; 240; 1; 1; 24; 44; 226; 160; 201; 25; 2; 108; 0; 0; 0; 65; 172; 237; 0; 5; 119; 26; 0; 0; 0; 0; 0; 0; 0; 0; 0; 16; 106; 97; 118; 97; 46; 108; 97; 110; 103; 46; 83; 116; 114; 105; 110; 103; 117; 114; 0; 2; 91; 66; 172; 243; 23; 248; 6; 8; 84; 224; 2; 0; 0; 120; 112; 0; 0; 0; 10; 9; 104; 101; 97; 114; 116; 98; 101; 97; 116]%N.
Definition baseV1ExceptionRes : bs := bytesN [241; 241; 0; 1; 24; 46; 120; 216; 224; 128; 0; 1; 0; 0; 1; 70; 240; 240; 1; 5; 24; 46; 120; 216; 224; 128; 0; 1; 0; 0; 1; 54]%N.
Definition baseV1ResObjectStream : bs := bytesN [172; 237; 0; 5; 119; 61; 0; 0; 0; 0; 0; 0; 0; 2; 0; 51; 99; 111; 109; 46; 119; 101; 105; 98; 111; 46; 97; 112; 105; 46; 109; 111; 116; 97; 110; 46; 101; 120; 99; 101; 112; 116; 105; 111; 110; 46; 77; 111; 116; 97; 110; 83; 101; 114; 118; 105; 99; 101; 69; 120; 99; 101; 112; 116; 105; 111; 110; 117; 114; 0; 2; 91; 66; 172; 243; 23; 248; 6; 8; 84; 224; 2; 0; 0; 120; 112]%N.
Definition h_exceptionDesc : bs := bytesN [67; 48; 51; 99; 111; 109; 46; 119; 101; 105; 98; 111; 46; 97; 112; 105; 46; 109; 111; 116; 97; 110; 46; 101; 120; 99; 101; 112; 116; 105; 111; 110; 46; 77; 111; 116; 97; 110; 83; 101; 114; 118; 105; 99; 101; 69; 120; 99; 101; 112; 116; 105; 111; 110; 150; 8; 101; 114; 114; 111; 114; 77; 115; 103; 13; 100; 101; 116; 97; 105; 108; 77; 101; 115; 115; 97; 103; 101; 5; 99; 97; 117; 115; 101; 13; 109; 111; 116; 97; 110; 69; 114; 114; 111; 114; 77; 115; 103; 10; 115; 116; 97; 99; 107; 84; 114; 97; 99; 101; 20; 115; 117; 112; 112; 114; 101; 115; 115; 101; 100; 69; 120; 99; 101; 112; 116; 105; 111; 110; 115; 96]%N.
Definition h_motanErrorMsgDesc : bs := bytesN [67; 48; 43; 99; 111; 109; 46; 119; 101; 105; 98; 111; 46; 97; 112; 105; 46; 109; 111; 116; 97; 110; 46; 101; 120; 99; 101; 112; 116; 105; 111; 110; 46; 77; 111; 116; 97; 110; 69; 114; 114; 111; 114; 77; 115; 103; 147; 6; 115; 116; 97; 116; 117; 115; 9; 101; 114; 114; 111; 114; 99; 111; 100; 101; 7; 109; 101; 115; 115; 97; 103; 101; 97]%N.

(* 205-236 heartbeat predicates and builders *)
Definition heartbeatInterface := s2b "com.weibo.api.motan.rpc.heartbeat".
Definition isV1HeartbeatReq (q : v1req) : bool := bs_eqb (rService q) heartbeatInterface && bs_eqb (rMethod q) heartbeatStr.
Definition isV1HeartbeatRes (r : v1res) : bool := match sValue r with Some s => bs_eqb s heartbeatStr | None => false end.
Definition buildV1HeartbeatReq (rid : N) : bs := writeV1Rid baseV1HeartbeatReq rid.
Definition buildV1HeartbeatRes (rid : N) : bs := writeV1Rid baseV1HeartbeatRes rid.

(* 848-862 writeHessianString; byte(x) truncates *)
Definition writeHessianString (s : bs) : bs :=
  let l := N.of_nat (length s) in
  (if (l <=? 31)%N then [n2b l]
   else if (l <=? 1023)%N then [n2b (48 + N.shiftr l 8); n2b l]
   else [x53; n2b (N.shiftr l 8); n2b l]) ++ s.

(* 238-278 BuildV1ExceptionResponse, on the byte buffer of core/bytes.go; writeV1Rid works in place on the bytes
   written so far, which are the 32 header bytes at the start of the backing array *)
Definition buildV1ExceptionResponse (rid : N) (errMsg : bs) : bs :=
  if bs_empty errMsg then []
  else
    let b0 := write (newBuf (350 + length errMsg) BigE) baseV1ExceptionRes in
    let b1 := mkBuf (writeV1Rid (bytesOf b0) rid ++ skipn (bwpos b0) (bbuf b0)) (brpos b0) (bwpos b0) (border b0) in
    let b2 := write b1 baseV1ResObjectStream in
    let arrPos := getWPos b2 in
    let b3 := setWPos b2 (arrPos + 4) in
    let b4 := write (write (write b3 h_exceptionDesc) (s2b "NNN")) h_motanErrorMsgDesc in
    let b5 := write (write b4 (bytesN [201; 247; 212; 39; 17]%N)) (writeHessianString errMsg) in
    let b6 := write b5 (s2b "NN") in
    let wpos := getWPos b6 in
    let b7 := writeUint32 (setWPos b6 arrPos) (N.of_nat (wpos - arrPos - 4) mod 2 ^ 32) in
    let b8 := writeUint32 (setWPos b7 28) (N.of_nat (wpos - 32) mod 2 ^ 32) in
    let b9 := writeUint32 (setWPos b8 12) (N.of_nat (wpos - 16) mod 2 ^ 32) in
    bytesOf (setWPos b9 wpos).
