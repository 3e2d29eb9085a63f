(* SimpleModel.v: serialize/simple.go, the "simple" serialization. *)
From Verif Require Import Base BytesModel.

(* The dynamic values serializeBuf distinguishes (serialize/simple.go:83-118 switches on reflect.Kind and on the
   type strings "[]string", "[]uint8" and "map[string]string").  Simplifications: the static element type of
   other slices and maps is dropped ([]int is VArr of VInt); a nil slice or map is identified with an empty one;
   floats are their IEEE bit patterns; VUnsupported stands for every other kind (struct, pointer, int8, uint64,
   chan, ...).  Maps are listed in the order in which MapKeys happens to enumerate them. *)
Inductive value :=
| VNull
| VStr (s : bs)
| VStrMap (m : list (bs * bs))
| VBytes (p : bs)
| VStrArr (a : list bs)
| VBool (b : bool)
| VByte (c : byte)
| VI16 (z : Z)
| VI32 (z : Z)
| VInt (z : Z)
| VI64 (z : Z)
| VF32 (bits : N)
| VF64 (bits : N)
| VMap (m : list (value * value))
| VArr (a : list value)
| VUnsupported.

(* serialize/simple.go:13-30 type tags *)
Definition sNull : byte := x00.
Definition sString : byte := x01.
Definition sStringMap : byte := x02.
Definition sByteArray : byte := x03.
Definition sStringArray : byte := x04.
Definition sBool : byte := x05.
Definition sByte : byte := x06.
Definition sInt16 : byte := x07.
Definition sInt32 : byte := x08.
Definition sInt64 : byte := x09.
Definition sFloat32 : byte := x0a.
Definition sFloat64 : byte := x0b.
Definition sMap : byte := x14.
Definition sArray : byte := x15.

(* IEEE-754 bit patterns (math.Float32bits / Float64bits) *)
Definition isNaN32 (b : N) : bool :=
  N.eqb (N.land b 0x7f800000) 0x7f800000 && negb (N.eqb (N.land b 0x007fffff) 0).
Definition isNaN64 (b : N) : bool :=
  N.eqb (N.land b 0x7ff0000000000000) 0x7ff0000000000000 && negb (N.eqb (N.land b 0x000fffffffffffff) 0).
Definition isZero32 (b : N) : bool := N.eqb (N.land b 0x7fffffff) 0.
Definition isZero64 (b : N) : bool := N.eqb (N.land b 0x7fffffffffffffff) 0.
(* float32 -> float64 -> float32 (rv.Float() then float32(f), simple.go:97,312): a NaN comes back quiet,
   every other value unchanged *)
Definition quiet32 (b : N) : N := if isNaN32 b then N.lor b 0x00400000 else b.

(* Go's == on two interface values holding map keys.  Different dynamic types are never equal. *)
Definition key_eqb (a b : value) : bool :=
  match a, b with
  | VNull, VNull => true
  | VStr x, VStr y => bs_eqb x y
  | VBool x, VBool y => Bool.eqb x y
  | VByte x, VByte y => byte_eqb x y
  | VI16 x, VI16 y | VI32 x, VI32 y | VInt x, VInt y | VI64 x, VI64 y => Z.eqb x y
  | VF32 x, VF32 y => negb (isNaN32 x) && negb (isNaN32 y) && (N.eqb x y || (isZero32 x && isZero32 y))
  | VF64 x, VF64 y => negb (isNaN64 x) && negb (isNaN64 y) && (N.eqb x y || (isZero64 x && isZero64 y))
  | _, _ => false
  end.

(* can the Go runtime hash this key?  m[k] with a slice or map inside the interface panics *)
Definition hashable (k : value) : bool :=
  match k with
  | VStrMap _ | VBytes _ | VStrArr _ | VMap _ | VArr _ => false
  | _ => true
  end.

(* m[k] = v for a map[interface{}]interface{} (the runtime also overwrites the stored key) *)
Fixpoint mapPut (m : list (value * value)) (k v : value) : list (value * value) :=
  match m with
  | [] => [(k, v)]
  | (k', v') :: m' => if key_eqb k' k then (k, v) :: m' else (k', v') :: mapPut m' k v
  end.

(* ------------------------------------------------------------------ encoding *)

(* result of serializeBuf: the buffer, ErrNotSupport, or (never, see SimpleProofs) out of fuel in WriteVarint *)
Inductive eres := EOk (b : buffer) | ENotSupport (b : buffer) | EFuel.

Definition ebind (r : eres) (k : buffer -> eres) : eres :=
  match r with EOk b => k b | ENotSupport b => ENotSupport b | EFuel => EFuel end.
Definition efuel (o : option buffer) : eres := match o with Some b => EOk b | None => EFuel end.

(* uint32(len): wraps for lengths of 4 GiB and more *)
Definition u32len (n : nat) : N := (N.of_nat n mod two32)%N.

(* simple.go:201-206 encodeStringNoTag *)
Definition encodeStringNoTag (s : bs) (b : buffer) : buffer :=
  write (writeUint32 b (u32len (length s))) s.
(* simple.go:196-199 encodeString *)
Definition encodeString (s : bs) (b : buffer) : buffer := encodeStringNoTag s (writeByte b sString).
(* simple.go:222-226 encodeBytes *)
Definition encodeBytes (p : bs) (b : buffer) : buffer :=
  write (writeUint32 (writeByte b sByteArray) (u32len (length p))) p.

(* the tail shared by all container encoders, e.g. simple.go:216-219:
   npos := GetWPos; SetWPos(pos); WriteUint32(npos-pos-4); SetWPos(npos) *)
Definition patchLen (pos : nat) (b : buffer) : buffer :=
  let npos := getWPos b in
  setWPos (writeUint32 (setWPos b pos) (u32len (npos - pos - 4))) npos.

(* simple.go:208-220 encodeStringMap *)
Definition encodeStringMap (m : list (bs * bs)) (b : buffer) : buffer :=
  let b1 := writeByte b sStringMap in
  let pos := getWPos b1 in
  let b2 := setWPos b1 (pos + 4) in
  let b3 := fold_left (fun b kv => encodeStringNoTag (snd kv) (encodeStringNoTag (fst kv) b)) m b2 in
  patchLen pos b3.
(* simple.go:228-239 encodeStringArray *)
Definition encodeStringArray (a : list bs) (b : buffer) : buffer :=
  let b1 := writeByte b sStringArray in
  let pos := getWPos b1 in
  let b2 := setWPos b1 (pos + 4) in
  let b3 := fold_left (fun b s => encodeStringNoTag s b) a b2 in
  patchLen pos b3.
(* simple.go:241-248 encodeBool *)
Definition encodeBool (x : bool) (b : buffer) : buffer :=
  writeByte (writeByte b sBool) (if x then x01 else x00).
(* simple.go:290-318 scalar encoders *)
Definition encodeByte (c : byte) (b : buffer) : buffer := writeByte (writeByte b sByte) c.
Definition encodeInt16 (z : Z) (b : buffer) : buffer := writeUint16 (writeByte b sInt16) (toUnsigned 16 z).
Definition encodeInt32 (z : Z) (b : buffer) : eres := efuel (writeZigzag32 (writeByte b sInt32) (toUnsigned 32 z)).
Definition encodeInt64 (z : Z) (b : buffer) : eres := efuel (writeZigzag64 (writeByte b sInt64) (toUnsigned 64 z)).
Definition encodeFloat32 (bits : N) (b : buffer) : buffer := writeUint32 (writeByte b sFloat32) (quiet32 bits).
Definition encodeFloat64 (bits : N) (b : buffer) : buffer := writeUint64 (writeByte b sFloat64) bits.

(* simple.go:66-120 serializeBuf on a value reached through reflection (inside a container).  A nil inside an
   interface element becomes the zero reflect.Value, whose kind is Invalid: ErrNotSupport (simple.go:78-79,116).
   encodeMap is simple.go:250-270 and encodeArray simple.go:272-288.  MapIndex of a NaN key finds nothing and
   returns the zero Value, again ErrNotSupport. *)
Fixpoint serializeIn (v : value) (b : buffer) {struct v} : eres :=
  match v with
  | VNull => ENotSupport b
  | VStr s => EOk (encodeString s b)
  | VBool x => EOk (encodeBool x b)
  | VByte c => EOk (encodeByte c b)
  | VI16 z => EOk (encodeInt16 z b)
  | VI32 z => encodeInt32 z b
  | VInt z | VI64 z => encodeInt64 z b
  | VF32 f => EOk (encodeFloat32 f b)
  | VF64 f => EOk (encodeFloat64 f b)
  | VStrArr a => EOk (encodeStringArray a b)
  | VBytes p => EOk (encodeBytes p b)
  | VStrMap m => EOk (encodeStringMap m b)
  | VArr a =>
      let b1 := writeByte b sArray in
      let pos := getWPos b1 in
      let b2 := setWPos b1 (pos + 4) in
      let fix elems (a : list value) (b : buffer) : eres :=
        match a with
        | [] => EOk b
        | x :: a' => ebind (serializeIn x b) (elems a')
        end in
      ebind (elems a b2) (fun b3 => EOk (patchLen pos b3))
  | VMap m =>
      let b1 := writeByte b sMap in
      let pos := getWPos b1 in
      let b2 := setWPos b1 (pos + 4) in
      let fix entries (m : list (value * value)) (b : buffer) : eres :=
        match m with
        | [] => EOk b
        | (k, x) :: m' =>
            ebind (serializeIn k b) (fun b' =>
            if key_eqb k k then ebind (serializeIn x b') (entries m') else ENotSupport b')
        end in
      ebind (entries m b2) (fun b3 => EOk (patchLen pos b3))
  | VUnsupported => ENotSupport b
  end.

(* simple.go:66-70: a nil interface passed directly is the only accepted nil *)
Definition serializeBuf (v : value) (b : buffer) : eres :=
  match v with
  | VNull => EOk (writeByte b sNull)
  | _ => serializeIn v b
  end.

(* simple.go:32 *)
Definition DefaultBufferSize : nat := 2048.

(* what the caller of Serialize gets *)
Inductive sres := SOk (p : bs) | SErr | SFuel.

(* simple.go:46-50 Serialize *)
Definition serialize (v : value) : sres :=
  match serializeBuf v (newBuf DefaultBufferSize BigE) with
  | EOk b => SOk (bytesOf b)
  | ENotSupport _ => SErr
  | EFuel => SFuel
  end.

Fixpoint serializeAll (vs : list value) (b : buffer) : eres :=
  match vs with
  | [] => EOk b
  | v :: vs' => ebind (serializeBuf v b) (serializeAll vs')
  end.

(* simple.go:52-64 SerializeMulti (a nil slice and an empty one are not distinguished) *)
Definition serializeMulti (vs : list value) : sres :=
  match vs with
  | [] => SOk []
  | _ => match serializeAll vs (newBuf DefaultBufferSize BigE) with
         | EOk b => SOk (bytesOf b)
         | ENotSupport _ => SErr
         | EFuel => SFuel
         end
  end.

(* ------------------------------------------------------------------ decoding *)

Inductive derr := DBuf (e : berr) | DWrongSize | DNotSupport.
(* DPanic: the runtime panics ("hash of unhashable type"); DFuel: never, see SimpleProofs *)
Inductive dres (A : Type) := DOk (a : A) | DErr (e : derr) | DPanic | DFuel.
Arguments DOk {A} a. Arguments DErr {A} e. Arguments DPanic {A}. Arguments DFuel {A}.

Definition dbind {A B} (r : dres A * buffer) (k : A -> buffer -> dres B * buffer) : dres B * buffer :=
  match r with
  | (DOk a, b) => k a b
  | (DErr e, b) => (DErr e, b)
  | (DPanic, b) => (DPanic, b)
  | (DFuel, b) => (DFuel, b)
  end.
Definition liftRes {A} (r : res A * buffer) : dres A * buffer :=
  match r with (ROk a, b) => (DOk a, b) | (RErr e, b) => (DErr (DBuf e), b) end.
Definition dmap {A B} (f : A -> B) (r : dres A * buffer) : dres B * buffer :=
  dbind r (fun a b => (DOk (f a), b)).

(* buf.Next(size) for a size read from the wire (core/bytes.go:257-265); the comparison is done in N *)
Definition nextN (b : buffer) (n : N) : res bs * buffer :=
  if (N.of_nat (bwpos b) <? N.of_nat (brpos b) + n)%N then (RErr ErrNotEnough, b)
  else next b (N.to_nat n).

(* simple.go:349-365 decodeString *)
Definition decodeString (b : buffer) : dres bs * buffer :=
  dbind (liftRes (readInt b)) (fun size b1 => liftRes (nextN b1 size)).
(* simple.go:401-416 decodeBytes *)
Definition decodeBytes (b : buffer) : dres bs * buffer :=
  dbind (liftRes (readInt b)) (fun size b1 => liftRes (nextN b1 size)).

(* map[string]string m[k] = v *)
Definition strPut (m : list (bs * bs)) (k v : bs) : list (bs * bs) := aset bs_eqb m k v.

(* the loops "for buf.GetRPos() < endPos"; endPos is kept in N because it comes from the wire.
   simple.go:367-399 decodeStringMap *)
Fixpoint strMapLoop (fuel : nat) (endPos : N) (m : list (bs * bs)) (b : buffer) : dres (list (bs * bs)) * buffer :=
  match fuel with
  | O => (DFuel, b)
  | S f =>
      if (N.of_nat (brpos b) <? endPos)%N then
        dbind (decodeString b) (fun k b1 =>
        dbind (decodeString b1) (fun x b2 => strMapLoop f endPos (strPut m k x) b2))
      else if N.eqb (N.of_nat (brpos b)) endPos then (DOk m, b) else (DErr DWrongSize, b)
  end.
(* simple.go:483-511 decodeStringArray *)
Fixpoint strArrLoop (fuel : nat) (endPos : N) (a : list bs) (b : buffer) : dres (list bs) * buffer :=
  match fuel with
  | O => (DFuel, b)
  | S f =>
      if (N.of_nat (brpos b) <? endPos)%N then
        dbind (decodeString b) (fun s b1 => strArrLoop f endPos (a ++ [s]) b1)
      else if N.eqb (N.of_nat (brpos b)) endPos then (DOk a, b) else (DErr DWrongSize, b)
  end.
(* simple.go:418-451 decodeMap; [dec] is the recursive deSerializeBuf(buf, nil) *)
Fixpoint mapLoop (dec : buffer -> dres value * buffer) (fuel : nat) (endPos : N)
    (m : list (value * value)) (b : buffer) : dres (list (value * value)) * buffer :=
  match fuel with
  | O => (DFuel, b)
  | S f =>
      if (N.of_nat (brpos b) <? endPos)%N then
        dbind (dec b) (fun k b1 =>
        dbind (dec b1) (fun x b2 =>
        if hashable k then mapLoop dec f endPos (mapPut m k x) b2 else (DPanic, b2)))
      else if N.eqb (N.of_nat (brpos b)) endPos then (DOk m, b) else (DErr DWrongSize, b)
  end.
(* simple.go:453-481 decodeArray *)
Fixpoint arrLoop (dec : buffer -> dres value * buffer) (fuel : nat) (endPos : N)
    (a : list value) (b : buffer) : dres (list value) * buffer :=
  match fuel with
  | O => (DFuel, b)
  | S f =>
      if (N.of_nat (brpos b) <? endPos)%N then
        dbind (dec b) (fun x b1 => arrLoop dec f endPos (a ++ [x]) b1)
      else if N.eqb (N.of_nat (brpos b)) endPos then (DOk a, b) else (DErr DWrongSize, b)
  end.

(* "total, err := ReadInt(); if total <= 0 return nil; endPos := GetRPos()+total; loop" *)
Definition container {A} (loop : N -> buffer -> dres (list A) * buffer) (b : buffer) : dres (list A) * buffer :=
  dbind (liftRes (readInt b)) (fun total b1 =>
  if N.eqb total 0 then (DOk [], b1) else loop (N.of_nat (brpos b1) + total)%N b1).

(* The kinds of target the caller may pass as second argument: nothing, reflect.TypeOf([]byte), or a pointer. *)
Inductive target :=
| TNone | TBytesType
| TPString | TPStrMap | TPBytes | TPStrArr | TPBool | TPByte | TPInt16 | TPInt32 | TPInt64 | TPInt
| TPFloat32 | TPFloat64 | TPMap | TPArr | TPOther.

(* simple.go:337-347 compatDecodeString: a []byte target turns a string into bytes *)
Definition wantsBytes (t : target) : bool := match t with TBytesType | TPBytes => true | _ => false end.

(* simple.go:158-194 deSerializeBuf, with the decoders inlined per tag (simple.go:320-594) *)
Fixpoint deSerializeBuf (fuel : nat) (t : target) (b : buffer) {struct fuel} : dres value * buffer :=
  match fuel with
  | O => (DFuel, b)
  | S f =>
      dbind (liftRes (readByte b)) (fun tp b1 =>
      if byte_eqb tp sNull then (DOk VNull, b1)
      else if byte_eqb tp sString then
        if wantsBytes t then dmap VBytes (decodeBytes b1) else dmap VStr (decodeString b1)
      else if byte_eqb tp sStringMap then dmap VStrMap (container (fun e => strMapLoop f e []) b1)
      else if byte_eqb tp sByteArray then dmap VBytes (decodeBytes b1)
      else if byte_eqb tp sStringArray then dmap VStrArr (container (fun e => strArrLoop f e []) b1)
      else if byte_eqb tp sBool then dmap (fun c => VBool (byte_eqb c x01)) (liftRes (readByte b1))
      else if byte_eqb tp sByte then dmap VByte (liftRes (readByte b1))
      else if byte_eqb tp sInt16 then dmap (fun n => VI16 (toSigned 16 n)) (liftRes (readUint16 b1))
      else if byte_eqb tp sInt32 then
        dmap (fun n => VI32 (toSigned 32 (n mod two32))) (liftRes (readZigzag32 b1))
      else if byte_eqb tp sInt64 then dmap (fun n => VI64 (toSigned 64 n)) (liftRes (readZigzag64 b1))
      else if byte_eqb tp sFloat32 then dmap VF32 (liftRes (readUint32 b1))
      else if byte_eqb tp sFloat64 then dmap VF64 (liftRes (readUint64 b1))
      else if byte_eqb tp sMap then
        dmap VMap (container (fun e => mapLoop (deSerializeBuf f TNone) f e []) b1)
      else if byte_eqb tp sArray then
        dmap VArr (container (fun e => arrLoop (deSerializeBuf f TNone) f e []) b1)
      else (DErr DNotSupport, b1))
  end.

(* What is stored through the caller's pointer, given the decoded value: the "if sv, ok := v.( *T)" parts of
   simple.go:320-594.  [None]: the target is left alone.  Empty containers return before the assignment
   (simple.go:372,423,458,488). *)
Definition assigned (t : target) (v : value) : option value :=
  match t, v with
  | TPString, VStr _ | TPBytes, VBytes _ | TPBool, VBool _ | TPByte, VByte _ | TPInt16, VI16 _
  | TPInt32, VI32 _ | TPInt64, VI64 _ | TPInt, VI64 _ | TPFloat32, VF32 _ | TPFloat64, VF64 _ => Some v
  | TPStrMap, VStrMap (_ :: _) | TPStrArr, VStrArr (_ :: _) | TPMap, VMap (_ :: _) | TPArr, VArr (_ :: _) => Some v
  | _, _ => None
  end.

(* simple.go:122-128 DeSerialize.  Every loop iteration and nested call consumes a byte, so the number of
   bytes bounds the recursion. *)
Definition deserialize (p : bs) (t : target) : dres value * buffer :=
  match p with
  | [] => (DOk VNull, createBuf p BigE)
  | _ => deSerializeBuf (S (length p)) t (createBuf p BigE)
  end.

(* simple.go:133-140: targets given *)
Fixpoint deserializeEach (fuel : nat) (ts : list target) (acc : list value) (b : buffer)
  : dres (list value) * buffer :=
  match ts with
  | [] => (DOk acc, b)
  | t :: ts' => dbind (deSerializeBuf fuel t b) (fun v b1 => deserializeEach fuel ts' (acc ++ [v]) b1)
  end.
(* simple.go:141-153: no targets; an io.EOF ends the loop without an error *)
Fixpoint deserializeRest (fuel : nat) (loopFuel : nat) (acc : list value) (b : buffer)
  : dres (list value) * buffer :=
  match loopFuel with
  | O => (DFuel, b)
  | S g =>
      if brpos b <? bwpos b then
        match deSerializeBuf fuel TNone b with
        | (DOk v, b1) => deserializeRest fuel g (acc ++ [v]) b1
        | (DErr (DBuf ErrEOF), b1) => (DOk acc, b1)
        | (DErr e, b1) => (DErr e, b1)
        | (DPanic, b1) => (DPanic, b1)
        | (DFuel, b1) => (DFuel, b1)
        end
      else (DOk acc, b)
  end.
(* simple.go:130-156 DeSerializeMulti; [None] is a nil target slice *)
Definition deserializeMulti (p : bs) (ts : option (list target)) : dres (list value) * buffer :=
  let b := createBuf p BigE in
  match ts with
  | Some l => deserializeEach (S (length p)) l [] b
  | None => deserializeRest (S (length p)) (S (length p)) [] b
  end.
