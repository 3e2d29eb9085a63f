(* PbModel.v: model of serialize/pb.go: PbSerialization and GrpcPbSerialization.

   The protobuf library (golang/protobuf v1.3.2, not in /repo) appears in two ways.  Its Buffer primitives (EncodeVarint, DecodeVarint,
   EncodeZigzag32/64, EncodeFixed32/64, EncodeStringBytes, DecodeRawBytes) are written out here after the library's source.  What it does
   with a message of the user is an oracle, the record [codec]. *)
From Verif Require Import Base BytesModel.

(* io.ErrUnexpectedEOF, proto's errOverflow, proto's "bad byte length", "not support ... type", ErrNilParam, ErrMultiParam,
   ErrNotMessageParam, any other error of the library *)
Inductive perr := EEof | EOverflow | EBadLen | EUnsupported | ENilParam | EMultiParam | ENotMessage | ELib.

(* a message type is a number, the contents of messages are an arbitrary type [M]: the empty message of a type, Marshal (None: it fails, e.g.
   a required field is missing), and Unmarshal into a message that already has contents (the contents afterwards, and the error) *)
Record codec (M : Type) := mkCodec {
  cZero : nat -> M;
  cMarshal : nat -> M -> option bs;
  cMerge : nat -> M -> bs -> M * option perr }.
Arguments cZero {M}. Arguments cMarshal {M}. Arguments cMerge {M}.

(* ------------------------------------------------------------ proto.Buffer *)
(* EncodeVarint: for x >= 1<<7 { append(uint8(x&0x7f|0x80)); x >>= 7 }; append(uint8(x)).  Ten rounds are enough for 64 bits *)
Fixpoint encVarintLoop (fuel : nat) (x : N) : bs :=
  match fuel with
  | O => []
  | S f => if (x <? 128)%N then [n2b x] else n2b (N.lor (N.land x 127) 128) :: encVarintLoop f (N.shiftr x 7)
  end.
Definition encVarint (x : N) : bs := encVarintLoop 10 x.
(* DecodeVarint: shift = 0,7,...,63; the index does not move when it fails *)
Fixpoint decVarintLoop (rounds : nat) (shift : N) (x : N) (l : bs) : perr + N * bs :=
  match rounds with
  | O => inl EOverflow
  | S r =>
      match l with
      | [] => inl EEof
      | c :: l' =>
          let x' := ((x + (b2n c mod 128) * 2 ^ shift) mod two64)%N in
          if (b2n c <? 128)%N then inr (x', l') else decVarintLoop r (shift + 7) x' l'
      end
  end.
Definition decVarint (l : bs) : perr + N * bs := decVarintLoop 10 0 0 l.
(* EncodeZigzag32(x): uint64((uint32(x) << 1) ^ uint32((int32(x) >> 31))) *)
Definition encZigzag32 (x : N) : bs := encVarint (zigzag32 (x mod two32)).
Definition encZigzag64 (x : N) : bs := encVarint (zigzag64 x).
(* DecodeZigzag32: uint64((uint32(x) >> 1) ^ uint32((int32(x&1)<<31)>>31)): the same number as [unzigzag32] *)
Definition decZigzag32 (l : bs) : perr + N * bs :=
  match decVarint l with inl e => inl e | inr (x, l') => inr (unzigzag32 x, l') end.
Definition decZigzag64 (l : bs) : perr + N * bs :=
  match decVarint l with inl e => inl e | inr (x, l') => inr (unzigzag64 x, l') end.
(* EncodeFixed32/64: little endian; DecodeFixed32/64 *)
Definition encFixed (k : nat) (x : N) : bs := leBytes k x.
Definition decFixed (k : nat) (l : bs) : perr + N * bs :=
  if length l <? k then inl EEof else inr (leVal (firstn k l), skipn k l).
(* EncodeStringBytes / EncodeRawBytes; DecodeStringBytes / DecodeRawBytes: int(n) < 0 is refused *)
Definition encBytes (s : bs) : bs := encVarint (N.of_nat (length s)) ++ s.
Definition decBytes (l : bs) : perr + bs * bs :=
  match decVarint l with
  | inl e => inl e
  | inr (n, l') =>
      if (2 ^ 63 <=? n)%N then inl EBadLen
      else if (N.of_nat (length l') <? n)%N then inl EEof
      else inr (firstn (N.to_nat n) l', skipn (N.to_nat n) l')
  end.

(* ------------------------------------------------------------ values *)
(* What a caller passes: the dynamic value of an interface.  A reflect.Value argument (113) is treated as the value it holds.
   A message is a pointer to a struct; [GStruct] alone is a struct passed by value, which is not addressable. *)
Inductive selem := SIface | SPtr | SOther.   (* []proto.Message, []*T for a message T, any other element type *)
Inductive gval (M : Type) :=
| GNil
| GBool (b : bool)
| GI16 (z : Z) | GI32 (z : Z) | GU16 (n : N) | GU32 (n : N)
| GInt (z : Z) | GI64 (z : Z) | GUint (n : N) | GU64 (n : N)
| GF32 (bits : N) | GF64 (bits : N)
| GStr (s : bs) | GU8 (n : N)
| GStruct (t : nat) (m : M)
| GPtr (o : option (gval M))
| GSlice (k : selem) (l : list (gval M))
| GOther.                                   (* int8, maps, channels, functions, structs that are no messages *)
Arguments GNil {M}. Arguments GBool {M}. Arguments GI16 {M}. Arguments GI32 {M}. Arguments GU16 {M}. Arguments GU32 {M}.
Arguments GInt {M}. Arguments GI64 {M}. Arguments GUint {M}. Arguments GU64 {M}. Arguments GF32 {M}. Arguments GF64 {M}.
Arguments GStr {M}. Arguments GU8 {M}. Arguments GStruct {M}. Arguments GPtr {M}. Arguments GSlice {M}. Arguments GOther {M}.

(* 139: float32(rv.Float()) goes through float64, which makes a signalling NaN quiet *)
Definition isNaN32 (x : N) : bool := (2139095040 <? x mod 2147483648)%N.
Definition quiet32 (x : N) : N := if isNaN32 x then N.lor x 4194304 else x.

Inductive sres := SOk (b : bs) | SErr | SPanic.
Definition sbind (a : sres) (f : bs -> sres) : sres := match a with SOk b => f b | SErr => SErr | SPanic => SPanic end.

(* 124-168: the part behind the marker for a value that is no slice; [addr]: rv.CanAddr() *)
Definition serBody {M} (c : codec M) (addr : bool) (v : gval M) : sres :=
  match v with
  | GBool b => SOk (encVarint (if b then 1 else 0)%N)
  | GI32 z | GI16 z => SOk (encZigzag32 (toUnsigned 64 z))
  | GU32 n | GU16 n => SOk (encZigzag32 n)
  | GInt z | GI64 z => SOk (encZigzag64 (toUnsigned 64 z))
  | GUint n | GU64 n => SOk (encZigzag64 n)
  | GF32 x => SOk (encFixed 4 (quiet32 x))
  | GF64 x => SOk (encFixed 8 x)
  | GStr s => SOk (encBytes s)
  | GU8 n => SOk (encVarint n)
  | GStruct t m => if addr then match cMarshal c t m with Some b => SOk (encBytes b) | None => SErr end else SErr
  | GNil | GPtr _ | GSlice _ _ | GOther => SErr
  end.
(* 107-123 for an element of a slice, which is what iv.Elem().Interface() is (156): a nil pointer, a pointer to a message, a struct *)
Definition serElem {M} (c : codec M) (v : gval M) : sres :=
  match v with
  | GNil | GPtr None => SOk (encVarint 1)
  | GPtr (Some v') => sbind (serBody c true v') (fun b => SOk (encVarint 0 ++ b))
  | _ => sbind (serBody c false v) (fun b => SOk (encVarint 0 ++ b))
  end.
(* 146-160 *)
Fixpoint serElems {M} (c : codec M) (k : selem) (l : list (gval M)) : sres :=
  match l with
  | [] => SOk []
  | v :: l' =>
      match k with
      | SOther => SErr                                                     (* 149-155: the element is no message *)
      | SIface =>
          match v with
          | GNil => SErr                                                   (* a nil interface is no message *)
          | _ => sbind (serElem c v) (fun b => sbind (serElems c k l') (fun b' => SOk (b ++ b')))
          end
      | SPtr =>
          match v with
          | GPtr (Some v') => sbind (serElem c v') (fun b => sbind (serElems c k l') (fun b' => SOk (b ++ b')))  (* Elem() is the struct *)
          | _ => SPanic                                                    (* Elem() of a nil pointer has no Interface() *)
          end
      end
  end.
(* 107-169 serializeBuf *)
Definition serBuf {M} (c : codec M) (v : gval M) : sres :=
  match v with
  | GNil | GPtr None => SOk (encVarint 1)
  | GPtr (Some (GSlice k l)) | GSlice k l => sbind (serElems c k l) (fun b => SOk (encVarint 0 ++ b))
  | GPtr (Some v') => sbind (serBody c true v') (fun b => SOk (encVarint 0 ++ b))
  | _ => sbind (serBody c false v) (fun b => SOk (encVarint 0 ++ b))
  end.
(* 90-94; with an error the bytes are not used *)
Definition serialize {M} (c : codec M) (v : gval M) : sres := serBuf c v.
(* 96-105 *)
Fixpoint serializeMulti {M} (c : codec M) (vs : list (gval M)) : sres :=
  match vs with
  | [] => SOk []
  | v :: vs' => sbind (serBuf c v) (fun b => sbind (serializeMulti c vs') (fun b' => SOk (b ++ b')))
  end.

(* ------------------------------------------------------------ reading *)
(* the type asked for *)
Inductive gty := YBool | YI16 | YI32 | YU16 | YU32 | YInt | YI64 | YUint | YU64 | YF32 | YF64 | YStr | YU8 | YMsg (t : nat) | YOther.
(* what is passed as the target: nil, a reflect.Type (or a value of a plain type), a pointer to a variable of the type (for a message type:
   the message, which has contents already), a pointer to a slice of pointers to messages (with its elements), a pointer to another slice *)
Inductive gtarget (M : Type) := ANil | AType (y : gty) | APtr (y : gty) (cur : M) | ASlice (t : nat) (l : list M) | ASliceOther.
Arguments ANil {M}. Arguments AType {M}. Arguments APtr {M}. Arguments ASlice {M}. Arguments ASliceOther {M}.

(* what a call gives: the error or the returned value, what was assigned to the variable behind the pointer, the bytes left *)
Record dres (M : Type) := mkDres { dOut : perr + gval M; dStore : option (gval M); dRest : bs }.
Arguments mkDres {M}. Arguments dOut {M}. Arguments dStore {M}. Arguments dRest {M}.

(* one number or string read: 221-225 and so on: on an error the zero value goes to the variable, and the error is returned *)
Definition rd {M A} (ptr : bool) (r : perr + A * bs) (zero : A) (f : A -> gval M) (l : bs) : dres M :=
  match r with
  | inl e => mkDres (inl e) (if ptr then Some (f zero) else None) l
  | inr (x, l') => mkDres (inr (f x)) (if ptr then Some (f x) else None) l'
  end.
Definition int16of (x : N) : Z := toSigned 16 (x mod 65536).
Definition int32of (x : N) : Z := toSigned 32 (x mod two32).
(* 207-309, for everything but slices.  [ptr]: the target is a pointer to a variable of exactly this type *)
Definition deBody {M} (c : codec M) (y : gty) (ptr : bool) (cur : M) (l : bs) : dres M :=
  match y with
  | YBool =>
      match decVarint l with                                               (* 209-219: nothing is assigned on an error *)
      | inl e => mkDres (inl e) None l
      | inr (x, l') => mkDres (inr (GBool (x =? 1)%N)) (if ptr then Some (GBool (x =? 1)%N) else None) l'
      end
  | YI16 => rd ptr (decZigzag32 l) 0%N (fun x => GI16 (int16of x)) l
  | YU16 => rd ptr (decZigzag32 l) 0%N (fun x => GU16 (x mod 65536)%N) l
  | YI32 => rd ptr (decZigzag32 l) 0%N (fun x => GI32 (int32of x)) l
  | YU32 => rd ptr (decZigzag32 l) 0%N (fun x => GU32 (x mod two32)%N) l
  | YI64 => rd ptr (decZigzag64 l) 0%N (fun x => GI64 (toSigned 64 x)) l
  | YInt => rd false (decZigzag64 l) 0%N (fun x => GI64 (toSigned 64 x)) l   (* 244-249: v is no *int64 *)
  | YU64 => rd ptr (decZigzag64 l) 0%N (fun x => GU64 x) l
  | YUint => rd false (decZigzag64 l) 0%N (fun x => GU64 x) l                (* 250-255: v is no *uint64 *)
  | YF32 => rd ptr (decFixed 4 l) 0%N (fun x => GF32 x) l
  | YF64 => rd ptr (decFixed 8 l) 0%N (fun x => GF64 x) l
  | YStr => rd ptr (decBytes l) [] (fun x => GStr x) l
  | YU8 => rd ptr (decVarint l) 0%N (fun x => GU8 (x mod 256)%N) l
  | YMsg t =>                                                              (* 300-307, DecodeMessage *)
      match decBytes l with
      | inl e => mkDres (inl e) None l
      | inr (b, l') =>
          let r := cMerge c t (if ptr then cur else cZero c t) b in
          let s := if ptr then Some (GPtr (Some (GStruct t (fst r)))) else None in
          match snd r with
          | Some e => mkDres (inl e) s l'
          | None => mkDres (inr (GPtr (Some (GStruct t (fst r))))) s l'
          end
      end
  | YOther => mkDres (inl EUnsupported) None l
  end.
(* 288-298: one message object is filled again and again; [n] elements so far.  Every round takes at least one byte, so that [fuel] above the
   number of bytes is never used up *)
Fixpoint deSlice {M} (c : codec M) (t : nat) (fuel : nat) (n : nat) (cur : M) (l : bs) : (perr + nat) * M * bs :=
  match fuel with
  | O => (inr n, cur, l)
  | S f =>
      match decVarint l with
      | inl EEof => (inr n, cur, l)
      | inl e => (inl e, cur, l)
      | inr (i, l1) =>
          if (i =? 1)%N then deSlice c t f (S n) cur l1
          else
            let r := deBody c (YMsg t) true cur l1 in
            let cur' := match dStore r with Some (GPtr (Some (GStruct _ m))) => m | _ => cur end in
            match dOut r with
            | inl EEof => (inr n, cur', dRest r)
            | inl e => (inl e, cur', dRest r)
            | inr _ => deSlice c t f (S n) cur' (dRest r)
            end
      end
  end.
Definition msgRef {M} (t : nat) (m : M) : gval M := GPtr (Some (GStruct t m)).
(* 189-310 deSerializeBuf *)
Definition deBuf {M} (c : codec M) (a : gtarget M) (l : bs) : dres M :=
  match decVarint l with
  | inl e => mkDres (inl e) None l
  | inr (i, l1) =>
      if (i =? 1)%N then mkDres (inr GNil) None l1
      else
        match a with
        | ANil => mkDres (inl ENilParam) None l1
        | AType y => deBody c y false (cZero c 0) l1
        | APtr y cur => deBody c y true cur l1
        | ASlice t old =>
            let '(o, m, l2) := deSlice c t (S (length l1)) 0 (cZero c t) l1 in
            match o with
            | inl e => mkDres (inl e) None l2
            | inr n => let s := GSlice SPtr (map (msgRef t) old ++ repeat (msgRef t m) n) in mkDres (inr s) (Some s) l2
            end
        | ASliceOther => mkDres (inl EUnsupported) None l1
        end
  end.
(* 171-174 *)
Definition deserialize {M} (c : codec M) (b : bs) (a : gtarget M) : dres M := deBuf c a b.
(* 176-187: the values returned.  The variables behind the pointers are those of [deBuf] *)
Fixpoint deMulti {M} (c : codec M) (l : bs) (targets : list (gtarget M)) : perr + list (gval M * option (gval M)) :=
  match targets with
  | [] => inr []
  | a :: targets' =>
      let r := deBuf c a l in
      match dOut r with
      | inl e => inl e
      | inr v => match deMulti c (dRest r) targets' with inl e => inl e | inr vs => inr ((v, dStore r) :: vs) end
      end
  end.

(* ------------------------------------------------------------ GrpcPbSerialization *)
(* 35-48: only a message (a pointer to one); for a nil pointer the library refuses, an error as well *)
Definition grpcSer {M} (c : codec M) (v : gval M) : perr + bs :=
  match v with
  | GNil => inl ENilParam
  | GPtr (Some (GStruct t m)) => match cMarshal c t m with Some b => inr b | None => inl ELib end
  | _ => inl ENotMessage
  end.
(* 25-33; [None] is the nil slice *)
Definition grpcSerMulti {M} (c : codec M) (vs : option (list (gval M))) : perr + bs :=
  match vs with None => inl ENilParam | Some [v] => grpcSer c v | Some _ => inl EMultiParam end.
(* 64-81: proto.Unmarshal empties the message first *)
Definition grpcDe {M} (c : codec M) (b : bs) (a : gtarget M) : perr + gval M :=
  match a with
  | ANil => inl ENilParam
  | APtr (YMsg t) _ | AType (YMsg t) =>
      match cMerge c t (cZero c t) b with (m, None) => inr (msgRef t m) | (_, Some e) => inl e end
  | _ => inl ENotMessage
  end.
(* 50-62 *)
Definition grpcDeMulti {M} (c : codec M) (b : bs) (targets : option (list (gtarget M))) : perr + list (gval M) :=
  match targets with
  | None => inl ENilParam
  | Some [a] => match grpcDe c b a with inl e => inl e | inr v => inr [v] end
  | Some _ => inl EMultiParam
  end.
