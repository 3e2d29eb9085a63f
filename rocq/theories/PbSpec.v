(* PbSpec.v: what C80 says, without the serializer.  [spec_varint], [spec_zigzag] and [spec_uint] are those of BytesSpec.v. *)
From Verif Require Import Base BytesModel BytesSpec PbModel.

(* plain values in the range of their Go type (integers: the range, floats: the bit patterns, without signalling NaNs for float32) *)
Definition plain_ok {M} (v : gval M) : Prop :=
  match v with
  | GBool _ => True
  | GI16 z => (- 2 ^ 15 <= z < 2 ^ 15)%Z
  | GI32 z => (- 2 ^ 31 <= z < 2 ^ 31)%Z
  | GInt z | GI64 z => (- 2 ^ 63 <= z < 2 ^ 63)%Z
  | GU16 n => (n < 2 ^ 16)%N
  | GU32 n => (n < 2 ^ 32)%N
  | GUint n | GU64 n => (n < 2 ^ 64)%N
  | GF32 x => (x < 2 ^ 32)%N /\ ((x mod 2 ^ 31 <= 2139095040)%N \/ N.testbit x 22 = true) (* no NaN, or a quiet one *)
  | GF64 x => (x < 2 ^ 64)%N
  | GStr s => (N.of_nat (length s) < 2 ^ 63)%N
  | GU8 n => (n < 2 ^ 8)%N
  | _ => False
  end.
(* the type of a plain value *)
Definition plain_type {M} (v : gval M) : gty :=
  match v with
  | GBool _ => YBool | GI16 _ => YI16 | GI32 _ => YI32 | GU16 _ => YU16 | GU32 _ => YU32 | GInt _ => YInt | GI64 _ => YI64
  | GUint _ => YUint | GU64 _ => YU64 | GF32 _ => YF32 | GF64 _ => YF64 | GStr _ => YStr | GU8 _ => YU8 | _ => YOther
  end.
(* the library's contract: what Marshal wrote, Unmarshal reads back into an empty message *)
Definition codec_ok {M} (c : codec M) : Prop := forall t m b, cMarshal c t m = Some b -> cMerge c t (cZero c t) b = (m, None).
(* a message the library can write *)
Definition msg_ok {M} (c : codec M) (t : nat) (m : M) (b : bs) : Prop := cMarshal c t m = Some b /\ (N.of_nat (length b) < 2 ^ 63)%N.

(* the format on the wire: what a peer written in another language reads *)
Definition wire_plain {M} (v : gval M) : bs :=
  match v with
  | GBool b => [if b then x01 else x00]
  | GI16 z | GI32 z | GInt z | GI64 z => spec_varint (spec_zigzag z)
  | GU16 n => spec_varint (spec_zigzag (Z.of_N n))
  | GU32 n => spec_varint (spec_zigzag (toSigned 32 n))       (* the signed number with the same bits *)
  | GUint n | GU64 n => spec_varint (spec_zigzag (toSigned 64 n))
  | GF32 x => spec_uint LittleE 4 x
  | GF64 x => spec_uint LittleE 8 x
  | GStr s => spec_varint (N.of_nat (length s)) ++ s
  | GU8 n => spec_varint n
  | _ => []
  end.
(* the arguments that can be sent, with their bytes: 1 for nil, 0 and the value otherwise *)
Inductive wire {M} (c : codec M) : gval M -> bs -> Prop :=
| WNil : wire c GNil [x01]
| WNilPtr : wire c (GPtr None) [x01]
| WPlain v : plain_ok v -> wire c v (x00 :: wire_plain v)
| WPtr v : plain_ok v -> wire c (GPtr (Some v)) (x00 :: wire_plain v)
| WMsg t m b : msg_ok c t m b -> wire c (GPtr (Some (GStruct t m))) (x00 :: spec_varint (N.of_nat (length b)) ++ b).

(* what arrives: int and uint arrive as int64 and uint64, a pointer to a plain value as the value *)
Definition arrived {M} (v : gval M) : gval M :=
  let plain (w : gval M) := match w with GInt z => GI64 z | GUint n => GU64 n | _ => w end in
  match v with
  | GPtr None => GNil
  | GPtr (Some (GStruct t m)) => v
  | GPtr (Some w) => plain w
  | _ => plain v
  end.
Definition is_nil {M} (v : gval M) : bool := match v with GNil | GPtr None => true | _ => false end.
Definition type_of {M} (v : gval M) : gty :=
  match v with GPtr (Some (GStruct t _)) => YMsg t | GPtr (Some w) => plain_type w | _ => plain_type v end.
(* targets that fit: for nil any; otherwise the type, or a pointer to a variable of the type; a message that is passed must be empty *)
Definition target_for {M} (c : codec M) (v : gval M) (a : gtarget M) : Prop :=
  is_nil v = true \/ a = AType (type_of v) \/
  exists cur, a = APtr (type_of v) cur /\ (forall t, type_of v = YMsg t -> cur = cZero c t).
(* what is in the variable afterwards ([None]: it was left alone) *)
Definition stored_in {M} (a : gtarget M) (v : gval M) : option (gval M) :=
  if is_nil v then None else
  match a with
  | APtr YInt _ | APtr YUint _ => None
  | APtr _ _ => Some (arrived v)
  | _ => None
  end.

(* value and target: the value returned and what the variable holds *)
Definition received {M} (p : gval M * gtarget M) : gval M * option (gval M) := (arrived (fst p), stored_in (snd p) (fst p)).

(* a value of the type asked for, as it can come from arbitrary bytes *)
Definition of_type {M} (y : gty) (v : gval M) : Prop :=
  match y, v with
  | YBool, GBool _ => True
  | YI16, GI16 z => (- 2 ^ 15 <= z < 2 ^ 15)%Z
  | YI32, GI32 z => (- 2 ^ 31 <= z < 2 ^ 31)%Z
  | YI64, GI64 z | YInt, GI64 z => (- 2 ^ 63 <= z < 2 ^ 63)%Z
  | YU16, GU16 n => (n < 2 ^ 16)%N
  | YU32, GU32 n => (n < 2 ^ 32)%N
  | YU64, GU64 n | YUint, GU64 n => (n < 2 ^ 64)%N
  | YF32, GF32 x => (x < 2 ^ 32)%N
  | YF64, GF64 x => (x < 2 ^ 64)%N
  | YStr, GStr _ => True
  | YU8, GU8 n => (n < 2 ^ 8)%N
  | YMsg t, GPtr (Some (GStruct t' _)) => t' = t
  | _, _ => False
  end.

(* one message after the other unmarshalled into the same object *)
Definition merge_all {M} (c : codec M) (t : nat) (l : list bs) : M := fold_left (fun cur b => fst (cMerge c t cur b)) l (cZero c t).
Definition merges {M} (c : codec M) (t : nat) (b : bs) : Prop := forall cur, snd (cMerge c t cur b) = None.

(* an example codec: a message is its bytes, and unmarshalling into a message appends, as it does for repeated fields *)
Definition catCodec : codec bs := mkCodec bs (fun _ => []) (fun _ m => Some m) (fun _ m b => (m ++ b, None)).
