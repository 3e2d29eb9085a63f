(* BytesSpec.v: what the wire encodings are, independently of the buffer code. *)
From Verif Require Import Base BytesModel.

(* the k bytes of n, most significant first / least significant first *)
Definition spec_uint (o : order) (k : nat) (n : N) : list byte :=
  let digit i := n2b (n / 256 ^ N.of_nat i) in
  match o with
  | BigE => map (fun i => digit (k - 1 - i)) (seq 0 k)
  | LittleE => map digit (seq 0 k)
  end.

(* LEB128: base-128 digits, least significant first, 128 added to all but the last.
   Ten digits are enough for every uint64. *)
Fixpoint spec_leb (digits : nat) (n : N) : list byte :=
  match digits with
  | O => []
  | S d => if (n <? 128)%N then [n2b n] else n2b (128 + n mod 128) :: spec_leb d (n / 128)
  end.
Definition spec_varint (n : N) : list byte := spec_leb 10 n.

(* zigzag: 0,-1,1,-2,2,... numbered 0,1,2,3,4,... *)
Definition spec_zigzag (z : Z) : N :=
  if (0 <=? z)%Z then Z.to_N (2 * z) else Z.to_N (- 2 * z - 1).

(* the bytes each call must append *)
Definition spec_wop (o : order) (w : wop) : list byte :=
  match w with
  | OpByte c => [c]
  | OpString s => s
  | OpBytes p => p
  | OpU16 n => spec_uint o 2 n
  | OpU32 n => spec_uint o 4 n
  | OpU64 n => spec_uint o 8 n
  | OpVarint n => spec_varint n
  | OpZigzag32 z => spec_varint (spec_zigzag z)
  | OpZigzag64 z => spec_varint (spec_zigzag z)
  end.

(* arguments in the range of their Go type *)
Definition wop_ok (w : wop) : Prop :=
  match w with
  | OpByte _ | OpString _ | OpBytes _ => True
  | OpU16 n => (n < 2 ^ 16)%N
  | OpU32 n => (n < 2 ^ 32)%N
  | OpU64 n | OpVarint n => (n < 2 ^ 64)%N
  | OpZigzag32 z => (- 2 ^ 31 <= z < 2 ^ 31)%Z
  | OpZigzag64 z => (- 2 ^ 63 <= z < 2 ^ 63)%Z
  end.

(* A buffer reachable through the constructors and calls has its write position inside the array. *)
Definition buf_ok (b : buffer) : Prop := bwpos b <= length (bbuf b).

(* The value written by [w] is what the matching Read call returns on [rd], which then stands at [e].
   The callers convert the raw zigzag results with int32(x) / int64(x). *)
Definition reads_back (w : wop) (rd : buffer) (e : nat) : Prop :=
  match w with
  | OpByte c => readByte rd = (ROk c, setRPos rd e)
  | OpString s | OpBytes s => next rd (length s) = (ROk s, setRPos rd e)
                              /\ readFull rd (length s) = (ROk s, setRPos rd e)
  | OpU16 n => readUint16 rd = (ROk n, setRPos rd e)
  | OpU32 n => readUint32 rd = (ROk n, setRPos rd e)
  | OpU64 n => readUint64 rd = (ROk n, setRPos rd e)
  | OpVarint n => readVarint rd = (ROk n, setRPos rd e)
  | OpZigzag32 z => exists x, readZigzag32 rd = (ROk x, setRPos rd e) /\ toSigned 32 x = z
  | OpZigzag64 z => exists x, readZigzag64 rd = (ROk x, setRPos rd e) /\ toSigned 64 x = z
  end.
