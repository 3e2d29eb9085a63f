(* BytesModel.v: core/bytes.go, BytesBuffer. *)
From Verif Require Import Base.

(* binary.ByteOrder values used by the constructors: core/bytes.go:33-58 *)
Inductive order := BigE | LittleE.

(* core/bytes.go:21-27.  [bbuf] is the slice buf[0:len(buf)].  The scratch slice [temp] only carries the
   encoded integer from PutUintN to copy and is not modelled.  Positions are nat: negative positions (possible
   only through SetRPos/SetWPos with a negative argument) are not modelled. *)
Record buffer := mkBuf { bbuf : list byte; brpos : nat; bwpos : nat; border : order }.

(* errors of this file: core/bytes.go:29-30, and io.EOF *)
Inductive berr := ErrNotEnough | ErrOverflow | ErrEOF.
Inductive res (A : Type) := ROk (a : A) | RErr (e : berr).
Arguments ROk {A} a. Arguments RErr {A} e.

Definition zeros (n : nat) : list byte := repeat x00 n.

(* core/bytes.go:38-44 NewBytesBufferWithOrder *)
Definition newBuf (initsize : nat) (o : order) : buffer := mkBuf (zeros initsize) 0 0 o.
(* core/bytes.go:52-58 CreateBytesBufferWithOrder *)
Definition createBuf (data : list byte) (o : order) : buffer := mkBuf data 0 (length data) o.

(* Go's builtin copy(dst[pos:], src), for pos <= len(dst) *)
Definition copyAt (dst : list byte) (pos : nat) (src : list byte) : list byte :=
  firstn pos dst ++ firstn (length dst - pos) src ++ skipn (pos + length src) dst.

(* core/bytes.go:160-164 grow *)
Definition grow (b : buffer) (n : nat) : buffer :=
  mkBuf (copyAt (zeros (2 * length (bbuf b) + n)) 0 (firstn (bwpos b) (bbuf b)))
        (brpos b) (bwpos b) (border b).

(* core/bytes.go:61-66 SetWPos *)
Definition setWPos (b : buffer) (pos : nat) : buffer :=
  let b1 := if length (bbuf b) <? pos then grow b (pos - length (bbuf b)) else b in
  mkBuf (bbuf b1) (brpos b1) pos (border b1).
(* core/bytes.go:69-81 *)
Definition getWPos (b : buffer) : nat := bwpos b.
Definition setRPos (b : buffer) (pos : nat) : buffer := mkBuf (bbuf b) pos (bwpos b) (border b).
Definition getRPos (b : buffer) : nat := brpos b.

(* core/bytes.go:93-110 WriteString / Write: same body for string and []byte *)
Definition write (b : buffer) (p : list byte) : buffer :=
  let l := length p in
  let b1 := if length (bbuf b) <? bwpos b + l then grow b l else b in
  mkBuf (copyAt (bbuf b1) (bwpos b1) p) (brpos b1) (bwpos b1 + l) (border b1).

(* core/bytes.go:84-90 WriteByte; b.buf[b.wpos] = c is a one-byte copy *)
Definition writeByte (b : buffer) (c : byte) : buffer :=
  let b1 := if length (bbuf b) <? bwpos b + 1 then grow b 1 else b in
  mkBuf (copyAt (bbuf b1) (bwpos b1) [c]) (brpos b1) (bwpos b1 + 1) (border b1).

(* encoding/binary PutUintN / UintN (standard library) *)
Fixpoint leBytes (k : nat) (n : N) : list byte :=
  match k with O => [] | S k' => n2b n :: leBytes k' (n / 256) end.
Definition putUint (o : order) (k : nat) (n : N) : list byte :=
  match o with LittleE => leBytes k n | BigE => rev (leBytes k n) end.
Fixpoint leVal (l : list byte) : N :=
  match l with [] => 0 | x :: l' => b2n x + 256 * leVal l' end%N.
Definition getUint (o : order) (l : list byte) : N :=
  match o with LittleE => leVal l | BigE => leVal (rev l) end.

(* core/bytes.go:113-138 WriteUint16/32/64: grow by k, PutUint into temp, copy temp[:k] *)
Definition writeUint (k : nat) (b : buffer) (u : N) : buffer :=
  let b1 := if length (bbuf b) <? bwpos b + k then grow b k else b in
  mkBuf (copyAt (bbuf b1) (bwpos b1) (putUint (border b1) k u)) (brpos b1) (bwpos b1 + k) (border b1).
Definition writeUint16 := writeUint 2.
Definition writeUint32 := writeUint 4.
Definition writeUint64 := writeUint 8.

(* core/bytes.go:148-158 WriteVarint.  The loop runs at most ten times for a uint64; [None] is
   "out of fuel" and is excluded by the theorems. *)
Fixpoint writeVarintLoop (fuel : nat) (b : buffer) (u : N) : option buffer :=
  match fuel with
  | O => None
  | S f =>
      if (u <? 128)%N then Some (writeByte b (n2b u))
      else writeVarintLoop f (writeByte b (n2b (N.lor (N.land u 127) 128))) (N.shiftr u 7)
  end.
Definition writeVarint (b : buffer) (u : N) : option buffer := writeVarintLoop 10 b u.

Definition two32 : N := 4294967296.
Definition two64 : N := 18446744073709551616.
(* Go conversions int32(u), int64(u) of unsigned values *)
Definition toSigned (bits : N) (u : N) : Z :=
  if (u <? 2 ^ (bits - 1))%N then Z.of_N u else (Z.of_N u - 2 ^ Z.of_N bits)%Z.
(* Go conversions uint32(z), uint64(z) of signed values *)
Definition toUnsigned (bits : N) (z : Z) : N := Z.to_N (z mod 2 ^ Z.of_N bits).

(* core/bytes.go:140-142 WriteZigzag32: (u << 1) ^ uint32(int32(u)>>31) *)
Definition zigzag32 (u : N) : N :=
  N.lxor (N.shiftl u 1 mod two32) (toUnsigned 32 (Z.shiftr (toSigned 32 u) 31)).
Definition writeZigzag32 (b : buffer) (u : N) : option buffer := writeVarint b (zigzag32 u).
(* core/bytes.go:144-146 WriteZigzag64: (u << 1) ^ uint64(int64(u)>>63) *)
Definition zigzag64 (u : N) : N :=
  N.lxor (N.shiftl u 1 mod two64) (toUnsigned 64 (Z.shiftr (toSigned 64 u) 63)).
Definition writeZigzag64 (b : buffer) (u : N) : option buffer := writeVarint b (zigzag64 u).

(* core/bytes.go:166 Bytes *)
Definition bytesOf (b : buffer) : list byte := firstn (bwpos b) (bbuf b).

(* core/bytes.go:281 Remain; compared only against non-negative lengths: Remain() < n *)
Definition remainLt (b : buffer) (n : nat) : bool := bwpos b <? brpos b + n.
Definition remain (b : buffer) : nat := bwpos b - brpos b.

Definition advance (b : buffer) (n : nat) : buffer := setRPos b (brpos b + n).

(* core/bytes.go:190-221 ReadUint16/32/64 *)
Definition readUint (k : nat) (b : buffer) : res N * buffer :=
  if remainLt b k then (RErr ErrNotEnough, b)
  else (ROk (getUint (border b) (firstn k (skipn (brpos b) (bbuf b)))), advance b k).
Definition readUint16 := readUint 2.
Definition readUint32 := readUint 4.
Definition readUint64 := readUint 8.
(* core/bytes.go:200-203 ReadInt: int(uint32), never negative on a 64-bit platform *)
Definition readInt := readUint32.

(* core/bytes.go:267-274 ReadByte: the bound is len(buf), not wpos *)
Definition readByte (b : buffer) : res byte * buffer :=
  match nth_error (bbuf b) (brpos b) with
  | None => (RErr ErrEOF, b)
  | Some c => (ROk c, advance b 1)
  end.

(* core/bytes.go:257-265 Next *)
Definition next (b : buffer) (n : nat) : res (list byte) * buffer :=
  if remainLt b n then (RErr ErrNotEnough, b)
  else (ROk (firstn n (skipn (brpos b) (bbuf b))), advance b n).

(* core/bytes.go:168-176 Read(p) with len(p) = n *)
Definition read (b : buffer) (n : nat) : res (list byte) * buffer :=
  if length (bbuf b) <=? brpos b then (RErr ErrEOF, b)
  else let got := firstn n (skipn (brpos b) (bbuf b)) in (ROk got, advance b (length got)).

(* core/bytes.go:178-188 ReadFull(p) with len(p) = n *)
Definition readFull (b : buffer) (n : nat) : res (list byte) * buffer :=
  if remainLt b n then (RErr ErrNotEnough, b)
  else let got := firstn n (skipn (brpos b) (bbuf b)) in
       if length got <? n then (RErr ErrNotEnough, b) else (ROk got, advance b (length got)).

(* core/bytes.go:241-255 ReadVarint: offset = 0,7,...,63, i.e. ten iterations; << truncates to 64 bits *)
Fixpoint readVarintLoop (iters : nat) (offset : N) (x : N) (b : buffer) : res N * buffer :=
  match iters with
  | O => (RErr ErrOverflow, b)
  | S i =>
      match readByte b with
      | (RErr e, b1) => (RErr e, b1)
      | (ROk t, b1) =>
          if negb (N.eqb (N.land (b2n t) 128) 128)
          then (ROk (N.lor x (N.shiftl (b2n t) offset mod two64)), b1)
          else readVarintLoop i (offset + 7) (N.lor x (N.shiftl (N.land (b2n t) 127) offset mod two64)) b1
      end
  end.
Definition readVarint (b : buffer) : res N * buffer := readVarintLoop 10 0 0 b.

(* core/bytes.go:223-230 ReadZigzag64: (x >> 1) ^ uint64(-int64(x&1)) *)
Definition unzigzag64 (x : N) : N :=
  N.lxor (N.shiftr x 1) (toUnsigned 64 (- Z.of_N (N.land x 1))).
Definition readZigzag64 (b : buffer) : res N * buffer :=
  match readVarint b with
  | (RErr e, b1) => (RErr e, b1)
  | (ROk x, b1) => (ROk (unzigzag64 x), b1)
  end.
(* core/bytes.go:232-239 ReadZigzag32: uint64((uint32(x) >> 1) ^ uint32(-int32(x&1))) *)
Definition unzigzag32 (x : N) : N :=
  N.lxor (N.shiftr (x mod two32) 1) (toUnsigned 32 (- Z.of_N (N.land x 1))).
Definition readZigzag32 (b : buffer) : res N * buffer :=
  match readVarint b with
  | (RErr e, b1) => (RErr e, b1)
  | (ROk x, b1) => (ROk (unzigzag32 x), b1)
  end.

(* core/bytes.go:276-279 Reset *)
Definition reset (b : buffer) : buffer := mkBuf (bbuf b) 0 0 (border b).

(* One public write call, for stating properties over call sequences.  Zigzag arguments are the signed
   values callers pass as uint32(i)/uint64(i). *)
Inductive wop :=
| OpByte (c : byte) | OpString (s : list byte) | OpBytes (p : list byte)
| OpU16 (n : N) | OpU32 (n : N) | OpU64 (n : N) | OpVarint (n : N)
| OpZigzag32 (z : Z) | OpZigzag64 (z : Z).

Definition runWop (b : buffer) (o : wop) : option buffer :=
  match o with
  | OpByte c => Some (writeByte b c)
  | OpString s => Some (write b s)
  | OpBytes p => Some (write b p)
  | OpU16 n => Some (writeUint16 b n)
  | OpU32 n => Some (writeUint32 b n)
  | OpU64 n => Some (writeUint64 b n)
  | OpVarint n => writeVarint b n
  | OpZigzag32 z => writeZigzag32 b (toUnsigned 32 z)
  | OpZigzag64 z => writeZigzag64 b (toUnsigned 64 z)
  end.

Fixpoint runWops (b : buffer) (l : list wop) : option buffer :=
  match l with
  | [] => Some b
  | o :: l' => match runWop b o with Some b' => runWops b' l' | None => None end
  end.
