(* SimpleSpec.v: which values the simple serialization supports, what they look like on the wire and what
   decoding is documented to return. *)
From Verif Require Import Base BytesModel BytesSpec SimpleModel.

(* pairwise different *)
Definition distinct {A} (same : A -> A -> bool) (l : list A) : Prop :=
  ForallOrdPairs (fun a b => same a b = false) l.

(* what decoding returns: int comes back as int64, a signalling float32 NaN comes back quiet, the rest as is *)
Fixpoint asDecoded (v : value) : value :=
  match v with
  | VInt z => VI64 z
  | VF32 f => VF32 (quiet32 f)
  | VMap m => VMap (map (fun kx => (asDecoded (fst kx), asDecoded (snd kx))) m)
  | VArr a => VArr (map asDecoded a)
  | _ => v
  end.

(* a []byte target makes a top-level string come back as []byte *)
Definition asDecodedFor (t : target) (v : value) : value :=
  match v with
  | VStr s => match t with TBytesType | TPBytes => VBytes s | _ => VStr s end
  | _ => asDecoded v
  end.

(* A well-formed Go value: integers in the range of their type, float bit patterns of the right width, map keys
   hashable and pairwise different.  (For a map[interface{}]interface{} that holds both int(1) and int64(1) the
   keys coincide after decoding; the requirement is on the decoded keys.) *)
Fixpoint good (v : value) : Prop :=
  match v with
  | VI16 z => (- 2 ^ 15 <= z < 2 ^ 15)%Z
  | VI32 z => (- 2 ^ 31 <= z < 2 ^ 31)%Z
  | VInt z | VI64 z => (- 2 ^ 63 <= z < 2 ^ 63)%Z
  | VF32 f => (f < 2 ^ 32)%N
  | VF64 f => (f < 2 ^ 64)%N
  | VStrMap m => NoDup (map fst m)
  | VMap m =>
      distinct key_eqb (map (fun kx => asDecoded (fst kx)) m) /\
      fold_right (fun kx P => (hashable (fst kx) = true /\ good (fst kx) /\ good (snd kx)) /\ P) True m
  | VArr a => fold_right (fun x P => good x /\ P) True a
  | _ => True
  end.

(* Supported inside a container: no nil, no unsupported kind, no NaN map key. *)
Fixpoint supportedIn (v : value) : bool :=
  match v with
  | VNull | VUnsupported => false
  | VMap m => forallb (fun kx => supportedIn (fst kx) && key_eqb (fst kx) (fst kx) && supportedIn (snd kx)) m
  | VArr a => forallb supportedIn a
  | _ => true
  end.
(* At top level nil is supported too. *)
Definition supported (v : value) : bool := match v with VNull => true | _ => supportedIn v end.

Definition lenPrefixed (p : bs) : bs := spec_uint BigE 4 (N.of_nat (length p)) ++ p.

(* The wire format: a tag, then the value; containers carry the byte length of their content. *)
Fixpoint wire (v : value) : bs :=
  match v with
  | VNull | VUnsupported => [x00]
  | VStr s => x01 :: lenPrefixed s
  | VStrMap m => x02 :: lenPrefixed (concat (map (fun kx => lenPrefixed (fst kx) ++ lenPrefixed (snd kx)) m))
  | VBytes p => x03 :: lenPrefixed p
  | VStrArr a => x04 :: lenPrefixed (concat (map lenPrefixed a))
  | VBool x => [x05; if x then x01 else x00]
  | VByte c => [x06; c]
  | VI16 z => x07 :: spec_uint BigE 2 (Z.to_N (z mod 2 ^ 16))
  | VI32 z => x08 :: spec_varint (spec_zigzag z)
  | VInt z | VI64 z => x09 :: spec_varint (spec_zigzag z)
  | VF32 f => x0a :: spec_uint BigE 4 (quiet32 f)
  | VF64 f => x0b :: spec_uint BigE 8 f
  | VMap m => x14 :: lenPrefixed (concat (map (fun kx => wire (fst kx) ++ wire (snd kx)) m))
  | VArr a => x15 :: lenPrefixed (concat (map wire a))
  end.

(* the format's own limit: lengths are 32-bit *)
Definition fits (v : value) : Prop := (N.of_nat (length (wire v)) < 2 ^ 32)%N.

(* the results for a list of targets, position by position *)
Fixpoint zipDecoded (ts : list target) (vs : list value) : list value :=
  match ts, vs with t :: ts', v :: vs' => asDecodedFor t v :: zipDecoded ts' vs' | _, _ => [] end.

(* the value written last for a key *)
Definition last_value {A} (m : list (bs * A)) (k : bs) : option A :=
  match find (fun p => bs_eqb (fst p) k) (rev m) with Some p => Some (snd p) | None => None end.
Definition str_keys (m : list (bs * value)) : list (value * value) := map (fun p => (VStr (fst p), snd p)) m.

(* IEEE 754: all exponent bits set and a mantissa that is not zero *)
Definition nan32 (x : N) : Prop := ((x / 2 ^ 23) mod 2 ^ 8 = 255 /\ x mod 2 ^ 23 <> 0)%N.
Definition nan64 (x : N) : Prop := ((x / 2 ^ 52) mod 2 ^ 11 = 2047 /\ x mod 2 ^ 52 <> 0)%N.
(* when two keys are the same key of a Go map of arbitrary keys: the same type and ==, by which a NaN differs from itself and the two
   zeros are equal *)
Definition same_key (a b : value) : Prop :=
  match a, b with
  | VF32 x, VF32 y => ~ nan32 x /\ ~ nan32 y /\ (x = y \/ x mod 2 ^ 31 = 0 /\ y mod 2 ^ 31 = 0)%N
  | VF64 x, VF64 y => ~ nan64 x /\ ~ nan64 y /\ (x = y \/ x mod 2 ^ 63 = 0 /\ y mod 2 ^ 63 = 0)%N
  | VNull, VNull => True
  | VStr _, VStr _ | VBool _, VBool _ | VByte _, VByte _ | VI16 _, VI16 _ | VI32 _, VI32 _ | VInt _, VInt _ | VI64 _, VI64 _ => a = b
  | _, _ => False
  end.
