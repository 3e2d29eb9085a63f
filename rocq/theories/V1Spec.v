(* V1Spec.v: the motan1 wire format as a Java peer writes it, stated without the encoder or the parser. *)
From Verif Require Import Base BytesModel BytesSpec V1Model.

(* ------------------------------------------------------------ block data of a Java object stream *)

(* content cut into pieces of 1024 bytes, the last one possibly shorter *)
Fixpoint cut (fuel : nat) (c : bs) : list bs :=
  match fuel, c with
  | S f, _ :: _ => firstn 1024 c :: cut f (skipn 1024 c)
  | _, _ => []
  end.
(* one block: short form up to 255 bytes, long form above *)
Definition one_block (c : bs) : bs :=
  (if (N.of_nat (length c) <=? 255)%N then [x77; n2b (N.of_nat (length c))]
   else x7a :: spec_uint BigE 4 (N.of_nat (length c))) ++ c.
Definition spec_blocks (c : bs) : bs := concat (map one_block (cut (length c) c)).

(* the next item of a stream is a block *)
Definition starts_block (r : bs) : Prop := exists t r', r = t :: r' /\ (t = x77 \/ t = x7a).

(* ------------------------------------------------------------ frames *)

(* two-level frame: outer tag and type (4 bytes), id, size, inner magic, version, flag, id, size, object stream *)
Definition v1_frame (tag : bs) (ver flag : byte) (rid : N) (stream : bs) : bs :=
  tag ++ spec_uint BigE 8 rid ++ spec_uint BigE 4 (N.of_nat (length stream) + 16) ++
  [xf0; xf0; ver; flag] ++ spec_uint BigE 8 rid ++ spec_uint BigE 4 (N.of_nat (length stream)) ++ stream.

Definition v1_frame_ok (max : N) (tag : bs) (rid : N) (stream : bs) : Prop :=
  length tag = 4 /\ (rid < 2 ^ 64)%N /\ (N.of_nat (length stream) + 16 <= max)%N /\ (max < 2 ^ 32)%N.

(* ------------------------------------------------------------ requests *)

(* an argument: null, or a byte array with a full class description or a reference to an earlier one *)
Inductive v1arg := ArgNull | ArgNew (desc content : bs) | ArgRef (handle content : bs).
Definition arg_bytes (a : v1arg) : bs :=
  match a with
  | ArgNull => [x70]
  | ArgNew d c => x75 :: x72 :: d ++ spec_uint BigE 4 (N.of_nat (length c)) ++ c
  | ArgRef h c => x75 :: x71 :: h ++ spec_uint BigE 4 (N.of_nat (length c)) ++ c
  end.
Definition arg_ok (a : v1arg) : Prop :=
  match a with
  | ArgNull => True
  | ArgNew d c => length d = 17 /\ (N.of_nat (length c) < 2 ^ 32)%N
  | ArgRef h c => length h = 4 /\ (N.of_nat (length c) < 2 ^ 32)%N
  end.

(* what is called: service, method and description by name, or by a compressed method signature *)
Inductive v1target := ByName (service method desc : bs) | BySign (sign : bs).
Record v1call := mkCall { kTarget : v1target; kArgs : list v1arg; kAttach : list (bs * bs) }.

Definition utf (s : bs) : bs := spec_uint BigE 2 (N.of_nat (length s)) ++ s.
Definition utf_ok (s : bs) : Prop := (N.of_nat (length s) < 2 ^ 15)%N.

Definition target_bytes (t : v1target) : bs :=
  match t with ByName s m d => utf s ++ utf m ++ utf d | BySign g => utf (s2b "1") ++ utf g end.
Definition target_ok (t : v1target) : Prop :=
  match t with
  | ByName s m d => utf_ok s /\ utf_ok m /\ utf_ok d /\ s <> s2b "1"
  | BySign g => utf_ok g
  end.
Definition attach_bytes (ver : byte) (att : list (bs * bs)) : bs :=
  spec_uint BigE (if byte_eqb ver x02 then 2 else 4) (N.of_nat (length att)) ++
  concat (map (fun kv => utf (fst kv) ++ utf (snd kv)) att).
Definition attach_ok (ver : byte) (att : list (bs * bs)) : Prop :=
  NoDup (map fst att) /\ (forall k v, In (k, v) att -> utf_ok k /\ utf_ok v) /\
  (N.of_nat (length att) < if byte_eqb ver x02 then 2 ^ 15 else 2 ^ 32)%N.

(* the object stream of a call; without arguments target and attachments share their blocks *)
Definition call_stream (ver : byte) (c : v1call) : bs :=
  [xac; xed; x00; x05] ++
  match kArgs c with
  | [] => spec_blocks (target_bytes (kTarget c) ++ attach_bytes ver (kAttach c))
  | args => spec_blocks (target_bytes (kTarget c)) ++ concat (map arg_bytes args) ++ spec_blocks (attach_bytes ver (kAttach c))
  end.

(* The last conjunct excludes calls with arguments whose target fills two or more blocks exactly, for which the
   property fails: see C11_full_blocks_refuted. *)
Definition call_ok (ver : byte) (c : v1call) : Prop :=
  target_ok (kTarget c) /\ Forall arg_ok (kArgs c) /\ attach_ok ver (kAttach c) /\
  (kArgs c = [] \/ length (target_bytes (kTarget c)) mod 1024 <> 0 \/ length (target_bytes (kTarget c)) = 1024).

(* what the request handed to the application says *)
Definition says (q : v1req) (c : v1call) : Prop :=
  match kTarget c with
  | ByName s m d => rService q = s /\ rMethod q = m /\ rDesc q = d
  | BySign g => rService q = s2b "v1compressMethodSign" /\ rMethod q = g /\ rDesc q = []
  end /\
  rAttach q = kAttach c /\ rArgSize q = length (kArgs c) /\ rArgs q = concat (map arg_bytes (kArgs c)).

(* the call with other attachments *)
Definition with_attach (c : v1call) (att : list (bs * bs)) : v1call := mkCall (kTarget c) (kArgs c) att.

(* a message as it arrives: plain, or (version 2 only) with a gzipped object stream *)
Definition carries (gunzip : bs -> option bs) (ver : byte) (stream : bs) (c : v1call) : Prop :=
  stream = call_stream ver c \/
  (ver = x02 /\ (exists z, stream = x1f :: x8b :: z /\ z <> []) /\ gunzip stream = Some (call_stream ver c)).

(* ------------------------------------------------------------ exception responses *)

(* a hessian2 string of at most 65535 bytes *)
Definition hessian_string (s : bs) : bs :=
  let l := N.of_nat (length s) in
  (if (l <? 32)%N then [n2b l]
   else if (l <? 1024)%N then [n2b (48 + l / 256); n2b (l mod 256)]
   else [x53; n2b (l / 256); n2b (l mod 256)]) ++ s.

(* the serialized MotanServiceException with message [msg] *)
Definition exception_object (msg : bs) : bs :=
  h_exceptionDesc ++ s2b "NNN" ++ h_motanErrorMsgDesc ++ bytesN [201; 247; 212; 39; 17]%N ++ hessian_string msg ++ s2b "NN".

(* the object stream of an exception response: process time and class name in a block, then the object *)
Definition exception_stream (msg : bs) : bs :=
  [xac; xed; x00; x05] ++ spec_blocks (spec_uint BigE 8 2 ++ utf (s2b "com.weibo.api.motan.exception.MotanServiceException")) ++
  arg_bytes (ArgNew (skipn 2 (bytesN [117; 114; 0; 2; 91; 66; 172; 243; 23; 248; 6; 8; 84; 224; 2; 0; 0; 120; 112]%N)) (exception_object msg)).

(* ------------------------------------------------------------ arbitrary input *)

(* the stream breaks off right behind a short-block tag *)
Definition ends_in_tag (s : bs) : Prop := exists p, s = p ++ [x77].

(* big-endian value of the k bytes at offset i *)
Definition be_field (s : bs) (i k : nat) : N :=
  fold_left (fun acc b => (acc * 256 + b2n b)%N) (firstn k (skipn i s)) 0%N.

(* the stream breaks off inside a byte array: behind its type and its class (17 bytes of description, or a reference of 4)
   it announces more bytes than there are *)
Definition cut_array (s : bs) : Prop := exists p r k, s = p ++ r /\ (k = 6 \/ k = 19) /\ k + 4 <= length r /\ (N.of_nat (length r - (k + 4)) < be_field r k 4)%N.

(* a reader loop: read frames until the input is used up *)
Fixpoint readAllV1 (fuel : nat) (max : N) (s : bs) : option (list v1msg) :=
  match fuel, s with
  | _, [] => Some []
  | S f, _ => match readV1 max s with
              | ROkV1 m rest => match readAllV1 f max rest with Some l => Some (m :: l) | None => None end
              | RErrV1 _ _ => None
              end
  | O, _ => None
  end.
