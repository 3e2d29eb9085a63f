(* ProtoSpec.v: what the motan2 wire format is, stated without the encoder or the decoder. *)
From Verif Require Import Base BytesModel BytesSpec ProtoModel.

(* a metadata entry the wire format can carry: non-empty and without newlines *)
Definition encodable (kv : bs * bs) : bool :=
  negb (bs_empty (fst kv)) && negb (bs_empty (snd kv)) &&
  negb (bs_has newline (fst kv)) && negb (bs_has newline (snd kv)).

(* the lines k1, v1, k2, v2, ... separated (not terminated) by newlines *)
Fixpoint meta_text (l : list (bs * bs)) : bs :=
  match l with
  | [] => []
  | [(k, v)] => k ++ newline :: v
  | (k, v) :: r => k ++ newline :: v ++ newline :: meta_text r
  end.

Definition sent_meta (m : message) : list (bs * bs) := filter encodable (mMeta m).

(* the frame: magic, type, version and status, serialization, request id, metadata size, metadata, body size, body *)
Definition frame (m : message) : bs :=
  let h := mHeader m in
  let meta := meta_text (sent_meta m) in
  [xf1; xf1; hMsgType h; hVerStatus h; hSerialize h] ++ spec_uint BigE 8 (hReqID h) ++
  spec_uint BigE 4 (N.of_nat (length meta)) ++ meta ++
  spec_uint BigE 4 (N.of_nat (length (mBody m))) ++ mBody m.

(* what the receiver is supposed to see *)
Definition received (m : message) : message := mkMsg (mHeader m) (sent_meta m) (mBody m).

(* a message a motan2 peer may send: its request id fits a uint64, its version is 2's code (1), its metadata is a
   map, and its sizes respect the receiver's limit (a limit below 4 GiB) *)
Definition sendable (max : N) (m : message) : Prop :=
  (hReqID (mHeader m) < 2 ^ 64)%N /\ GetVersion (mHeader m) = 1%N /\ NoDup (map fst (mMeta m)) /\
  (N.of_nat (length (meta_text (sent_meta m))) <= max)%N /\ (N.of_nat (length (mBody m)) <= max)%N /\
  (max < 2 ^ 32)%N.

(* big-endian value of the k bytes at offset i *)
Definition be_at (s : bs) (i k : nat) : N :=
  fold_left (fun acc b => (acc * 256 + b2n b)%N) (firstn k (skipn i s)) 0%N.

(* sizes declared by the frame at the head of a stream, as far as the stream goes *)
Definition declared_meta (s : bs) : N := be_at s 13 4.
Definition declared_body (s : bs) : N := be_at s (17 + N.to_nat (declared_meta s)) 4.

(* the getters of a header, as one record *)
Record hview := mkView { v_hb : bool; v_gz : bool; v_ow : bool; v_px : bool; v_rq : bool;
                         v_ver : N; v_st : N; v_ser : N; v_rid : N }.
Definition view (h : header) : hview :=
  mkView (IsHeartbeat h) (IsGzip h) (IsOneWay h) (IsProxy h) (isRequest h)
         (GetVersion h) (GetStatus h) (GetSerialize h) (hReqID h).

(* calls on a header *)
Inductive hop :=
| OpHeartbeat (b : bool) | OpGzip (b : bool) | OpOneWay (b : bool) | OpProxy (b : bool) | OpRequest (b : bool)
| OpVersion (n : Z) | OpStatus (n : Z) | OpSerialize (n : Z).

(* running a call on the code's header; a refused call leaves the header alone *)
Definition run_hop (h : header) (o : hop) : header :=
  match o with
  | OpHeartbeat b => SetHeartbeat b h | OpGzip b => SetGzip b h | OpOneWay b => SetOneWay b h
  | OpProxy b => SetProxy b h | OpRequest b => SetRequest b h
  | OpVersion n => match SetVersion n h with Some h' => h' | None => h end
  | OpStatus n => match SetStatus n h with Some h' => h' | None => h end
  | OpSerialize n => match SetSerialize n h with Some h' => h' | None => h end
  end.
(* the same call on a record of independent fields *)
Definition spec_hop (v : hview) (o : hop) : hview :=
  match v with
  | mkView hb gz ow px rq ver st ser rid =>
      match o with
      | OpHeartbeat b => mkView b gz ow px rq ver st ser rid
      | OpGzip b => mkView hb b ow px rq ver st ser rid
      | OpOneWay b => mkView hb gz b px rq ver st ser rid
      | OpProxy b => mkView hb gz ow b rq ver st ser rid
      | OpRequest b => mkView hb gz ow px b ver st ser rid
      | OpVersion n => mkView hb gz ow px rq (if (n <=? 31)%Z then Z.to_N n else ver) st ser rid
      | OpStatus n => mkView hb gz ow px rq ver (if (n <=? 7)%Z then Z.to_N n else st) ser rid
      | OpSerialize n => mkView hb gz ow px rq ver st (if (n <=? 31)%Z then Z.to_N n else ser) rid
      end
  end.
Definition hop_nonneg (o : hop) : Prop :=
  match o with OpVersion n | OpStatus n | OpSerialize n => (0 <= n)%Z | _ => True end.

(* metadata text of an arbitrary frame: the newline-separated lines, taken as key line, value line, key line, ...;
   empty lines in key position are skipped; [None] when a key line has no value line *)
Fixpoint split_lines (s : bs) : list bs :=
  match s with
  | [] => [[]]
  | c :: r => if byte_eqb c newline then [] :: split_lines r
              else match split_lines r with x :: t => (c :: x) :: t | [] => [[c]] end
  end.
Fixpoint pair_lines (l : list bs) : option (list (bs * bs)) :=
  match l with
  | [] => Some []
  | [] :: r => pair_lines r
  | k :: v :: r => match pair_lines r with Some m => Some ((k, v) :: m) | None => None end
  | [_] => None
  end.

(* the message's reused buffer: absent, or any buffer with network byte order and arbitrary old contents *)
Definition buf_reusable (ob : option buffer) : Prop :=
  match ob with None => True | Some b => border b = BigE end.
