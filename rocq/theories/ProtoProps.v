(* ProtoProps.v: the theorems about the motan2 wire protocol (C03, C04, C05, C06). *)
From Verif Require Import Base BytesModel BytesSpec ProtoModel ProtoSpec ProtoProofs.

(* C03: a fresh or reused buffer then holds exactly the frame, and decoding it followed by any bytes gives back
   the header, the encodable metadata entries and the body, and leaves exactly those bytes. *)
Theorem C03_encode_is_frame : forall ob max m,
  buf_reusable ob -> sendable max m ->
  bytesOf (encodeMsg ob m) = frame m /\ concat (getEncodedBytes ob m) = frame m.
Proof. intros ob max m Ho (_ & _ & _ & H1 & H2 & H3). apply encode_frame; [exact Ho | lia | lia]. Qed.
Print Assumptions C03_encode_is_frame.

Theorem C03_roundtrip : forall ob max m rest,
  buf_reusable ob -> sendable max m ->
  decodeMsg max (bytesOf (encodeMsg ob m) ++ rest) =
    DecOk (mkMsg (mHeader m) (filter encodable (mMeta m)) (mBody m)) rest.
Proof.
  intros ob max m rest Ho Hs. destruct (C03_encode_is_frame ob max m Ho Hs) as [-> _]. apply decode_frame, Hs.
Qed.
Print Assumptions C03_roundtrip.

Definition ex_msg : message :=
  mkMsg (mkHdr x02 x08 x30 77) [(s2b "M_p", s2b "svc"); (s2b "empty", []); (s2b "M_m", s2b "hello")] (s2b "body").
Example C03_satisfiable :
  sendable 1000 ex_msg /\ buf_reusable None /\ length (bytesOf (encodeMsg None ex_msg)) = 42 /\
  decodeMsg 1000 (bytesOf (encodeMsg None ex_msg) ++ s2b "xyz") =
    DecOk (mkMsg (mkHdr x02 x08 x30 77) [(s2b "M_p", s2b "svc"); (s2b "M_m", s2b "hello")] (s2b "body")) (s2b "xyz").
Proof.
  split; [|split; [exact I|split; vm_compute; reflexivity]].
  unfold sendable. split; [reflexivity|]. split; [reflexivity|]. split.
  - cbn. repeat constructor; cbn; intuition discriminate.
  - vm_compute. repeat split; discriminate.
Qed.

(* C04: any sequence of messages on one connection *)
Theorem C04_sequence : forall max (sent : list (option buffer * message)),
  Forall (fun s => buf_reusable (fst s) /\ sendable max (snd s)) sent ->
  let stream := concat (map (fun s => bytesOf (encodeMsg (fst s) (snd s))) sent) in
  decodeAll (length stream) max stream = (map (fun s => received (snd s)) sent, None).
Proof.
  intros max sent H. cbn zeta.
  assert (E : map (fun s => bytesOf (encodeMsg (fst s) (snd s))) sent = map frame (map snd sent)).
  { rewrite map_map. apply map_ext_in. intros s Hs. rewrite Forall_forall in H. destruct (H s Hs) as [H1 H2].
    apply (C03_encode_is_frame (fst s) max (snd s) H1 H2). }
  rewrite E, <- (map_map snd received). apply decodeAll_frames; [|lia].
  apply Forall_forall. intros m Hm. apply in_map_iff in Hm as (s & <- & Hs). rewrite Forall_forall in H. apply (H s Hs).
Qed.
Print Assumptions C04_sequence.
Example C04_satisfiable :
  Forall (fun s : option buffer * message => buf_reusable (fst s) /\ sendable 1000 (snd s))
    [(None, ex_msg); (None, ex_msg)].
Proof. repeat (apply Forall_cons; [split; [exact I | apply C03_satisfiable]|]). apply Forall_nil. Qed.

(* C05: arbitrary streams *)
Theorem C05_accepts_only_motan2 : forall max s m rest,
  decodeMsg max s = DecOk m rest ->
  be_at s 0 2 = 0xf1f1%N /\ GetVersion (mHeader m) = 1%N /\ hVerStatus (mHeader m) = nth 3 s x00 /\
  hMsgType (mHeader m) = nth 2 s x00 /\ hSerialize (mHeader m) = nth 4 s x00 /\ hReqID (mHeader m) = be_at s 5 8 /\
  (declared_meta s <= max)%N /\ (declared_body s <= max)%N /\
  exists hd mb bz, s = hd ++ mb ++ bz ++ mBody m ++ rest /\ length hd = 17 /\ length bz = 4 /\
    N.of_nat (length mb) = declared_meta s /\ N.of_nat (length (mBody m)) = declared_body s.
Proof. exact decode_accepts. Qed.
Print Assumptions C05_accepts_only_motan2.

Theorem C05_bounded_consumption : forall max s,
  let rest := match decodeMsg max s with DecOk _ r | DecErr _ r => r end in
  exists consumed, s = consumed ++ rest /\
    (N.of_nat (length consumed) <= 21 + declared_meta s + declared_body s)%N /\
    (N.of_nat (length consumed) <= 21 + 2 * max)%N.
Proof. exact decode_consumes. Qed.
Print Assumptions C05_bounded_consumption.

Theorem C05_truncated_is_error : forall max p t rest m,
  decodeMsg max (p ++ t ++ rest) = DecOk m rest -> t <> [] -> decodeMsg max p = DecErr PEof [].
Proof. exact decode_truncated. Qed.
Print Assumptions C05_truncated_is_error.

Theorem C05_metadata_is_line_pairs : forall max s m rest,
  decodeMsg max s = DecOk m rest -> (0 < declared_meta s)%N ->
  exists ps, pair_lines (split_lines (firstn (N.to_nat (declared_meta s)) (skipn 17 s))) = Some ps /\
    mMeta m = fold_left (fun m kv => aset bs_eqb m (fst kv) (snd kv)) ps [].
Proof. exact decode_meta_meaning. Qed.
Print Assumptions C05_metadata_is_line_pairs.

Example C05_satisfiable :
  let s := bytesOf (encodeMsg None ex_msg) in
  decodeMsg 1000 (firstn 30 s ++ skipn 30 s ++ s2b "more") = DecOk (received ex_msg) (s2b "more") /\ skipn 30 s <> [] /\
  declared_meta s = 17%N /\ decodeMsg 10 s = DecErr PErrOverSize (skipn 17 s) /\
  decodeMsg 1000 (x00 :: s) = DecErr PErrMagicNum (skipn 13 (x00 :: s)).
Proof. vm_compute. repeat split; discriminate. Qed.

(* C06: after any sequence of setter calls every getter answers as if the fields were stored separately *)
Theorem C06_fields_independent : forall h ops,
  Forall hop_nonneg ops -> view (fold_left run_hop ops h) = fold_left spec_hop ops (view h).
Proof. intros h ops H. apply hops_refine, H. Qed.
Print Assumptions C06_fields_independent.

(* and a header is determined by its getters and the four bits no setter touches *)
Theorem C06_getters_complete : forall h1 h2,
  view h1 = view h2 ->
  N.land (b2n (hMsgType h1)) 0xe0 = N.land (b2n (hMsgType h2)) 0xe0 ->
  N.land (b2n (hSerialize h1)) 7 = N.land (b2n (hSerialize h2)) 7 -> h1 = h2.
Proof. exact view_determines_wire. Qed.
Print Assumptions C06_getters_complete.

Theorem C06_build_header : forall isReq proxy ser rid st,
  (0 <= ser <= 31)%Z -> (0 <= st <= 7)%Z ->
  view (BuildHeader isReq proxy ser rid st) = mkView false false false proxy isReq 1 (Z.to_N st) (Z.to_N ser) rid.
Proof. exact buildHeader_view. Qed.
Print Assumptions C06_build_header.

(* negative arguments are not refused: they are stored modulo the field width *)
Theorem C06_negative_values_refuted :
  ~ (forall v h, (v < 0)%Z -> SetVersion v h = None).
Proof. intro H. specialize (H (-1)%Z (mkHdr x00 x00 x00 0) ltac:(lia)). discriminate. Qed.
Print Assumptions C06_negative_values_refuted.

Example C06_satisfiable :
  let ops := [OpGzip true; OpStatus 1; OpVersion 1; OpRequest false; OpSerialize 6; OpVersion 40; OpGzip false; OpProxy true] in
  Forall hop_nonneg ops /\ view (fold_left run_hop ops (mkHdr x00 xff x00 9)) = mkView false false false true false 1 1 6 9.
Proof. split; [repeat constructor; cbn; lia | vm_compute; reflexivity]. Qed.
