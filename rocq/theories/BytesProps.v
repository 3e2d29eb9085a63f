(* BytesProps.v: properties C01 and C02 (core/bytes.go). *)
From Verif Require Import Base BytesModel BytesSpec BytesProofs.

(* C01: for every initial capacity, byte order and call sequence, Bytes() is the concatenation of the
   encodings of the written values, in call order. *)
Theorem C01_writes_never_lost : forall (initsize : nat) (o : order) (calls : list wop),
  Forall wop_ok calls ->
  exists b', runWops (newBuf initsize o) calls = Some b' /\
             bytesOf b' = concat (map (spec_wop o) calls).
Proof. exact writes_concat. Qed.
Print Assumptions C01_writes_never_lost.

Example C01_example :
  Forall wop_ok [OpByte x41; OpU32 7; OpVarint 300; OpZigzag64 (-2)] /\
  exists b', runWops (newBuf 0 BigE) [OpByte x41; OpU32 7; OpVarint 300; OpZigzag64 (-2)] = Some b' /\
             bytesOf b' = [x41; x00; x00; x00; x07; xac; x02; x03].
Proof. split; [repeat constructor; cbn; lia | eexists; split; vm_compute; reflexivity]. Qed.

(* C01, continued: writing to a buffer that already holds data appends to it and keeps it. *)
Theorem C01_writes_append : forall (b : buffer) (calls : list wop),
  buf_ok b -> Forall wop_ok calls ->
  exists b', runWops b calls = Some b' /\
             bytesOf b' = bytesOf b ++ concat (map (spec_wop (border b)) calls) /\
             buf_ok b' /\ border b' = border b /\ brpos b' = brpos b.
Proof. intros b calls; exact (runWops_spec calls b). Qed.
Print Assumptions C01_writes_append.

(* C01, continued: a buffer taken from the pool after Reset shows nothing of its previous content. *)
Theorem C01_reused_buffer_is_clean : forall (b : buffer) (calls : list wop),
  Forall wop_ok calls ->
  exists b', runWops (reset b) calls = Some b' /\ bytesOf b' = concat (map (spec_wop (border b)) calls).
Proof. exact writes_concat_reuse. Qed.
Print Assumptions C01_reused_buffer_is_clean.

Example C01_reuse_example :
  exists b', runWops (reset (createBuf [x01; x02; x03] LittleE)) [OpU16 513; OpByte x09; OpBytes [x05; x06]] = Some b'
             /\ bytesOf b' = [x01; x02; x09; x05; x06].
Proof. eexists; split; vm_compute; reflexivity. Qed.

(* C01, continued: overwriting a length field in place changes only that field. *)
Theorem C01_backpatch : forall (b : buffer) (pos : nat) (v : N) (k : nat),
  buf_ok b -> pos + k <= bwpos b ->
  bytesOf (setWPos (writeUint k (setWPos b pos) v) (bwpos b)) =
    firstn pos (bytesOf b) ++ spec_uint (border b) k v ++ skipn (pos + k) (bytesOf b).
Proof.
  intros b pos v k H1 H2. rewrite <- putUint_spec. exact (proj1 (backpatch b pos v k H1 H2)).
Qed.
Print Assumptions C01_backpatch.

(* C02: what any write call appended is read back exactly, whatever precedes and follows it. *)
Theorem C02_write_then_read : forall (b : buffer) (w : wop) (b' : buffer) (suf : list byte),
  buf_ok b -> wop_ok w -> runWop b w = Some b' ->
  reads_back w (setRPos (createBuf (bytesOf b' ++ suf) (border b)) (length (bytesOf b)))
               (length (bytesOf b')).
Proof. exact write_then_read. Qed.
Print Assumptions C02_write_then_read.

Example C02_example :
  exists b', runWop (createBuf [x01] BigE) (OpZigzag32 (-2147483648)) = Some b' /\
             bytesOf b' = [x01; xff; xff; xff; xff; x0f].
Proof. eexists; split; vm_compute; reflexivity. Qed.

(* C02, continued: a read that needs more bytes than remain fails and consumes nothing. *)
Theorem C02_short_read_fails : forall (rd : buffer) (n : nat),
  remain rd < n ->
  readUint n rd = (RErr ErrNotEnough, rd) /\ next rd n = (RErr ErrNotEnough, rd) /\
  readFull rd n = (RErr ErrNotEnough, rd).
Proof. exact short_read_fails. Qed.
Print Assumptions C02_short_read_fails.

Example C02_short_example : remain (createBuf [x01; x02; x03] BigE) < 4.
Proof. cbn; lia. Qed.

(* C02, continued: a varint (also in zigzag form) that is cut off, or longer than ten bytes, is refused; the reader stands behind the
   bytes it looked at. *)
Theorem C02_varint_refused : forall pre got rest o, forallb (fun c => (128 <=? b2n c)%N) got = true ->
  let rd := setRPos (createBuf (pre ++ got ++ rest) o) (length pre) in
  let behind := setRPos (createBuf (pre ++ got ++ rest) o) (length (pre ++ got)) in
  (length got < 10 -> rest = [] -> readVarint rd = (RErr ErrEOF, behind) /\ readZigzag32 rd = (RErr ErrEOF, behind) /\ readZigzag64 rd = (RErr ErrEOF, behind)) /\
  (length got = 10 -> readVarint rd = (RErr ErrOverflow, behind) /\ readZigzag32 rd = (RErr ErrOverflow, behind) /\ readZigzag64 rd = (RErr ErrOverflow, behind)).
Proof. exact varint_refused. Qed.
Print Assumptions C02_varint_refused.
Example C02_varint_refused_example : readZigzag64 (createBuf [x80; xff] BigE) = (RErr ErrEOF, setRPos (createBuf [x80; xff] BigE) 2).
Proof. reflexivity. Qed.

(* C02, continued: Read into n bytes gives the next n bytes, or all that remain if there are fewer, and stands behind them; at the end it says so. *)
Theorem C02_read : forall pre got rest o n, got ++ rest <> [] -> (length got = n \/ length got <= n /\ rest = []) ->
  read (setRPos (createBuf (pre ++ got ++ rest) o) (length pre)) n =
    (ROk got, setRPos (createBuf (pre ++ got ++ rest) o) (length (pre ++ got))).
Proof.
  intros pre got rest o n N H. unfold read. cbn [bbuf brpos setRPos createBuf]. rewrite app_length.
  destruct (Nat.leb_spec (length pre + length (got ++ rest)) (length pre)) as [L|_].
  - destruct (got ++ rest); [congruence|cbn [length] in L; lia].
  - rewrite skipn_app_exact. replace (firstn n (got ++ rest)) with got; [rewrite app_length; reflexivity|].
    destruct H as [<-|[L ->]]; [symmetry; apply firstn_app_exact|]. rewrite app_nil_r. symmetry. apply firstn_all2. exact L.
Qed.
Print Assumptions C02_read.
Theorem C02_read_end : forall pre o n, read (setRPos (createBuf pre o) (length pre)) n = (RErr ErrEOF, setRPos (createBuf pre o) (length pre)).
Proof. intros pre o n. unfold read. cbn [bbuf brpos setRPos createBuf]. rewrite Nat.leb_refl. reflexivity. Qed.
Print Assumptions C02_read_end.
Example C02_read_example : read (setRPos (createBuf [x01; x02; x03] BigE) 1) 5 = (ROk [x02; x03], setRPos (createBuf [x01; x02; x03] BigE) 3).
Proof. reflexivity. Qed.
(* (Refuted: "Read gives only what was written". On a buffer that was written to it goes on into the unused rest of the array.) *)
Theorem C02_read_beyond_refuted : exists b got b', write (newBuf 4 BigE) [x01; x02] = b /\ bytesOf b = [x01; x02] /\ read b 4 = (ROk got, b') /\ length got = 4.
Proof. eexists. eexists. eexists. split; [reflexivity|]. split; [reflexivity|]. split; reflexivity. Qed.
Print Assumptions C02_read_beyond_refuted.
