(* V1Props.v: C11, C12, C51-C53, the motan1 wire protocol. *)
From Verif Require Import Base BytesModel BytesSpec ProtoProofs V1Model V1Spec V1Proofs.

(* ------------------------------------------------------------ C11 *)

(* What is written is the Java block format of the concatenation of all parts, whatever their number and sizes. *)
Theorem C11_blocks_written : forall parts, writeBlock parts = Some (spec_blocks (concat parts)).
Proof. exact writeBlock_ok. Qed.
Print Assumptions C11_blocks_written.

(* Reading back gives the content and leaves the rest exactly when the content does not end in a full block, or nothing
   follows it, or it is one full block that is not followed by another block. *)
Theorem C11_block_roundtrip : forall parts rest, concat parts <> [] ->
  exists w, writeBlock parts = Some w /\
    (getBlock (w ++ rest) = VOk (concat parts, rest) <->
     (length (concat parts) mod 1024 <> 0 \/ rest = [] \/ (length (concat parts) = 1024 /\ ~ starts_block rest))).
Proof.
  intros parts rest Hne. exists (spec_blocks (concat parts)). split; [apply writeBlock_ok|].
  split; [apply getBlock_only; exact Hne|apply getBlock_ok; exact Hne].
Qed.
Print Assumptions C11_block_roundtrip.

Example C11_example :
  let parts := [repeat x41 1500; []; repeat x42 700] in
  concat parts <> [] /\ length (concat parts) mod 1024 <> 0 /\
  exists w, writeBlock parts = Some w /\ length w = 2212 /\ getBlock (w ++ [x70; x71]) = VOk (concat parts, [x70; x71]).
Proof. split; [discriminate|]. split; [vm_compute; discriminate|]. eexists. split; [vm_compute; reflexivity|]. split; vm_compute; reflexivity. Qed.

(* Finding: two full blocks followed by an argument: the reader swallows the argument's type byte.
   A full block followed by an independent block: the two are merged. *)
Theorem C11_full_blocks_refuted :
  (exists c w, writeBlock [c] = Some w /\ getBlock (w ++ [x70; x71; x72]) = VOk (c, [x71; x72])) /\
  (exists c w, writeBlock [c] = Some w /\ getBlock (w ++ [x77; x01; x61]) = VOk (c ++ [x61], [])).
Proof.
  split.
  - exists (repeat x41 2048). eexists. split; vm_compute; reflexivity.
  - exists (repeat x41 1024). eexists. split; vm_compute; reflexivity.
Qed.
Print Assumptions C11_full_blocks_refuted.

(* ------------------------------------------------------------ C12 *)

(* A frame carrying call [c] (plain or gzipped) is read and decoded to exactly that call.  Encoding it again with
   attachments [att] and id [rid'] gives the frame of the same call (same target, same argument bytes, same version
   and flag) with those attachments and that id, which reads and decodes as such.  [call_ok] leaves out calls with
   arguments whose target fills two or more blocks exactly: see the findings below. *)
Theorem C12_proxy : forall gunzip max tag ver flag rid stream rest c att rid',
  v1_frame_ok max tag rid stream -> call_ok ver c -> carries gunzip ver stream c ->
  attach_ok ver att -> v1_frame_ok max tag rid' (call_stream ver (with_attach c att)) ->
  exists m q out m' q',
    readV1 max (v1_frame tag ver flag rid stream ++ rest) = ROkV1 m rest /\
    decodeV1Request gunzip m = VOk q /\ vRid m = rid /\ says q c /\
    encodeV1 m q att rid' = Some out /\
    (forall rest', readV1 max (out ++ rest') = ROkV1 m' rest') /\
    decodeV1Request gunzip m' = VOk q' /\ vRid m' = rid' /\ vVersion m' = ver /\ vFlag m' = flag /\
    says q' (with_attach c att) /\ out = v1_frame tag ver flag rid' (call_stream ver (with_attach c att)).
Proof. exact proxy_ok. Qed.
Print Assumptions C12_proxy.

Definition C12_call : v1call :=
  mkCall (ByName (s2b "com.weibo.Service") (s2b "hello") (s2b "java.lang.String"))
         [ArgNew (repeat x01 17) (repeat x07 300); ArgNull; ArgRef (repeat x02 4) [x09]] [(s2b "group", s2b "g1")].
Example C12_example :
  call_ok x01 C12_call /\ attach_ok x01 [(s2b "group", s2b "g2"); (s2b "application", s2b "a")] /\
  carries (fun _ => None) x01 (call_stream x01 C12_call) C12_call /\
  v1_frame_ok 10000 [xf1; xf1; x00; x00] 7 (call_stream x01 C12_call) /\
  v1_frame_ok 10000 [xf1; xf1; x00; x00] 9 (call_stream x01 (with_attach C12_call [(s2b "group", s2b "g2"); (s2b "application", s2b "a")])).
Proof.
  split; [|split; [|split; [left; reflexivity|]]].
  - split; [|split; [|split]].
    + cbn. unfold utf_ok. rewrite pow15. cbn. repeat split; try lia. discriminate.
    + repeat constructor; cbn; rewrite ?pow32; lia.
    + split; [|split].
      * cbn. repeat constructor. intros [].
      * intros k v [E|[]]. injection E as <- <-. unfold utf_ok. rewrite pow15. cbn. split; lia.
      * cbn. rewrite pow32. lia.
    + right. left. vm_compute. discriminate.
  - split; [|split].
    + cbn. repeat constructor; cbn; intros H; repeat destruct H as [H|H]; try discriminate; auto.
    + intros k v [E|[E|[]]]; injection E as <- <-; unfold utf_ok; rewrite pow15; cbn; split; lia.
    + cbn. rewrite pow32. lia.
  - unfold v1_frame_ok. split; (split; [reflexivity|]; split; [vm_compute; reflexivity|]; split; [vm_compute; discriminate|vm_compute; reflexivity]).
Qed.

(* Finding: a request without arguments whose attachments come in a block of their own is accepted, but its
   re-encoding carries no service information any more. *)
Theorem C12_separate_block_refuted :
  exists stream m q out m',
    stream = [xac; xed; x00; x05] ++ spec_blocks (target_bytes (ByName (s2b "svc") (s2b "m") [])) ++ spec_blocks (attach_bytes x01 []) /\
    readV1 1000 (v1_frame [xf1; xf1; x00; x00] x01 x00 7 stream) = ROkV1 m [] /\
    decodeV1Request (fun _ => None) m = VOk q /\ rService q = s2b "svc" /\
    encodeV1 m q [] 8 = Some out /\ readV1 1000 out = ROkV1 m' [] /\
    forall q', decodeV1Request (fun _ => None) m' = VOk q' -> rService q' <> s2b "svc".
Proof.
  eexists. eexists. eexists. eexists. eexists.
  split; [reflexivity|]. split; [vm_compute; reflexivity|]. split; [vm_compute; reflexivity|]. split; [reflexivity|].
  split; [vm_compute; reflexivity|]. split; [vm_compute; reflexivity|].
  intros q' H. vm_compute in H. discriminate.
Qed.
Print Assumptions C12_separate_block_refuted.

(* Finding: a call with a null argument whose target fills two blocks exactly is not understood: its argument is swallowed. *)
Theorem C12_full_target_refuted :
  let c := mkCall (ByName (s2b "svc") (repeat x6d 2037) (s2b "xx")) [ArgNull; ArgNull] [] in
  target_ok (kTarget c) /\
  exists m q, readV1 5000 (v1_frame [xf1; xf1; x00; x00] x01 x00 7 (call_stream x01 c)) = ROkV1 m [] /\
    decodeV1Request (fun _ => None) m = VOk q /\ rArgSize q = 1.
Proof.
  split.
  - split; [|split; [|split]]; try (unfold utf_ok; rewrite pow15; vm_compute; reflexivity). discriminate.
  - eexists. eexists. split; [vm_compute; reflexivity|]. split; vm_compute; reflexivity.
Qed.
Print Assumptions C12_full_target_refuted.

(* ------------------------------------------------------------ C51: motan1 frames *)

(* A message is returned only for a frame whose two sizes, inner magic number and limit agree; it is the frame's
   bytes, and exactly they are consumed. *)
Theorem C51_accepts_only_motan1 : forall max s m rest, readV1 max s = ROkV1 m rest ->
  s = vOrigin m ++ rest /\ N.of_nat (length (vOrigin m)) = (16 + be_field s 12 4)%N /\
  (16 <= be_field s 12 4 <= max)%N /\ be_field s 16 2 = 61680%N /\ be_field s 28 4 = vInner m /\
  (vInner m + 16 = be_field s 12 4)%N /\ vRid m = be_field s 20 8 /\
  nth_error s 18 = Some (vVersion m) /\ nth_error s 19 = Some (vFlag m).
Proof. exact readV1_accepts. Qed.
Print Assumptions C51_accepts_only_motan1.

(* On an error nothing, or exactly one frame, or (when the frame is cut short) the whole input has been consumed. *)
Theorem C51_bounded_consumption : forall max s e rest, readV1 max s = RErrV1 e rest -> exists p, s = p ++ rest /\
  (p = [] \/ (e = VEof /\ rest = [] /\ (N.of_nat (length s) < 16 + be_field s 12 4)%N) \/ N.of_nat (length p) = (16 + be_field s 12 4)%N).
Proof. exact readV1_consumes. Qed.
Print Assumptions C51_bounded_consumption.

Theorem C51_truncated_is_error : forall max p t m rest, readV1 max (p ++ t) = ROkV1 m rest -> length p < length (vOrigin m) ->
  exists r, readV1 max p = RErrV1 VEof r.
Proof. exact readV1_truncated. Qed.
Print Assumptions C51_truncated_is_error.

(* Frames sent back to back are read as the same sequence, with nothing left over. *)
Theorem C51_sequence : forall max (l : list (bs * byte * byte * N * bs)) fuel,
  Forall (fun x => let '(tag, ver, flag, rid, stream) := x in v1_frame_ok max tag rid stream) l -> length l <= fuel ->
  readAllV1 fuel max (concat (map (fun x => let '(tag, ver, flag, rid, stream) := x in v1_frame tag ver flag rid stream) l)) =
  Some (map (fun x => let '(tag, ver, flag, rid, stream) := x in
             mkV1 (v1_frame tag ver flag rid stream) ver flag rid (N.of_nat (length stream))) l).
Proof. exact readAllV1_frames. Qed.
Print Assumptions C51_sequence.

Example C51_example :
  readV1 100 (v1_frame [xf1; xf1; x00; x00] x01 x00 7 [x01; x02; x03] ++ [xff]) =
    ROkV1 (mkV1 (v1_frame [xf1; xf1; x00; x00] x01 x00 7 [x01; x02; x03]) x01 x00 7 3) [xff] /\
  readV1 18 (v1_frame [xf1; xf1; x00; x00] x01 x00 7 [x01; x02; x03]) = RErrV1 VOverSize (v1_frame [xf1; xf1; x00; x00] x01 x00 7 [x01; x02; x03]).
Proof. split; vm_compute; reflexivity. Qed.

(* ------------------------------------------------------------ C52: decoding arbitrary motan1 bytes *)

(* Decoding any object stream as a request or a response terminates.  It panics only when the stream breaks off
   right behind a short-block tag, or, for a response that is a plain value, inside the byte array of the value. *)
Theorem C52_request_safe : forall ver s, parseReq ver s <> VFuel /\ (parseReq ver s = VPanic -> ends_in_tag s).
Proof. exact parseReq_safe. Qed.
Print Assumptions C52_request_safe.

Theorem C52_response_safe : forall flag s,
  parseRes flag s <> VFuel /\ (parseRes flag s = VPanic -> ends_in_tag s \/ (flag = x01 /\ cut_array s)).
Proof. exact parseRes_safe. Qed.
Print Assumptions C52_response_safe.

(* Findings: a request and a response that make the decoder panic. *)
Theorem C52_panic_refuted :
  parseReq x01 (osHeader ++ spec_blocks (repeat x00 1024) ++ [x77]) = VPanic /\
  parseRes x01 (osHeader ++ spec_blocks (spec_uint BigE 8 0 ++ utf (s2b "java.lang.String")) ++
                [x75; x71; x00; x00; x00; x00; x00; x00; x00; x05; x61]) = VPanic.
Proof. split; vm_compute; reflexivity. Qed.
Print Assumptions C52_panic_refuted.

Example C52_example : parseReq x01 (osHeader ++ [x77; xff; x00]) = VErr VEof.
Proof. vm_compute. reflexivity. Qed.

(* ------------------------------------------------------------ C53: motan1 control messages *)

(* Forwarding a response changes nothing but its id. *)
Theorem C53_response_id : forall max tag ver flag rid rid' stream rest,
  v1_frame_ok max tag rid stream -> (rid' < 2 ^ 64)%N ->
  exists m m', readV1 max (v1_frame tag ver flag rid stream ++ rest) = ROkV1 m rest /\
    encodeV1Response m rid' = v1_frame tag ver flag rid' stream /\
    readV1 max (encodeV1Response m rid' ++ rest) = ROkV1 m' rest /\ vRid m' = rid' /\ vVersion m' = ver /\ vFlag m' = flag.
Proof.
  intros max tag ver flag rid rid' stream rest (H1 & H2 & H3 & H4) Hr.
  exists (frame_msg tag ver flag rid stream), (frame_msg tag ver flag rid' stream).
  split; [apply readV1_frame; repeat split; assumption|].
  rewrite encodeV1Response_ok by exact H1. split; [reflexivity|].
  split; [apply readV1_frame; repeat split; assumption|]. repeat split.
Qed.
Print Assumptions C53_response_id.

(* Heartbeats are recognised by the other side as heartbeats with the same id. *)
Theorem C53_heartbeat_request : forall gunzip max rid rest, (rid < 2 ^ 64)%N -> (78 <= max)%N -> (max < 2 ^ 32)%N ->
  exists m q, readV1 max (buildV1HeartbeatReq rid ++ rest) = ROkV1 m rest /\ vRid m = rid /\
    decodeV1Request gunzip m = VOk q /\ isV1HeartbeatReq q = true.
Proof. exact heartbeatReq_read. Qed.
Print Assumptions C53_heartbeat_request.

Theorem C53_heartbeat_response : forall gunzip max rid rest, (rid < 2 ^ 64)%N -> (81 <= max)%N -> (max < 2 ^ 32)%N ->
  exists m s, readV1 max (buildV1HeartbeatRes rid ++ rest) = ROkV1 m rest /\ vRid m = rid /\
    decodeV1Response gunzip m = VOk s /\ isV1HeartbeatRes s = true.
Proof. exact heartbeatRes_read. Qed.
Print Assumptions C53_heartbeat_response.

(* An exception response for any non-empty message below 64 KiB is a well-formed frame with the request's id, whose
   object stream holds the serialized exception with that message, and is read as a service exception. *)
Theorem C53_exception_response : forall gunzip max rid msg rest, msg <> [] -> (rid < 2 ^ 64)%N ->
  (N.of_nat (length msg) < 65536)%N ->
  (N.of_nat (length (exception_stream msg)) + 16 <= max)%N -> (max < 2 ^ 32)%N ->
  buildV1ExceptionResponse rid msg = v1_frame [xf1; xf1; x00; x01] x01 x05 rid (exception_stream msg) /\
  exists m, readV1 max (buildV1ExceptionResponse rid msg ++ rest) = ROkV1 m rest /\ vRid m = rid /\
    decodeV1Response gunzip m = VOk (mkV1Res 2 (Some (s2b "com.weibo.api.motan.exception.MotanServiceException")) None).
Proof. exact exception_read. Qed.
Print Assumptions C53_exception_response.

(* Finding: with an empty message no response at all is built. *)
Theorem C53_empty_message_refuted : forall rid, buildV1ExceptionResponse rid [] = [].
Proof. reflexivity. Qed.
Print Assumptions C53_empty_message_refuted.

Example C53_example : let msg := s2b "build v1 exception res. org err:provider not exist" in
  (N.of_nat (length (exception_stream msg)) + 16 <= 1000)%N /\
  exists m, readV1 1000 (buildV1ExceptionResponse 77 msg) = ROkV1 m [] /\ vRid m = 77%N.
Proof. cbv zeta. split; [vm_compute; discriminate|]. eexists. split; vm_compute; reflexivity. Qed.

(* Which messages are heartbeats: requests of the heartbeat method of the heartbeat interface, responses with the text heartbeat. *)
Theorem C53_is_heartbeat : forall q r,
  (isV1HeartbeatReq q = true <-> rService q = s2b "com.weibo.api.motan.rpc.heartbeat" /\ rMethod q = s2b "heartbeat") /\
  (isV1HeartbeatRes r = true <-> sValue r = Some (s2b "heartbeat")).
Proof.
  intros q r. split.
  - unfold isV1HeartbeatReq. rewrite andb_true_iff, !bs_eqb_spec. reflexivity.
  - unfold isV1HeartbeatRes. destruct (sValue r) as [s|]; [rewrite bs_eqb_spec; split; [intros ->; reflexivity|intro H; injection H as ->; reflexivity]|split; discriminate].
Qed.
Print Assumptions C53_is_heartbeat.
