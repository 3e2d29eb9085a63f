(* PbProps.v: C80, the protobuf serializations. *)
From Verif Require Import Base BytesModel BytesSpec PbModel PbSpec PbProofs.

(* --- the format on the wire: sending arguments concatenates the bytes of each, and these are fixed by the value alone *)
Theorem C80_wire {M} (c : codec M) (vs : list (gval M)) (l : list bs) :
  Forall2 (wire c) vs l -> serializeMulti c vs = SOk (concat l).
Proof. exact (serMulti_wire c vs l). Qed.
Print Assumptions C80_wire.

(* --- what was sent is what is received: for any arguments that can be sent, any targets that fit, and any further bytes behind them *)
Theorem C80_roundtrip {M} (c : codec M) (vs : list (gval M)) (l : list bs) (targets : list (gtarget M)) (rest : bs) :
  codec_ok c -> Forall2 (wire c) vs l -> Forall2 (target_for c) vs targets ->
  exists b, serializeMulti c vs = SOk b /\ deMulti c (b ++ rest) targets = inr (map received (combine vs targets)).
Proof. intros Hc H T. exists (concat l). split; [exact (serMulti_wire c vs l H)|exact (deMulti_wire c vs l targets rest Hc H T)]. Qed.
Print Assumptions C80_roundtrip.

(* --- bytes that were cut off anywhere are an error, never other values *)
Theorem C80_truncated {M} (c : codec M) (vs : list (gval M)) (l : list bs) (targets : list (gtarget M)) (b : bs) (k : nat) :
  codec_ok c -> Forall2 (wire c) vs l -> Forall2 (target_for c) vs targets -> serializeMulti c vs = SOk b ->
  k < length b -> deMulti c (firstn k b) targets = inl EEof.
Proof.
  intros Hc H T E Hk. rewrite (serMulti_wire c vs l H) in E. injection E as <-. exact (deMulti_cut c vs l targets k Hc H T Hk).
Qed.
Print Assumptions C80_truncated.

(* --- all or nothing: several arguments are written iff each of them can be, and then the bytes are theirs in order *)
Theorem C80_multi {M} (c : codec M) (vs : list (gval M)) (b : bs) :
  serializeMulti c vs = SOk b <-> exists l, Forall2 (fun v x => serialize c v = SOk x) vs l /\ b = concat l.
Proof. exact (serMulti_iff c vs b). Qed.
Print Assumptions C80_multi.

(* --- whatever the bytes are, the value returned is nil or of the type asked for (int and uint: int64 and uint64) *)
Theorem C80_typed {M} (c : codec M) (y : gty) (cur : M) (l : bs) (v : gval M) :
  dOut (deserialize c l (AType y)) = inr v \/ dOut (deserialize c l (APtr y cur)) = inr v -> v = GNil \/ of_type y v.
Proof. exact (deBuf_typed c y cur l v). Qed.
Print Assumptions C80_typed.

(* --- what is refused *)
Theorem C80_refused {M} (c : codec M) :
  serialize c GOther = SErr /\ (forall t m, serialize c (GStruct t m) = SErr) /\ (forall v, serialize c (GPtr (Some (GPtr v))) = SErr) /\
  (forall v l, serialize c (GSlice SOther (v :: l)) = SErr) /\ (forall l, serialize c (GSlice SIface (GNil :: l)) = SErr) /\
  (forall t m, cMarshal c t m = None -> serialize c (GPtr (Some (GStruct t m))) = SErr) /\
  (forall l a rest i, decVarint l = inr (i, rest) -> i <> 1%N -> In a [ANil; AType YOther; ASliceOther] -> exists e, dOut (deserialize c l a) = inl e).
Proof.
  repeat split.
  - intros t m H. cbn [serialize serBuf serBody]. rewrite H. reflexivity.
  - intros l a rest i E N I. unfold deserialize, deBuf. rewrite E. apply N.eqb_neq in N. rewrite N.
    destruct I as [<-|[<-|[<-|[]]]]; eexists; reflexivity.
Qed.
Print Assumptions C80_refused.

(* --- a slice of messages comes back with as many elements, but every element is the same object: all of them merged *)
Theorem C80_slice {M} (c : codec M) (t : nat) (ms : list M) (l : list bs) (old : list M) :
  Forall2 (fun m b => cMarshal c t m = Some b) ms l -> Forall (fun b => merges c t b /\ (N.of_nat (length b) < 2 ^ 63)%N) l ->
  exists b, serialize c (GSlice SIface (map (msgRef t) ms)) = SOk b /\
    dOut (deserialize c b (ASlice t old)) = inr (GSlice SPtr (map (msgRef t) old ++ repeat (msgRef t (merge_all c t l)) (length ms))).
Proof. exact (slice_result c t ms l old). Qed.
Print Assumptions C80_slice.

(* --- grpc-pb: exactly one message, and it comes back whatever the message passed for it held before *)
Theorem C80_grpc {M} (c : codec M) (t : nat) (m cur : M) (b : bs) :
  codec_ok c -> grpcSerMulti c (Some [msgRef t m]) = inr b ->
  grpcDeMulti c b (Some [APtr (YMsg t) cur]) = inr [msgRef t m] /\ grpcDeMulti c b (Some [AType (YMsg t)]) = inr [msgRef t m].
Proof.
  intros Hc. cbn [grpcSerMulti grpcSer msgRef]. destruct (cMarshal c t m) as [b'|] eqn:E; [|discriminate].
  intro H. injection H as <-. cbn [grpcDeMulti grpcDe]. rewrite (Hc t m b' E). split; reflexivity.
Qed.
Print Assumptions C80_grpc.
Theorem C80_grpc_one {M} (c : codec M) (vs : option (list (gval M))) (b : bs) (targets : option (list (gtarget M))) :
  ((exists b', grpcSerMulti c vs = inr b') -> exists t m, vs = Some [msgRef t m]) /\
  ((exists r, grpcDeMulti c b targets = inr r) -> exists t, targets = Some [AType (YMsg t)] \/ exists cur, targets = Some [APtr (YMsg t) cur]).
Proof.
  split.
  - intros [b' H]. destruct vs as [[|v [|w vs]]|]; try discriminate. cbn [grpcSerMulti] in H.
    destruct v as [| | | | | | | | | | | | | | |o| |]; try discriminate. destruct o as [v|]; try discriminate. destruct v; try discriminate.
    eexists _, _. reflexivity.
  - intros [r H]. destruct targets as [[|a [|w ts]]|]; try discriminate. cbn [grpcDeMulti] in H.
    destruct a as [|y|y cur| |]; try discriminate; destruct y; try discriminate; eexists; [left; reflexivity|right; eexists; reflexivity].
Qed.
Print Assumptions C80_grpc_one.

(* --- grpc-pb: what is wrong is told: no value, no message, not exactly one of them, or the library's error *)
Theorem C80_grpc_refused {M} (c : codec M) (b : bs) :
  grpcSerMulti c None = inl ENilParam /\ grpcSerMulti c (Some [GNil]) = inl ENilParam /\
  (forall v, v <> GNil -> (forall t m, v <> msgRef t m) -> grpcSerMulti c (Some [v]) = inl ENotMessage) /\
  (forall t m, cMarshal c t m = None -> grpcSerMulti c (Some [msgRef t m]) = inl ELib) /\
  (forall vs, length vs <> 1 -> grpcSerMulti c (Some vs) = inl EMultiParam) /\
  grpcDeMulti c b None = inl ENilParam /\ grpcDeMulti c b (Some [ANil]) = inl ENilParam /\
  (forall a, a <> ANil -> (forall t, a <> AType (YMsg t)) -> (forall t cur, a <> APtr (YMsg t) cur) -> grpcDeMulti c b (Some [a]) = inl ENotMessage) /\
  (forall t m e, cMerge c t (cZero c t) b = (m, Some e) -> grpcDeMulti c b (Some [AType (YMsg t)]) = inl e /\ forall cur, grpcDeMulti c b (Some [APtr (YMsg t) cur]) = inl e) /\
  (forall ts, length ts <> 1 -> grpcDeMulti c b (Some ts) = inl EMultiParam).
Proof.
  split; [reflexivity|]. split; [reflexivity|]. split.
  { intros v N1 N2. cbn [grpcSerMulti]. destruct v as [| | | | | | | | | | | | | | |[[]|]| |]; try reflexivity; [contradiction N1; reflexivity|]. exfalso. eapply N2. reflexivity. }
  split. { intros t m E. cbn [grpcSerMulti grpcSer msgRef]. rewrite E. reflexivity. }
  split. { intros [|v [|w vs]] L; cbn in L; try reflexivity. contradiction L; reflexivity. }
  split; [reflexivity|]. split; [reflexivity|]. split.
  { intros a N1 N2 N3. cbn [grpcDeMulti]. destruct a as [|[]|[] |  |]; try reflexivity; exfalso; first [apply N1; reflexivity|eapply N2; reflexivity|eapply N3; reflexivity]. }
  split. { intros t m e E. cbn [grpcDeMulti grpcDe]. rewrite E. split; [reflexivity|]. intro cur. reflexivity. }
  intros [|v [|w vs]] L; cbn in L; try reflexivity. contradiction L; reflexivity.
Qed.
Print Assumptions C80_grpc_refused.

(* --- findings *)
(* a variable of type int (or uint) is not set, and what is returned is no int *)
Theorem C80_int_refuted : exists b,
  serialize catCodec (GInt 7) = SOk b /\ deserialize catCodec b (APtr YInt []) = mkDres (inr (GI64 7)) None [] /\
  serialize catCodec (GUint 7) = SOk b /\ deserialize catCodec b (APtr YUint []) = mkDres (inr (GU64 7)) None [].
Proof. eexists. repeat split; vm_compute; reflexivity. Qed.
Print Assumptions C80_int_refuted.
(* a slice of two different messages does not come back *)
Theorem C80_slice_refuted : exists b,
  serialize catCodec (GSlice SIface [msgRef 0 [x01]; msgRef 0 [x02]]) = SOk b /\
  dOut (deserialize catCodec b (ASlice 0 [])) = inr (GSlice SPtr [msgRef 0 [x01; x02]; msgRef 0 [x01; x02]]).
Proof. exists [x00; x00; x01; x01; x00; x01; x02]. split; vm_compute; reflexivity. Qed.
Print Assumptions C80_slice_refuted.
(* arguments behind a slice are read as elements of the slice *)
Theorem C80_behind_slice_refuted : exists b,
  serializeMulti catCodec [GSlice SIface [msgRef 0 [x01]]; GStr [x09]] = SOk b /\
  deMulti catCodec b [ASlice 0 []; AType YStr] = inl EEof /\
  dOut (deserialize catCodec b (ASlice 0 [])) = inr (GSlice SPtr [msgRef 0 [x01; x09]; msgRef 0 [x01; x09]]).
Proof. exists [x00; x00; x01; x01; x00; x01; x09]. split; [|split]; vm_compute; reflexivity. Qed.
Print Assumptions C80_behind_slice_refuted.
(* a slice of pointers to messages, which is what comes back, cannot be sent; with a nil pointer in it the call panics *)
Theorem C80_ptr_slice_refuted : forall t m l,
  serialize catCodec (GSlice SPtr (msgRef t m :: l)) = SErr /\ serialize catCodec (GSlice SPtr (GPtr None :: l)) = SPanic.
Proof. split; reflexivity. Qed.
Print Assumptions C80_ptr_slice_refuted.
(* reading into a message that has contents keeps them *)
Theorem C80_merged_refuted : exists b,
  serialize catCodec (msgRef 0 [x02]) = SOk b /\ dOut (deserialize catCodec b (APtr (YMsg 0) [x01])) = inr (msgRef 0 [x01; x02]).
Proof. exists [x00; x01; x02]. split; vm_compute; reflexivity. Qed.
Print Assumptions C80_merged_refuted.
(* on an error a number that was passed is overwritten with zero *)
Theorem C80_zeroed_refuted : exists b cut, serialize catCodec (GI32 300) = SOk b /\ length cut < length b /\
  deserialize catCodec cut (APtr YI32 []) = mkDres (inl EEof) (Some (GI32 0)) (skipn 1 cut).
Proof. exists [x00; xd8; x04], [x00; xd8]. repeat split; vm_compute; try reflexivity; lia. Qed.
Print Assumptions C80_zeroed_refuted.

(* --- the hypotheses hold *)
Example C80_codec : codec_ok catCodec.
Proof. intros t m b H. injection H as <-. reflexivity. Qed.
Example C80_example :
  let vs := [GI32 (-5); GPtr (Some (GStr (s2b "abc"))); GNil; msgRef 3 (s2b "xyz"); GU32 4294967295; GBool true; GF64 4607182418800017408] in
  let targets := [AType YI32; APtr YStr []; ANil; APtr (YMsg 3) []; AType YU32; AType YBool; APtr YF64 []] in
  (exists l, Forall2 (wire catCodec) vs l) /\ Forall2 (target_for catCodec) vs targets.
Proof.
  cbv zeta. split.
  - eexists. constructor; [apply WPlain; cbn; lia|]. constructor; [apply WPtr; reflexivity|]. constructor; [apply WNil|].
    constructor; [apply WMsg; split; reflexivity|]. constructor; [apply WPlain; reflexivity|]. constructor; [apply WPlain; exact I|].
    constructor; [apply WPlain; reflexivity|]. constructor.
  - constructor; [right; left; reflexivity|]. constructor; [right; right; exists []; split; [reflexivity|discriminate]|].
    constructor; [left; reflexivity|]. constructor; [right; right; exists []; split; [reflexivity|intros; reflexivity]|].
    constructor; [right; left; reflexivity|]. constructor; [right; left; reflexivity|].
    constructor; [right; right; exists []; split; [reflexivity|discriminate]|]. constructor.
Qed.
Example C80_bytes : serializeMulti catCodec [GI32 (-5); GNil; GStr (s2b "abc")] = SOk [x00; x09; x01; x00; x03; x61; x62; x63].
Proof. vm_compute. reflexivity. Qed.
Example C80_slice_example : Forall (fun b => merges catCodec 0 b /\ (N.of_nat (length b) < 2 ^ 63)%N) [[x01]; [x02]].
Proof. repeat constructor. Qed.
