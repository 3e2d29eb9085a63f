(* SimpleProps.v: properties C07, C08, C09 (serialize/simple.go). *)
From Verif Require Import Base BytesModel BytesSpec SimpleModel SimpleSpec SimpleProofs.

(* C07: every well-formed supported value, of any nesting depth, is serialized to its wire form and comes back as
   the documented decoded value; with any bytes behind it exactly the produced bytes are consumed. *)
Theorem C07_roundtrip : forall (v : value) (t : target) (suf : bs),
  good v -> supported v = true -> fits v ->
  serialize v = SOk (wire v) /\
  exists b', deserialize (wire v ++ suf) t = (DOk (asDecodedFor t v), b') /\ brpos b' = length (wire v).
Proof. exact roundtrip. Qed.
Print Assumptions C07_roundtrip.

Definition sample : value :=
  VMap [(VStr (s2b "a"), VArr [VInt 5; VBytes [x01; x02]; VStrMap [(s2b "k", s2b "v")]]);
        (VI32 (-7), VMap [(VBool true, VF64 4607182418800017408)])].
Example C07_example :
  good sample /\ supported sample = true /\ fits sample /\
  fst (deserialize (wire sample) TNone) =
    DOk (VMap [(VStr (s2b "a"), VArr [VI64 5; VBytes [x01; x02]; VStrMap [(s2b "k", s2b "v")]]);
               (VI32 (-7), VMap [(VBool true, VF64 4607182418800017408)])]).
Proof.
  split; [|split; [|split]].
  - cbn. repeat split; try lia; try (repeat constructor; cbn; intuition discriminate).
  - reflexivity.
  - reflexivity.
  - vm_compute. reflexivity.
Qed.

(* C07, continued: a value that is not supported (a struct, a nil inside a container, a NaN key) is refused with an
   error, never silently written as something else. *)
Theorem C07_unsupported_is_refused : forall v, good v -> fits v -> supported v = false -> serialize v = SErr.
Proof. intros v Hg Hf Hs. rewrite serialize_result by assumption. rewrite Hs. reflexivity. Qed.
Print Assumptions C07_unsupported_is_refused.

Example C07_unsupported_example :
  let v := VArr [VInt 1; VMap [(VStr (s2b "p"), VUnsupported)]] in
  good v /\ fits v /\ supported v = false.
Proof. cbn. repeat split; try lia; repeat constructor; cbn; intuition discriminate. Qed.

(* C07, continued: a map whose bytes repeat a key decodes to a map holding the value written last for each key. *)
Theorem C07_repeated_key_last_wins : forall m,
  Forall (fun p => good (snd p)) m -> forallb (fun p => supportedIn (snd p)) m = true -> fits (VMap (str_keys m)) ->
  exists d, fst (deserialize (wire (VMap (str_keys m))) TNone) = DOk (VMap (str_keys d)) /\ NoDup (map fst d) /\
    forall k, aget bs_eqb d k = match last_value m k with Some x => Some (asDecoded x) | None => None end.
Proof. exact repeated_keys. Qed.
Print Assumptions C07_repeated_key_last_wins.

Example C07_repeated_key_example :
  let m := [(s2b "a", VI64 1); (s2b "b", VBool true); (s2b "a", VI64 2)] in
  Forall (fun p => good (snd p)) m /\ forallb (fun p => supportedIn (snd p)) m = true /\ fits (VMap (str_keys m)) /\
  last_value m (s2b "a") = Some (VI64 2).
Proof. cbn zeta. split; [repeat constructor; cbn; lia|]. repeat split; reflexivity. Qed.

(* C07, finding: nil is a supported value on its own, but a container holding nil is refused. *)
Theorem C07_nil_element_refuted :
  serialize VNull = SOk [x00] /\ serialize (VArr [VNull]) = SErr /\
  serialize (VMap [(VStr (s2b "k"), VNull)]) = SErr.
Proof. repeat split; vm_compute; reflexivity. Qed.
Print Assumptions C07_nil_element_refuted.

(* C07, finding: with a pointer target, an empty container leaves the pointed-to variable as it was. *)
Theorem C07_empty_container_target_refuted :
  fst (deserialize (wire (VStrMap [])) TPStrMap) = DOk (VStrMap []) /\
  assigned TPStrMap (VStrMap []) = None /\ assigned TPStrMap (VStrMap [(s2b "k", s2b "v")]) <> None.
Proof. repeat split; try (vm_compute; reflexivity). cbn. discriminate. Qed.
Print Assumptions C07_empty_container_target_refuted.

(* C08: a list of supported arguments comes back with the same number and order, whether or not targets are given. *)
Theorem C08_multi_roundtrip : forall vs : list value,
  Forall good vs -> forallb supported vs = true -> (N.of_nat (length (concat (map wire vs))) < 2 ^ 32)%N ->
  exists p, serializeMulti vs = SOk p /\
    fst (deserializeMulti p None) = DOk (map asDecoded vs) /\
    forall ts, length ts = length vs -> fst (deserializeMulti p (Some ts)) = DOk (zipDecoded ts vs).
Proof. exact multi_roundtrip. Qed.
Print Assumptions C08_multi_roundtrip.

Example C08_example :
  Forall good [VNull; VStr (s2b "x"); sample] /\ forallb supported [VNull; VStr (s2b "x"); sample] = true /\
  fst (deserializeMulti (concat (map wire [VNull; VStr (s2b "x"); VI16 (-3)])) (Some [TNone; TPBytes; TPInt16]))
  = DOk [VNull; VBytes (s2b "x"); VI16 (-3)].
Proof.
  split; [|split].
  - repeat apply Forall_cons; try apply Forall_nil; try exact I. exact (proj1 C07_example).
  - reflexivity.
  - vm_compute. reflexivity.
Qed.

(* C09: decoding arbitrary bytes terminates (the fuel, the number of bytes plus one, never runs out), leaves the
   bytes alone and the read position inside them, and gives a value, an error, or -- only when the bytes contain
   the map tag -- a panic. *)
Theorem C09_arbitrary_bytes : forall (p : bs) (t : target),
  let r := deserialize p t in
  (exists v, fst r = DOk v) \/ (exists e, fst r = DErr e) \/ (fst r = DPanic /\ In x14 p).
Proof. exact safe_bytes. Qed.
Print Assumptions C09_arbitrary_bytes.

Theorem C09_reads_inside : forall (p : bs) (t : target),
  bbuf (snd (deserialize p t)) = p /\ brpos (snd (deserialize p t)) <= length p.
Proof.
  intros p t. destruct (deserialize_safe p t) as ((A & _ & _ & B) & _). cbn in A, B. split; [exact A|apply B].
Qed.
Print Assumptions C09_reads_inside.

Theorem C09_multi_terminates : forall (p : bs) (ts : option (list target)),
  fst (deserializeMulti p ts) <> DFuel /\ bbuf (snd (deserializeMulti p ts)) = p
  /\ brpos (snd (deserializeMulti p ts)) <= length p /\ (fst (deserializeMulti p ts) = DPanic -> In x14 p).
Proof.
  intros p ts. destruct (deserializeMulti_safe p ts) as ((A & _ & _ & B) & C & D & _). cbn in A, B, D.
  repeat split; auto; apply B.
Qed.
Print Assumptions C09_multi_terminates.

(* C09, refutation of the full claim: a map whose key is a (possibly empty) array makes the decoder panic. *)
Theorem C09_no_panic_refuted :
  fst (deserialize [x14; x00; x00; x00; x06; x15; x00; x00; x00; x00; x00] TNone) = DPanic.
Proof. vm_compute. reflexivity. Qed.
Print Assumptions C09_no_panic_refuted.

(* C09, continued: a truncated encoding is always reported as an error. *)
Theorem C09_truncation_detected : forall (v : value) (t : target) (p q : bs),
  good v -> supported v = true -> fits v -> wire v = p ++ q -> p <> [] -> q <> [] ->
  exists e, fst (deserialize p t) = DErr e.
Proof. exact truncated_fails. Qed.
Print Assumptions C09_truncation_detected.

Example C09_truncation_example :
  exists q, wire sample = firstn 20 (wire sample) ++ q /\ firstn 20 (wire sample) <> [] /\ q <> [].
Proof. exists (skipn 20 (wire sample)). vm_compute. repeat split; discriminate. Qed.

(* C09, finding: an argument list cut inside its last argument is accepted as a shorter list. *)
Theorem C09_multi_truncation_refuted :
  wire (VBool true) = [x05; x01] /\
  fst (deserializeMulti (wire (VByte x07) ++ [x05]) None) = DOk [VByte x07].
Proof. split; vm_compute; reflexivity. Qed.
Print Assumptions C09_multi_truncation_refuted.

(* C07, keys and floats: which keys of a map of arbitrary keys are the same key, and which of them (NaN) differ from themselves and are
   therefore refused; a float32 keeps its bits, a signalling NaN becomes quiet *)
Theorem C07_keys : forall a b, key_eqb a b = true <-> same_key a b.
Proof. exact key_eqb_spec. Qed.
Print Assumptions C07_keys.
Theorem C07_float32 : forall x, (~ nan32 x -> quiet32 x = x) /\ (nan32 x -> quiet32 x = N.setbit x 22).
Proof. exact quiet32_spec. Qed.
Print Assumptions C07_float32.
Example C07_keys_example : nan32 2143289345 /\ ~ nan32 2139095040 /\ nan64 9221120237041090561 /\
  same_key (VF32 0) (VF32 2147483648) /\ ~ same_key (VF64 9221120237041090561) (VF64 9221120237041090561) /\ nan32 2139095041 /\
  quiet32 2139095041 = 2143289345%N.
Proof. unfold same_key, nan32, nan64. repeat split; vm_compute; intuition (discriminate || auto); try (intros [? ?]; auto). Qed.
