(* ProtoProofs.v: proofs about the motan2 wire protocol. *)
From Verif Require Import Base BytesModel BytesSpec BytesProofs ProtoModel ProtoSpec.

Ltac Zify.zify_post_hook ::= idtac.

(* ------------------------------------------------------------ the encoder produces the frame *)

(* text written for the entries, with the trailing newline *)
Definition meta_raw (l : list (bs * bs)) : bs :=
  flat_map (fun kv => fst kv ++ newline :: snd kv ++ [newline]) (filter encodable l).

Lemma meta_raw_text l :
  meta_raw l = match filter encodable l with [] => [] | _ => meta_text (filter encodable l) ++ [newline] end.
Proof.
  unfold meta_raw. induction (filter encodable l) as [|[k v] r IH]; [reflexivity|].
  cbn [flat_map fst snd]. rewrite IH. destruct r as [|kv r]; cbn [meta_text].
  - rewrite app_nil_r. rewrite <- app_assoc. reflexivity.
  - set (t := meta_text (kv :: r)). rewrite <- !app_assoc. cbn [app]. rewrite <- !app_assoc. reflexivity.
Qed.

Lemma writeMetaEntry_spec b kv :
  buf_ok b ->
  bytesOf (writeMetaEntry b kv) = bytesOf b ++ meta_raw [kv] /\ buf_ok (writeMetaEntry b kv)
  /\ border (writeMetaEntry b kv) = border b /\ brpos (writeMetaEntry b kv) = brpos b.
Proof.
  intro Hok. destruct kv as [k v]. unfold writeMetaEntry, meta_raw, encodable. cbn [filter fst snd].
  destruct (bs_empty k), (bs_empty v), (bs_has newline k), (bs_has newline v);
    cbn [orb andb negb flat_map]; try (rewrite app_nil_r; auto; fail).
  destruct (write_spec b k Hok) as (B1 & O1 & R1 & P1 & W1).
  destruct (writeByte_spec _ newline O1) as (B2 & O2 & R2 & P2 & W2).
  destruct (write_spec _ v O2) as (B3 & O3 & R3 & P3 & W3).
  destruct (writeByte_spec _ newline O3) as (B4 & O4 & R4 & P4 & W4).
  rewrite B4, B3, B2, B1. cbn [fst snd]. rewrite app_nil_r.
  repeat split; try congruence. rewrite <- !app_assoc. reflexivity.
Qed.

Lemma meta_raw_cons kv l : meta_raw (kv :: l) = meta_raw [kv] ++ meta_raw l.
Proof.
  unfold meta_raw. cbn [filter]. destruct (encodable kv); cbn [flat_map]; rewrite ?app_nil_r; reflexivity.
Qed.

Lemma writeMeta_spec l : forall b,
  buf_ok b ->
  let b' := fold_left writeMetaEntry l b in
  bytesOf b' = bytesOf b ++ meta_raw l /\ buf_ok b' /\ border b' = border b /\ brpos b' = brpos b.
Proof.
  induction l as [|kv l IH]; intros b Hok; cbn zeta; cbn [fold_left].
  - cbn. rewrite app_nil_r. auto.
  - destruct (writeMetaEntry_spec b kv Hok) as (B & O & R & P).
    destruct (IH _ O) as (B' & O' & R' & P'). cbn zeta in *.
    rewrite B', B, (meta_raw_cons kv l), <- app_assoc. repeat split; congruence.
Qed.

Definition head13 (h : header) : bs :=
  [xf1; xf1; hMsgType h; hVerStatus h; hSerialize h] ++ spec_uint BigE 8 (hReqID h).

Lemma spec_uint_len o k n : length (spec_uint o k n) = k.
Proof. rewrite <- putUint_spec. apply putUint_length. Qed.

Lemma magic_bytes : putUint BigE 2 MotanMagic = [xf1; xf1].
Proof. vm_compute. reflexivity. Qed.


Lemma u32of_small n : (N.of_nat n < 2 ^ 32)%N -> u32of n = N.of_nat n.
Proof. intro H. unfold u32of. apply N.mod_small. exact H. Qed.

Lemma encode0_frame ob m :
  buf_reusable ob ->
  (N.of_nat (length (meta_text (sent_meta m))) < 2 ^ 32)%N -> (N.of_nat (length (mBody m)) < 2 ^ 32)%N ->
  let b := encode0 ob m in
  bytesOf b ++ mBody m = frame m /\ buf_ok b.
Proof.
  intros Hre Hm Hb. cbn zeta. unfold encode0.
  set (b0 := match ob with None => newBuf DefaultBufferSize BigE | Some b => reset b end).
  assert (O0 : buf_ok b0) by (unfold b0; destruct ob; [apply reset_ok | apply newBuf_ok]).
  assert (E0 : border b0 = BigE) by (unfold b0; destruct ob; cbn; [exact Hre | reflexivity]).
  assert (B0 : bytesOf b0 = []) by (unfold b0; destruct ob; [reflexivity | apply bytesOf_new]).
  clearbody b0.
  assert (W0 : bwpos b0 = 0) by (rewrite <- (bytesOf_length b0 O0), B0; reflexivity).
  unfold writeUint16, writeUint32, writeUint64.
  destruct (writeUint_spec 2 b0 MotanMagic O0) as (B1 & O1 & E1 & _ & W1).
  set (b1 := writeUint 2 b0 MotanMagic) in *. clearbody b1.
  destruct (writeByte_spec b1 (hMsgType (mHeader m)) O1) as (B2 & O2 & E2 & _ & W2).
  set (b2 := writeByte b1 _) in *. clearbody b2.
  destruct (writeByte_spec b2 (hVerStatus (mHeader m)) O2) as (B3 & O3 & E3 & _ & W3).
  set (b3 := writeByte b2 _) in *. clearbody b3.
  destruct (writeByte_spec b3 (hSerialize (mHeader m)) O3) as (B4 & O4 & E4 & _ & W4).
  set (b4 := writeByte b3 _) in *. clearbody b4.
  destruct (writeUint_spec 8 b4 (hReqID (mHeader m)) O4) as (B5 & O5 & E5 & _ & W5).
  set (b5 := writeUint 8 b4 _) in *. clearbody b5.
  assert (EB5 : border b5 = BigE) by congruence.
  assert (HB5 : bytesOf b5 = head13 (mHeader m)).
  { rewrite B5, B4, B3, B2, B1, B0. replace (border b0) with BigE. replace (border b4) with BigE by congruence.
    rewrite magic_bytes, putUint_spec. reflexivity. }
  assert (HW5 : bwpos b5 = 13) by lia.
  destruct (setWPos_spec b5 MetaStartOffset O5) as (O6 & E6 & _ & W6 & F6).
  set (b6 := setWPos b5 MetaStartOffset) in *. clearbody b6.
  specialize (F6 13). rewrite HW5 in F6. specialize (F6 ltac:(unfold MetaStartOffset; lia) ltac:(lia)).
  assert (HB6 : exists gap, length gap = 4 /\ bytesOf b6 = head13 (mHeader m) ++ gap).
  { exists (skipn 13 (bytesOf b6)). split.
    - rewrite skipn_length, (bytesOf_length b6 O6), W6. reflexivity.
    - rewrite <- (firstn_skipn 13 (bytesOf b6)) at 1. f_equal.
      unfold bytesOf at 1. rewrite W6, firstn_firstn. change (Nat.min 13 MetaStartOffset) with 13.
      rewrite F6. rewrite <- HB5. unfold bytesOf. rewrite HW5. reflexivity. }
  destruct HB6 as (gap & Lgap & HB6).
  destruct (writeMeta_spec (mMeta m) b6 O6) as (B7 & O7 & E7 & _). cbn zeta in *.
  set (b7 := fold_left writeMetaEntry (mMeta m) b6) in *. clearbody b7.
  rewrite HB6, meta_raw_text in B7. fold (sent_meta m) in B7.
  pose proof (bytesOf_length b7 O7) as W7. rewrite B7 in W7.
  assert (Lh : length (head13 (mHeader m)) = 13) by (unfold head13; rewrite app_length, spec_uint_len; reflexivity).
  set (T := meta_text (sent_meta m)) in *.
  set (nlt := match sent_meta m with [] => [] | _ :: _ => [newline] end : bs).
  assert (B7' : bytesOf b7 = head13 (mHeader m) ++ gap ++ T ++ nlt).
  { rewrite B7. unfold T, nlt. rewrite <- app_assoc. destruct (sent_meta m) as [|[k v] r]; reflexivity. }
  rewrite <- B7, B7', !app_length, Lh, Lgap in W7.
  unfold getWPos.
  assert (Hw : (if Nat.eqb (bwpos b7) MetaStartOffset then bwpos b7 else bwpos b7 - 1) = 17 + length T
               /\ (if Nat.eqb (bwpos b7) MetaStartOffset then 0
                   else (if Nat.eqb (bwpos b7) MetaStartOffset then bwpos b7 else bwpos b7 - 1) - MetaStartOffset)
                  = length T /\ 17 + length T <= bwpos b7).
  { unfold nlt in W7. destruct (sent_meta m) as [|[k v] r] eqn:Es.
    - subst T. cbn in W7 |- *. rewrite <- W7. cbn. auto.
    - cbn [length] in W7. unfold MetaStartOffset.
      destruct (Nat.eqb_spec (bwpos b7) 17) as [Heq|Hne].
      + exfalso. lia.
      + lia. }
  destruct Hw as (Hw1 & Hw2 & Hw3). rewrite Hw2, Hw1.
  destruct (backpatch b7 13 (u32of (length T)) 4 O7 ltac:(lia)) as (B8 & O8 & E8 & _ & W8). cbn zeta in *.
  assert (HX : exists b10, setWPos (writeUint 4 (setWPos b7 HeaderLength) (u32of (length T))) (17 + length T) = b10
    /\ bytesOf b10 = firstn (17 + length T) (bytesOf (setWPos (writeUint 4 (setWPos b7 13) (u32of (length T))) (bwpos b7)))
    /\ buf_ok b10 /\ border b10 = BigE).
  { eexists. split; [reflexivity|]. change HeaderLength with 13.
    set (x := writeUint 4 (setWPos b7 13) (u32of (length T))) in *.
    assert (Ox : buf_ok x) by (apply writeUint_spec, setWPos_spec, O7).
    assert (Wx : bwpos x = 17).
    { unfold x. destruct (setWPos_spec b7 13 O7) as (O' & _ & _ & W' & _).
      destruct (writeUint_spec 4 _ (u32of (length T)) O') as (_ & _ & _ & _ & W''). lia. }
    assert (Lx : bwpos b7 <= length (bbuf x)).
    { unfold x. unfold setWPos. unfold buf_ok in O7.
      destruct (Nat.ltb_spec (length (bbuf b7)) 13); [lia|].
      rewrite writeUint_put, (put_nogrow _ 4); cbn [bbuf bwpos brpos border]; [|lia|apply putUint_length].
      rewrite !app_length, firstn_length, skipn_length, putUint_length. lia. }
    destruct (setWPos_spec x (17 + length T) Ox) as (O' & E' & _).
    repeat split; [|exact O'|].
    - unfold bytesOf, setWPos.
      destruct (Nat.ltb_spec (length (bbuf x)) (17 + length T)) as [?|_]; [lia|].
      destruct (Nat.ltb_spec (length (bbuf x)) (bwpos b7)) as [?|_]; [lia|].
      cbn [bbuf bwpos]. rewrite firstn_firstn. f_equal. lia.
    - rewrite E'. unfold x. destruct (setWPos_spec b7 13 O7) as (O'' & E'' & _).
      destruct (writeUint_spec 4 _ (u32of (length T)) O'') as (_ & _ & E3' & _). congruence. }
  destruct HX as (b10 & -> & B10 & O10 & E10).
  destruct (writeUint_spec 4 b10 (u32of (length (mBody m))) O10) as (B11 & O11 & E11 & _ & W11).
  split; [|exact O11].
  rewrite B11, B10, B8, E10, B7'. replace (border b7) with BigE by congruence.
  rewrite !u32of_small by (exact Hb || exact Hm). rewrite !putUint_spec.
  assert (F13 : firstn 13 (head13 (mHeader m) ++ gap ++ T ++ nlt) = head13 (mHeader m))
    by (rewrite <- Lh; apply firstn_app_exact).
  assert (S17 : skipn (13 + 4) (head13 (mHeader m) ++ gap ++ T ++ nlt) = T ++ nlt).
  { replace (13 + 4) with (length (head13 (mHeader m) ++ gap)) by (rewrite app_length; lia).
    rewrite app_assoc. apply skipn_app_exact. }
  rewrite F13, S17.
  set (U := spec_uint BigE 4 (N.of_nat (length T))).
  assert (FF : firstn (17 + length T) (head13 (mHeader m) ++ U ++ T ++ nlt) = head13 (mHeader m) ++ U ++ T).
  { replace (17 + length T) with (length (head13 (mHeader m) ++ U ++ T))
      by (rewrite !app_length, Lh; unfold U; rewrite spec_uint_len; lia).
    rewrite !app_assoc. rewrite firstn_app_exact. reflexivity. }
  rewrite FF. unfold frame, head13. fold T. cbn zeta. fold U.
  rewrite <- !app_assoc. reflexivity.
Qed.

Lemma encode_frame ob m :
  buf_reusable ob ->
  (N.of_nat (length (meta_text (sent_meta m))) < 2 ^ 32)%N -> (N.of_nat (length (mBody m)) < 2 ^ 32)%N ->
  bytesOf (encodeMsg ob m) = frame m /\ concat (getEncodedBytes ob m) = frame m.
Proof.
  intros Hre Hm Hb. destruct (encode0_frame ob m Hre Hm Hb) as [E O]. cbn zeta in *. split.
  - unfold encodeMsg. destruct (Nat.ltb_spec 0 (length (mBody m))) as [H|H].
    + destruct (write_spec _ (mBody m) O) as (B & _). congruence.
    + destruct (mBody m); [rewrite app_nil_r in E; exact E | cbn in H; lia].
  - unfold getEncodedBytes. cbn [concat]. rewrite app_nil_r. exact E.
Qed.

(* ------------------------------------------------------------ decoding a frame *)

Lemma readN_app n mid rest : N.of_nat (length mid) = n -> readN n (mid ++ rest) = (Some mid, rest).
Proof.
  intro H. unfold readN. rewrite app_length, Nat2N.inj_add.
  destruct (N.ltb_spec (N.of_nat (length mid) + N.of_nat (length rest)) n) as [Hc|_]; [lia|].
  replace (N.to_nat n) with (length mid) by lia. rewrite firstn_app_exact, skipn_app_exact. reflexivity.
Qed.

Lemma readN_inv n s o r : readN n s = (o, r) ->
  (o = None /\ r = [] /\ (N.of_nat (length s) < n)%N) \/
  (exists mid, o = Some mid /\ s = mid ++ r /\ N.of_nat (length mid) = n).
Proof.
  unfold readN. destruct (N.ltb_spec (N.of_nat (length s)) n) as [Hlt|Hge]; intro H; injection H as <- <-.
  - left. auto.
  - right. exists (firstn (N.to_nat n) s). rewrite firstn_skipn, firstn_length. repeat split. lia.
Qed.

Lemma scan_seg seg p pre k m :
  bs_has newline seg = false -> scanMeta (seg ++ p) pre k m = scanMeta p (pre ++ seg) k m.
Proof.
  revert pre; induction seg as [|c seg IH]; intros pre H; cbn [app scanMeta].
  - rewrite app_nil_r. reflexivity.
  - unfold bs_has in H. cbn [existsb] in H. apply orb_false_iff in H as [Hc H].
    assert (Hc' : byte_eqb c newline = false) by (apply byte_eqb_neq; apply byte_eqb_neq in Hc; congruence).
    rewrite Hc', IH by exact H. rewrite <- app_assoc. reflexivity.
Qed.

Lemma aset_fresh (m : list (bs * bs)) k v : ~ In k (map fst m) -> aset bs_eqb m k v = m ++ [(k, v)].
Proof.
  induction m as [|[k0 v0] m IH]; cbn [aset map fst app]; intro H; [reflexivity|].
  destruct (bs_eqb k k0) eqn:E.
  - apply bs_eqb_spec in E. subst. exfalso. apply H. left. reflexivity.
  - f_equal. apply IH. intro Hin. apply H. right. exact Hin.
Qed.

Lemma encodable_inv kv : encodable kv = true ->
  bs_empty (fst kv) = false /\ bs_empty (snd kv) = false /\
  bs_has newline (fst kv) = false /\ bs_has newline (snd kv) = false.
Proof.
  unfold encodable. rewrite !andb_true_iff, !negb_true_iff. tauto.
Qed.

Lemma scan_meta_text l : forall m,
  (forall kv, In kv l -> encodable kv = true) -> NoDup (map fst l) ->
  (forall k, In k (map fst l) -> ~ In k (map fst m)) -> l <> [] ->
  scanMeta (meta_text l) [] [] m = ([], m ++ l).
Proof.
  assert (NL : byte_eqb newline newline = true) by reflexivity.
  induction l as [|[k v] l IH]; intros m He Hn Hd Hne; [contradiction|].
  destruct (encodable_inv _ (He _ (or_introl eq_refl))) as (Ek & Ev & Nk & Nv). cbn [fst snd] in *.
  inversion Hn as [|? ? Hk Hn']; subst. cbn [map fst] in *.
  assert (Hkm : ~ In k (map fst m)) by (apply Hd; left; reflexivity).
  destruct l as [|kv l].
  - cbn [meta_text]. rewrite scan_seg by exact Nk. cbn [scanMeta app]. rewrite NL. unfold emitSeg at 1. cbn [bs_empty].
    rewrite <- (app_nil_r v) at 1. rewrite scan_seg by exact Nv. cbn [scanMeta app]. unfold emitSeg. rewrite Ek.
    rewrite aset_fresh by exact Hkm. reflexivity.
  - change (meta_text ((k, v) :: kv :: l)) with (k ++ newline :: v ++ newline :: meta_text (kv :: l)).
    set (t := meta_text (kv :: l)).
    rewrite scan_seg by exact Nk. cbn [scanMeta app]. rewrite NL. unfold emitSeg at 1. cbn [bs_empty].
    rewrite scan_seg by exact Nv. cbn [scanMeta app]. rewrite NL. unfold emitSeg at 1. rewrite Ek.
    rewrite aset_fresh by exact Hkm. unfold t. rewrite IH.
    + rewrite <- app_assoc. reflexivity.
    + intros kv' H. apply He. right. exact H.
    + exact Hn'.
    + intros k' Hin. rewrite map_app, in_app_iff. cbn. intros [H|[H|[]]].
      * apply (Hd k'); [right; exact Hin | exact H].
      * subst k'. contradiction.
    + discriminate.
Qed.

Lemma meta_text_nonempty l : (forall kv, In kv l -> encodable kv = true) ->
  (0 <? N.of_nat (length (meta_text l)))%N = match l with [] => false | _ => true end.
Proof.
  destruct l as [|[k v] r]; intro H; [reflexivity|].
  apply N.ltb_lt. cbn [meta_text]. destruct r; rewrite app_length; cbn [length]; lia.
Qed.

Lemma sent_encodable m kv : In kv (sent_meta m) -> encodable kv = true.
Proof. unfold sent_meta. rewrite filter_In. tauto. Qed.

Lemma NoDup_map_filter {A B} (f : A -> B) (p : A -> bool) l : NoDup (map f l) -> NoDup (map f (filter p l)).
Proof.
  induction l as [|a l IH]; cbn; intro H; [constructor|]. inversion H as [|? ? Ha Hl]; subst.
  destruct (p a); cbn; [|apply IH, Hl]. constructor; [|apply IH, Hl].
  intro Hin. apply Ha. apply in_map_iff in Hin as (x & <- & Hx). apply filter_In in Hx as [Hx _]. apply in_map, Hx.
Qed.

Lemma getUint_spec_uint k n : (n < 256 ^ N.of_nat k)%N -> getUint BigE (spec_uint BigE k n) = n.
Proof. rewrite <- putUint_spec. apply getUint_putUint. Qed.

Lemma decode_frame max m rest : sendable max m -> decodeMsg max (frame m ++ rest) = DecOk (received m) rest.
Proof.
  intros (Hrid & Hver & Hnd & Hmeta & Hbody & Hmax). unfold decodeMsg, frame. cbn zeta.
  set (T := meta_text (sent_meta m)) in *. set (h := mHeader m) in *.
  set (U8 := spec_uint BigE 8 (hReqID h)). set (UM := spec_uint BigE 4 (N.of_nat (length T))).
  set (UB := spec_uint BigE 4 (N.of_nat (length (mBody m)))).
  assert (L8 : length U8 = 8) by apply spec_uint_len.
  assert (LM : length UM = 4) by apply spec_uint_len.
  assert (LB : length UB = 4) by apply spec_uint_len.
  set (hd := [xf1; xf1; hMsgType h; hVerStatus h; hSerialize h] ++ U8).
  replace (([xf1; xf1; hMsgType h; hVerStatus h; hSerialize h] ++ U8 ++ UM ++ T ++ UB ++ mBody m) ++ rest)
    with (hd ++ UM ++ T ++ UB ++ mBody m ++ rest) by (unfold hd; rewrite <- !app_assoc; reflexivity).
  rewrite (readN_app 13 hd) by (unfold hd; rewrite app_length, L8; reflexivity).
  change (getUint BigE (firstn 2 hd)) with 0xf1f1%N. change (N.eqb 0xf1f1 MotanMagic) with true. cbn [negb].
  change (nth 2 hd x00) with (hMsgType h). change (nth 3 hd x00) with (hVerStatus h).
  change (nth 4 hd x00) with (hSerialize h). change (skipn 5 hd) with U8.
  replace (getUint BigE U8) with (hReqID h)
    by (unfold U8; rewrite getUint_spec_uint; [reflexivity | change (256 ^ N.of_nat 8)%N with (2 ^ 64)%N; exact Hrid]).
  replace (mkHdr (hMsgType h) (hVerStatus h) (hSerialize h) (hReqID h)) with h by (destruct h; reflexivity).
  rewrite Hver. change (N.eqb 1 Version2) with true. cbn [negb].
  rewrite (readN_app 4 UM) by (rewrite LM; reflexivity).
  replace (getUint BigE UM) with (N.of_nat (length T))
    by (unfold UM; rewrite getUint_spec_uint; [reflexivity | change (256 ^ N.of_nat 4)%N with (2 ^ 32)%N; lia]).
  destruct (N.ltb_spec max (N.of_nat (length T))) as [?|_]; [lia|].
  assert (HT : (if (0 <? N.of_nat (length T))%N
      then match readN (N.of_nat (length T)) (T ++ UB ++ mBody m ++ rest) with
           | (Some mb, s3) => let (k, m0) := scanMeta mb [] [] [] in
                if bs_empty k then inl (m0, s3) else inr (PErrMetadata, s3)
           | (None, r) => inr (PEof, r) end
      else inl ([], T ++ UB ++ mBody m ++ rest)) = inl (sent_meta m, UB ++ mBody m ++ rest)).
  { unfold T at 1. rewrite meta_text_nonempty by apply sent_encodable.
    destruct (sent_meta m) as [|kv r] eqn:Es; [reflexivity|].
    rewrite (readN_app _ T) by reflexivity. unfold T.
    rewrite scan_meta_text.
    - reflexivity.
    - intros kv' H. rewrite <- Es in H. apply (sent_encodable m), H.
    - rewrite <- Es. unfold sent_meta. apply NoDup_map_filter, Hnd.
    - intros k _ [].
    - discriminate. }
  match goal with |- match ?X with inl _ => _ | inr _ => _ end = _ =>
    replace X with (@inl (list (bs * bs) * bs) (perr * bs) (sent_meta m, UB ++ mBody m ++ rest)) by (symmetry; exact HT) end.
  clear HT.
  rewrite (readN_app 4 UB) by (rewrite LB; reflexivity).
  replace (getUint BigE UB) with (N.of_nat (length (mBody m)))
    by (unfold UB; rewrite getUint_spec_uint; [reflexivity | change (256 ^ N.of_nat 4)%N with (2 ^ 32)%N; lia]).
  destruct (N.ltb_spec max (N.of_nat (length (mBody m)))) as [?|_]; [lia|].
  rewrite (readN_app _ (mBody m)) by reflexivity. reflexivity.
Qed.

Lemma frame_length m : 21 <= length (frame m).
Proof. unfold frame. rewrite !app_length, !spec_uint_len. cbn [length]. lia. Qed.

Lemma decodeAll_frames max ms : forall fuel,
  Forall (sendable max) ms -> length (concat (map frame ms)) <= fuel ->
  decodeAll fuel max (concat (map frame ms)) = (map received ms, None).
Proof.
  induction ms as [|m ms IH]; intros fuel Hs Hf; cbn [map concat] in *.
  - destruct fuel; reflexivity.
  - inversion Hs as [|? ? H1 H2]; subst. pose proof (frame_length m) as HL. rewrite app_length in Hf.
    destruct fuel as [|fuel]; [lia|].
    pose proof (decode_frame max m (concat (map frame ms)) H1) as HD.
    destruct (frame m ++ concat (map frame ms)) as [|c r] eqn:E.
    { apply app_eq_nil in E as [E _]. rewrite E in HL. cbn in HL. lia. }
    cbn [decodeAll]. rewrite HD. rewrite (IH fuel H2) by lia. reflexivity.
Qed.

(* ------------------------------------------------------------ arbitrary streams *)

Lemma getUint_BigE_fold l : getUint BigE l = fold_left (fun acc b => (acc * 256 + b2n b)%N) l 0%N.
Proof.
  unfold getUint. rewrite <- fold_left_rev_right.
  induction (rev l) as [|b r IH]; [reflexivity|]. cbn [leVal fold_right]. rewrite <- IH. lia.
Qed.

Lemma be_at_app (pre mid rest : bs) k : length mid = k -> be_at (pre ++ mid ++ rest) (length pre) k = getUint BigE mid.
Proof.
  intro H. unfold be_at. rewrite skipn_app_exact, <- H, firstn_app_exact. symmetry. apply getUint_BigE_fold.
Qed.

Lemma len_to_nat (mid : bs) n : N.of_nat (length mid) = n -> length mid = N.to_nat n.
Proof. lia. Qed.

(* complete case analysis of the decoder *)
Lemma decode_cases max s :
  (exists e, decodeMsg max s = DecErr e [] /\ e = PEof /\ (N.of_nat (length s) <= 21 + 2 * max)%N /\
     ((length s < 13) \/ (length s < 17) \/
      (N.of_nat (length s) < 17 + declared_meta s)%N \/ (N.of_nat (length s) < 21 + declared_meta s)%N \/
      (N.of_nat (length s) < 21 + declared_meta s + declared_body s)%N)) \/
  (exists e hd rest, decodeMsg max s = DecErr e rest /\ s = hd ++ rest /\ length hd = 13 /\ (e = PErrMagicNum \/ e = PErrVersion)
     /\ (be_at s 0 2 <> 0xf1f1%N \/ N.land (N.shiftr (b2n (nth 3 s x00)) 3) 31 <> 1%N)) \/
  (exists hd rest, decodeMsg max s = DecErr PErrOverSize rest /\ s = hd ++ rest /\ length hd = 17 /\ (max < declared_meta s)%N) \/
  (exists hd mb rest, decodeMsg max s = DecErr PErrMetadata rest /\ s = hd ++ mb ++ rest /\ length hd = 17 /\
     N.of_nat (length mb) = declared_meta s /\ (declared_meta s <= max)%N) \/
  (exists hd mb bz rest, decodeMsg max s = DecErr PErrOverSize rest /\ s = hd ++ mb ++ bz ++ rest /\ length hd = 17 /\
     N.of_nat (length mb) = declared_meta s /\ (declared_meta s <= max)%N /\ length bz = 4 /\ (max < declared_body s)%N) \/
  (exists hd mb bz body rest m, decodeMsg max s = DecOk m rest /\ s = hd ++ mb ++ bz ++ body ++ rest /\ length hd = 17 /\
     N.of_nat (length mb) = declared_meta s /\ (declared_meta s <= max)%N /\ length bz = 4 /\
     N.of_nat (length body) = declared_body s /\ (declared_body s <= max)%N /\
     be_at s 0 2 = 0xf1f1%N /\ GetVersion (mHeader m) = 1%N /\ hMsgType (mHeader m) = nth 2 s x00 /\
     hVerStatus (mHeader m) = nth 3 s x00 /\ hSerialize (mHeader m) = nth 4 s x00 /\ hReqID (mHeader m) = be_at s 5 8 /\
     mBody m = body /\ ((0 < declared_meta s)%N -> scanMeta mb [] [] [] = ([], mMeta m)) /\
     (declared_meta s = 0%N -> mMeta m = [])).
Proof.
  unfold decodeMsg.
  destruct (readN 13 s) as [o1 s1] eqn:R1. apply readN_inv in R1 as [(-> & -> & H1)|(hd & -> & -> & L1)].
  { left. eexists. split; [reflexivity|]. split; [reflexivity|]. split; [lia|]. left. lia. }
  apply len_to_nat in L1. change (N.to_nat 13) with 13 in L1.
  assert (BM : be_at (hd ++ s1) 0 2 = getUint BigE (firstn 2 hd)).
  { rewrite getUint_BigE_fold. unfold be_at. cbn [skipn]. rewrite firstn_app.
    replace (2 - length hd) with 0 by lia. rewrite firstn_O, app_nil_r. reflexivity. }
  assert (NT : forall i, i < 13 -> nth i (hd ++ s1) x00 = nth i hd x00) by (intros; apply app_nth1; lia).
  assert (BR : be_at (hd ++ s1) 5 8 = getUint BigE (skipn 5 hd)).
  { rewrite getUint_BigE_fold. unfold be_at. rewrite skipn_app. rewrite firstn_app, skipn_length.
    replace (5 - length hd) with 0 by lia. replace (8 - (length hd - 5)) with 0 by lia.
    rewrite firstn_O. rewrite app_nil_r, firstn_all2 by (rewrite skipn_length; lia). reflexivity. }
  destruct (N.eqb_spec (getUint BigE (firstn 2 hd)) MotanMagic) as [Em|Em]; cbn [negb].
  2:{ right. left. exists PErrMagicNum, hd, s1. repeat split; auto. left. rewrite BM. exact Em. }
  set (h := mkHdr _ _ _ _).
  destruct (N.eqb_spec (GetVersion h) Version2) as [Ev|Ev]; cbn [negb].
  2:{ right. left. exists PErrVersion, hd, s1. repeat split; auto. right. rewrite NT by lia. exact Ev. }
  destruct (readN 4 s1) as [o2 s2] eqn:R2. apply readN_inv in R2 as [(-> & -> & H2)|(ms & -> & -> & L2)].
  { left. eexists. split; [reflexivity|]. split; [reflexivity|]. split; [rewrite ?app_length; lia|]. right. left. rewrite app_length. lia. }
  apply len_to_nat in L2. change (N.to_nat 4) with 4 in L2.
  assert (DM : declared_meta (hd ++ ms ++ s2) = getUint BigE ms).
  { unfold declared_meta. rewrite <- L1. apply be_at_app. exact L2. }
  assert (L17 : length (hd ++ ms) = 17) by (rewrite app_length; lia).
  destruct (N.ltb_spec max (getUint BigE ms)) as [Ho|Ho].
  { right. right. left. exists (hd ++ ms), s2. rewrite <- app_assoc. repeat split; auto. rewrite DM. exact Ho. }
  destruct (N.ltb_spec 0 (getUint BigE ms)) as [Hp|Hp].
  - destruct (readN (getUint BigE ms) s2) as [o3 s3] eqn:R3. apply readN_inv in R3 as [(-> & -> & H3)|(mb & -> & -> & L3)].
    { left. eexists. split; [reflexivity|]. split; [reflexivity|]. split; [rewrite ?app_length; lia|]. right. right. left. rewrite DM. rewrite !app_length. lia. }
    destruct (scanMeta mb [] [] []) as [k mt] eqn:Esc.
    destruct (bs_empty k) eqn:Ek.
    2:{ right. right. right. left. exists (hd ++ ms), mb, s3. rewrite <- !app_assoc. repeat split; auto; rewrite DM; auto. }
    destruct (readN 4 s3) as [o4 s4] eqn:R4. apply readN_inv in R4 as [(-> & -> & H4)|(bz & -> & -> & L4)].
    { left. eexists. split; [reflexivity|]. split; [reflexivity|]. split; [rewrite ?app_length; lia|]. right. right. right. left. rewrite DM. rewrite !app_length. lia. }
    apply len_to_nat in L4. change (N.to_nat 4) with 4 in L4.
    assert (DB : declared_body (hd ++ ms ++ mb ++ bz ++ s4) = getUint BigE bz).
    { unfold declared_body. rewrite DM. replace (17 + N.to_nat (getUint BigE ms)) with (length (hd ++ ms ++ mb))
        by (rewrite !app_length; lia).
      replace (hd ++ ms ++ mb ++ bz ++ s4) with ((hd ++ ms ++ mb) ++ bz ++ s4) by (rewrite <- !app_assoc; reflexivity).
      apply be_at_app. exact L4. }
    destruct (N.ltb_spec max (getUint BigE bz)) as [Hb|Hb].
    { right. right. right. right. left. exists (hd ++ ms), mb, bz, s4. rewrite <- !app_assoc.
      repeat split; auto; rewrite ?DM, ?DB; auto. }
    destruct (readN (getUint BigE bz) s4) as [o5 s5] eqn:R5. apply readN_inv in R5 as [(-> & -> & H5)|(body & -> & -> & L5)].
    { left. eexists. split; [reflexivity|]. split; [reflexivity|]. split; [rewrite ?app_length; lia|]. right. right. right. right. rewrite DM, DB. rewrite !app_length. lia. }
    right. right. right. right. right. exists (hd ++ ms), mb, bz, body, s5, (mkMsg h mt body).
    rewrite <- !app_assoc. cbn [mHeader mBody mMeta].
    rewrite DM, DB, BM, BR, !NT by lia. apply bs_empty_spec in Ek. subst k.
    repeat split; auto. intro; exfalso; lia.
  - assert (E0 : getUint BigE ms = 0%N) by lia.
    destruct (readN 4 s2) as [o4 s4] eqn:R4. apply readN_inv in R4 as [(-> & -> & H4)|(bz & -> & -> & L4)].
    { left. eexists. split; [reflexivity|]. split; [reflexivity|]. split; [rewrite ?app_length; lia|]. right. right. right. left. rewrite DM. rewrite !app_length. lia. }
    apply len_to_nat in L4. change (N.to_nat 4) with 4 in L4.
    assert (DB : declared_body (hd ++ ms ++ bz ++ s4) = getUint BigE bz).
    { unfold declared_body. rewrite DM, E0. change (N.to_nat 0) with 0. replace (17 + 0) with (length (hd ++ ms)) by lia.
      replace (hd ++ ms ++ bz ++ s4) with ((hd ++ ms) ++ bz ++ s4) by (rewrite <- !app_assoc; reflexivity).
      apply be_at_app. exact L4. }
    destruct (N.ltb_spec max (getUint BigE bz)) as [Hb|Hb].
    { right. right. right. right. left. exists (hd ++ ms), [], bz, s4. rewrite <- !app_assoc. cbn [app length].
      repeat split; auto; rewrite ?DM, ?DB; auto. }
    destruct (readN (getUint BigE bz) s4) as [o5 s5] eqn:R5. apply readN_inv in R5 as [(-> & -> & H5)|(body & -> & -> & L5)].
    { left. eexists. split; [reflexivity|]. split; [reflexivity|]. split; [rewrite ?app_length; lia|]. right. right. right. right. rewrite DM, DB. rewrite !app_length. lia. }
    right. right. right. right. right. exists (hd ++ ms), [], bz, body, s5, (mkMsg h [] body).
    rewrite <- !app_assoc. cbn [mHeader mBody mMeta app length].
    rewrite DM, DB, BM, BR, !NT by lia.
    repeat split; auto.
Qed.

(* the decoder's answer does not depend on what follows what it consumed *)
Lemma readN_extend n s o r q : readN n s = (Some o, r) -> readN n (s ++ q) = (Some o, r ++ q).
Proof.
  intro H. apply readN_inv in H as [(H & _)|(mid & Hm & -> & L)]; [discriminate|]. injection Hm as ->.
  rewrite <- app_assoc. apply readN_app, L.
Qed.

Definition extend_res (d : decoded) (q : bs) : decoded :=
  match d with DecOk m r => DecOk m (r ++ q) | DecErr e r => DecErr e (r ++ q) end.

Lemma decode_extend max s q :
  decodeMsg max s = DecErr PEof [] \/ decodeMsg max (s ++ q) = extend_res (decodeMsg max s) q.
Proof.
  unfold decodeMsg.
  destruct (readN 13 s) as [[hd|] s1] eqn:R1.
  2:{ apply readN_inv in R1 as [(_ & -> & _)|(mid & Hm & _)]; [auto|discriminate]. }
  rewrite (readN_extend _ _ _ _ q R1).
  destruct (negb _); [right; reflexivity|].
  destruct (negb _); [right; reflexivity|].
  destruct (readN 4 s1) as [[ms|] s2] eqn:R2.
  2:{ apply readN_inv in R2 as [(_ & -> & _)|(mid & Hm & _)]; [auto|discriminate]. }
  rewrite (readN_extend _ _ _ _ q R2).
  destruct (max <? getUint BigE ms)%N; [right; reflexivity|].
  assert (TAIL : forall mt s3,
    let tail := fun x => match readN 4 x with
      | (Some bsz, s4) => if (max <? getUint BigE bsz)%N then DecErr PErrOverSize s4 else
         match readN (getUint BigE bsz) s4 with
         | (Some body, s5) => DecOk (mkMsg (mkHdr (nth 2 hd x00) (nth 3 hd x00) (nth 4 hd x00) (getUint BigE (skipn 5 hd))) mt body) s5
         | (None, r) => DecErr PEof r end
      | (None, r) => DecErr PEof r end in
    tail s3 = DecErr PEof [] \/ tail (s3 ++ q) = extend_res (tail s3) q).
  { intros mt s3. cbv beta zeta. destruct (readN 4 s3) as [[bz|] s4] eqn:R4.
    2:{ apply readN_inv in R4 as [(_ & -> & _)|(mid & Hm & _)]; [auto|discriminate]. }
    rewrite (readN_extend _ _ _ _ q R4).
    destruct (max <? getUint BigE bz)%N; [right; reflexivity|].
    destruct (readN (getUint BigE bz) s4) as [[body|] s5] eqn:R5.
    2:{ apply readN_inv in R5 as [(_ & -> & _)|(mid & Hm & _)]; [auto|discriminate]. }
    rewrite (readN_extend _ _ _ _ q R5). right. reflexivity. }
  destruct (0 <? getUint BigE ms)%N; [|apply TAIL].
  destruct (readN (getUint BigE ms) s2) as [[mb|] s3] eqn:R3.
  2:{ apply readN_inv in R3 as [(_ & -> & _)|(mid & Hm & _)]; [auto|discriminate]. }
  rewrite (readN_extend _ _ _ _ q R3).
  destruct (scanMeta mb [] [] []) as [k mt]. destruct (bs_empty k); [apply TAIL|].
  right. reflexivity.
Qed.

Lemma decode_consumes max s :
  let rest := match decodeMsg max s with DecOk _ r | DecErr _ r => r end in
  exists consumed, s = consumed ++ rest /\
    (N.of_nat (length consumed) <= 21 + declared_meta s + declared_body s)%N /\
    (N.of_nat (length consumed) <= 21 + 2 * max)%N.
Proof.
  cbn zeta.
  destruct (decode_cases max s) as [(e & -> & _ & Hx & H)|[(e & hd & rest & -> & E & L & H)|[(hd & rest & -> & E & L & H)|
    [(hd & mb & rest & -> & E & L & H & H')|[(hd & mb & bz & rest & -> & E & L & H & H1 & H2 & H3)|
     (hd & mb & bz & body & rest & m & -> & E & L & H & H1 & H2 & H3 & H4 & _)]]]]].
  - exists s. rewrite app_nil_r. repeat split; lia.
  - exists hd. repeat split; [exact E | lia | lia].
  - exists hd. repeat split; [exact E | lia | lia].
  - exists (hd ++ mb). rewrite <- app_assoc, app_length. repeat split; [exact E | lia | lia].
  - exists (hd ++ mb ++ bz). rewrite <- !app_assoc, !app_length. repeat split; [exact E | lia | lia].
  - exists (hd ++ mb ++ bz ++ body). rewrite <- !app_assoc, !app_length. repeat split; [exact E | lia | lia].
Qed.

Lemma decode_accepts max s m rest :
  decodeMsg max s = DecOk m rest ->
  be_at s 0 2 = 0xf1f1%N /\ GetVersion (mHeader m) = 1%N /\ hVerStatus (mHeader m) = nth 3 s x00 /\
  hMsgType (mHeader m) = nth 2 s x00 /\ hSerialize (mHeader m) = nth 4 s x00 /\ hReqID (mHeader m) = be_at s 5 8 /\
  (declared_meta s <= max)%N /\ (declared_body s <= max)%N /\
  exists hd mb bz, s = hd ++ mb ++ bz ++ mBody m ++ rest /\ length hd = 17 /\ length bz = 4 /\
    N.of_nat (length mb) = declared_meta s /\ N.of_nat (length (mBody m)) = declared_body s.
Proof.
  intro HD.
  destruct (decode_cases max s) as [(e & E & _)|[(e & hd & r & E & _)|[(hd & r & E & _)|
    [(hd & mb & r & E & _)|[(hd & mb & bz & r & E & _)|
     (hd & mb & bz & body & r & m' & E & Es & L & H & H1 & H2 & H3 & H4 & H5 & H6 & H7 & H8 & H9 & H10 & H11 & _)]]]]];
    rewrite HD in E; try discriminate.
  injection E as <- <-. subst body. repeat split; auto. exists hd, mb, bz. auto.
Qed.

Lemma decode_truncated max p t rest m :
  decodeMsg max (p ++ t ++ rest) = DecOk m rest -> t <> [] -> decodeMsg max p = DecErr PEof [].
Proof.
  intros HD Ht. destruct (decode_extend max p (t ++ rest)) as [E|E]; [exact E|].
  exfalso. rewrite HD in E. destruct (decodeMsg max p) as [m' r'|e r']; cbn in E; [|discriminate].
  injection E as -> E. apply (f_equal (@length byte)) in E. rewrite !app_length in E.
  destruct t; [contradiction|cbn in E; lia].
Qed.

(* the metadata scanner against the line-wise description *)
Lemma split_lines_cons_nl p : split_lines (newline :: p) = [] :: split_lines p.
Proof. reflexivity. Qed.
Lemma split_lines_nonempty p : split_lines p <> [].
Proof. induction p as [|c p IH]; cbn [split_lines]; [discriminate|]. destruct (byte_eqb c newline); [discriminate|].
  destruct (split_lines p); discriminate. Qed.

Definition prepend (seg : bs) (l : list bs) : list bs :=
  match l with [] => [seg] | x :: r => (seg ++ x) :: r end.

Fixpoint pair_run (l : list bs) (k : bs) (m : list (bs * bs)) : bs * list (bs * bs) :=
  match l with
  | [] => (k, m)
  | x :: r => let (k', m') := emitSeg x k m in pair_run r k' m'
  end.
Lemma scanMeta_lines p : forall seg k m, scanMeta p seg k m = pair_run (prepend seg (split_lines p)) k m.
Proof.
  induction p as [|c p IH]; intros seg k m.
  - cbn. rewrite app_nil_r. destruct (emitSeg seg k m). reflexivity.
  - cbn [scanMeta split_lines]. destruct (byte_eqb c newline) eqn:E.
    + cbn [prepend pair_run]. rewrite app_nil_r. destruct (emitSeg seg k m) as [k' m']. rewrite IH.
      pose proof (split_lines_nonempty p). destruct (split_lines p); [contradiction|]. reflexivity.
    + rewrite IH. pose proof (split_lines_nonempty p). destruct (split_lines p) as [|x r]; [contradiction|].
      cbn [prepend]. rewrite <- app_assoc. reflexivity.
Qed.
Lemma pair_run_pairs n : forall l m, length l <= n ->
  pair_lines l = match pair_run l [] m with ([], _) => pair_lines l | _ => None end /\
  (forall ps, pair_lines l = Some ps -> pair_run l [] m = ([], fold_left (fun m kv => aset bs_eqb m (fst kv) (snd kv)) ps m)) /\
  (pair_lines l = None -> fst (pair_run l [] m) <> []).
Proof.
  induction n as [|n IH]; intros l m Hl.
  - destruct l; [|cbn in Hl; lia]. cbn. repeat split; try discriminate. intros ps H. injection H as <-. reflexivity.
  - destruct l as [|x l].
    { cbn. repeat split; try discriminate. intros ps H. injection H as <-. reflexivity. }
    destruct x as [|c x].
    + cbn [pair_lines pair_run emitSeg bs_empty]. apply IH. cbn in Hl. lia.
    + cbn [pair_run emitSeg bs_empty]. destruct l as [|v l].
      * cbn [pair_lines pair_run]. repeat split; discriminate.
      * cbn [pair_lines pair_run emitSeg bs_empty].
        destruct (IH l (aset bs_eqb m (c :: x) v) ltac:(cbn in Hl; lia)) as (A & B & C).
        destruct (pair_lines l) as [ps|] eqn:E.
        -- rewrite (B ps eq_refl). repeat split; [|discriminate]. intros ps' H. injection H as <-. reflexivity.
        -- specialize (C eq_refl). destruct (pair_run l [] _) as [[|k0 k1] m']; cbn in *; [contradiction|].
           repeat split; try discriminate; auto.
Qed.
Lemma scan_meta_meaning mb :
  (forall m, scanMeta mb [] [] [] = ([], m) -> 
     exists ps, pair_lines (split_lines mb) = Some ps /\ m = fold_left (fun m kv => aset bs_eqb m (fst kv) (snd kv)) ps []).
Proof.
  intros m H. rewrite scanMeta_lines in H.
  assert (E : prepend [] (split_lines mb) = split_lines mb) by (destruct (split_lines mb) eqn:E; [|reflexivity]; exfalso; apply (split_lines_nonempty mb E)).
  rewrite E in H. destruct (pair_run_pairs _ (split_lines mb) [] (le_n _)) as (_ & B & C).
  destruct (pair_lines (split_lines mb)) as [ps|].
  - exists ps. split; [reflexivity|]. specialize (B ps eq_refl). congruence.
  - specialize (C eq_refl). rewrite H in C. contradiction.
Qed.

Lemma decode_meta_meaning max s m rest :
  decodeMsg max s = DecOk m rest -> (0 < declared_meta s)%N ->
  exists ps, pair_lines (split_lines (firstn (N.to_nat (declared_meta s)) (skipn 17 s))) = Some ps /\
    mMeta m = fold_left (fun m kv => aset bs_eqb m (fst kv) (snd kv)) ps [].
Proof.
  intros HD Hp.
  destruct (decode_cases max s) as [(e & E & _)|[(e & hd & r & E & _)|[(hd & r & E & _)|
    [(hd & mb & r & E & _)|[(hd & mb & bz & r & E & _)|
     (hd & mb & bz & body & r & m' & E & Es & L & H & H1 & H2 & H3 & H4 & H5 & H6 & H7 & H8 & H9 & H10 & H11 & H12 & _)]]]]];
    rewrite HD in E; try discriminate.
  injection E as <- <-. specialize (H12 Hp). apply scan_meta_meaning in H12 as (ps & P1 & P2).
  exists ps. split; [|exact P2].
  replace (firstn (N.to_nat (declared_meta s)) (skipn 17 s)) with mb; [exact P1|].
  rewrite <- H, Nat2N.id, Es, <- L, skipn_app_exact, firstn_app_exact. reflexivity.
Qed.

(* ------------------------------------------------------------ header fields *)

Definition bytes256 : list byte := map n2b all_bytes_N.
Lemma bytes256_complete b : In b bytes256.
Proof.
  unfold bytes256. rewrite <- (n2b_b2n b). apply in_map. apply all_bytes_complete, b2n_lt.
Qed.
Definition bools := [true; false].
Lemma bools_complete b : In b bools.
Proof. destruct b; cbn; auto. Qed.
Definition zrange (n : nat) : list Z := map Z.of_nat (seq 0 n).
Lemma zrange_complete n z : (0 <= z < Z.of_nat n)%Z -> In z (zrange n).
Proof. intro H. unfold zrange. rewrite <- (Z2Nat.id z) by lia. apply in_map, in_seq. lia. Qed.

Lemma byte_sweep (P : byte -> bool) : forallb P bytes256 = true -> forall b, P b = true.
Proof. intros H b. rewrite forallb_forall in H. apply H, bytes256_complete. Qed.

Definition tview (t : byte) : bool * bool * bool * bool * bool :=
  (bit_is t 16 16, bit_is t 8 8, bit_is t 4 4, bit_is t 2 2, bit_is t 1 0).
Definition tview_eqb (a b : bool * bool * bool * bool * bool) : bool :=
  match a, b with (a1, a2, a3, a4, a5), (b1, b2, b3, b4, b5) =>
    Bool.eqb a1 b1 && Bool.eqb a2 b2 && Bool.eqb a3 b3 && Bool.eqb a4 b4 && Bool.eqb a5 b5 end.
Lemma tview_eqb_eq a b : tview_eqb a b = true -> a = b.
Proof.
  destruct a as [[[[a1 a2] a3] a4] a5], b as [[[[b1 b2] b3] b4] b5]. cbn.
  rewrite !andb_true_iff. intros [[[[H1 H2] H3] H4] H5].
  apply eqb_prop in H1, H2, H3, H4, H5. congruence.
Qed.

Definition tset (i : nat) (x : bool) (t : byte) : byte :=
  match i with
  | 0 => if x then bor t 16 else band t 239
  | 1 => if x then bor t 8 else band t 247
  | 2 => if x then bor t 4 else band t 251
  | 3 => if x then bor t 2 else band t 253
  | _ => if x then band t 254 else bor t 1
  end.
Definition tspec (i : nat) (x : bool) (v : bool * bool * bool * bool * bool) :=
  match v with (a1, a2, a3, a4, a5) =>
    match i with
    | 0 => (x, a2, a3, a4, a5) | 1 => (a1, x, a3, a4, a5) | 2 => (a1, a2, x, a4, a5)
    | 3 => (a1, a2, a3, x, a5) | _ => (a1, a2, a3, a4, x)
    end end.
Lemma tset_ok i x t : i < 5 -> tview (tset i x t) = tspec i x (tview t).
Proof.
  intro Hi. apply tview_eqb_eq.
  assert (S : forallb (fun i => forallb (fun x => forallb (fun t =>
    tview_eqb (tview (tset i x t)) (tspec i x (tview t))) bytes256) bools) (seq 0 5) = true) by (vm_compute; reflexivity).
  rewrite forallb_forall in S. specialize (S i ltac:(apply in_seq; lia)).
  rewrite forallb_forall in S. specialize (S x (bools_complete x)).
  apply (byte_sweep _ S t).
Qed.

(* the version / status byte and the serialization byte *)
Definition hi5 (b : byte) : N := N.land (N.shiftr (b2n b) 3) 31.
Definition lo3 (b : byte) : N := N.land (b2n b) 7.
Definition set_hi5 (b : byte) (v : Z) : byte := n2b (N.lor (N.land (b2n b) 7) (N.land (N.shiftl (u8 v) 3) 248)).
Definition set_lo3 (b : byte) (v : Z) : byte := n2b (N.lor (N.land (b2n b) 248) (N.land (u8 v) 7)).
Lemma set_hi5_ok b v : (0 <= v < 32)%Z -> hi5 (set_hi5 b v) = Z.to_N v /\ lo3 (set_hi5 b v) = lo3 b.
Proof.
  intro H.
  assert (S : forallb (fun v => forallb (fun b => N.eqb (hi5 (set_hi5 b v)) (Z.to_N v) &&
     N.eqb (lo3 (set_hi5 b v)) (lo3 b)) bytes256) (zrange 32) = true) by (vm_compute; reflexivity).
  rewrite forallb_forall in S. specialize (S v (zrange_complete 32 v H)).
  apply (byte_sweep _) with (b := b) in S. apply andb_true_iff in S as [S1 S2].
  apply N.eqb_eq in S1, S2. auto.
Qed.
Lemma set_lo3_ok b v : (0 <= v < 8)%Z -> lo3 (set_lo3 b v) = Z.to_N v /\ hi5 (set_lo3 b v) = hi5 b.
Proof.
  intro H.
  assert (S : forallb (fun v => forallb (fun b => N.eqb (lo3 (set_lo3 b v)) (Z.to_N v) &&
     N.eqb (hi5 (set_lo3 b v)) (hi5 b)) bytes256) (zrange 8) = true) by (vm_compute; reflexivity).
  rewrite forallb_forall in S. specialize (S v (zrange_complete 8 v H)).
  apply (byte_sweep _) with (b := b) in S. apply andb_true_iff in S as [S1 S2].
  apply N.eqb_eq in S1, S2. auto.
Qed.

Lemma hop_refines h o : hop_nonneg o -> view (run_hop h o) = spec_hop (view h) o.
Proof.
  intro Hn. destruct h as [t vs se rid].
  pose proof (fun i x Hi => tset_ok i x t Hi) as TS.
  destruct o as [x|x|x|x|x|n|n|n]; cbn [run_hop hop_nonneg] in *.
  1: specialize (TS 0 x ltac:(lia)).
  2: specialize (TS 1 x ltac:(lia)).
  3: specialize (TS 2 x ltac:(lia)).
  4: specialize (TS 3 x ltac:(lia)).
  5: specialize (TS 4 x ltac:(lia)).
  1-5: unfold tview, tset, tspec in TS; injection TS as T1 T2 T3 T4 T5;
    unfold view, spec_hop, SetHeartbeat, SetGzip, SetOneWay, SetProxy, SetRequest, setType, IsHeartbeat, IsGzip, IsOneWay,
      IsProxy, isRequest, GetVersion, GetStatus, GetSerialize; cbn [hMsgType hVerStatus hSerialize hReqID]; congruence.
  - unfold SetVersion. cbn [hVerStatus]. destruct (Z.ltb_spec 31 n) as [Hgt|Hle]; unfold view, spec_hop.
    + destruct (Z.leb_spec n 31); [lia|reflexivity].
    + destruct (Z.leb_spec n 31); [|lia]. destruct (set_hi5_ok vs n ltac:(lia)) as [S1 S2].
      unfold hi5, lo3, set_hi5 in *. unfold setVS, GetVersion, GetStatus, IsHeartbeat, IsGzip, IsOneWay, IsProxy, isRequest, GetSerialize.
      cbn [hMsgType hVerStatus hSerialize hReqID]. congruence.
  - unfold SetStatus. cbn [hVerStatus]. destruct (Z.ltb_spec 7 n) as [Hgt|Hle]; unfold view, spec_hop.
    + destruct (Z.leb_spec n 7); [lia|reflexivity].
    + destruct (Z.leb_spec n 7); [|lia]. destruct (set_lo3_ok vs n ltac:(lia)) as [S1 S2].
      unfold hi5, lo3, set_lo3 in *. unfold setVS, GetVersion, GetStatus, IsHeartbeat, IsGzip, IsOneWay, IsProxy, isRequest, GetSerialize.
      cbn [hMsgType hVerStatus hSerialize hReqID]. congruence.
  - unfold SetSerialize. cbn [hSerialize]. destruct (Z.ltb_spec 31 n) as [Hgt|Hle]; unfold view, spec_hop.
    + destruct (Z.leb_spec n 31); [lia|reflexivity].
    + destruct (Z.leb_spec n 31); [|lia]. destruct (set_hi5_ok se n ltac:(lia)) as [S1 S2].
      unfold hi5, lo3, set_hi5 in *. unfold setSer, GetVersion, GetStatus, IsHeartbeat, IsGzip, IsOneWay, IsProxy, isRequest, GetSerialize.
      cbn [hMsgType hVerStatus hSerialize hReqID]. congruence.
Qed.

Lemma hops_refine ops : forall h, Forall hop_nonneg ops ->
  view (fold_left run_hop ops h) = fold_left spec_hop ops (view h).
Proof.
  induction ops as [|o ops IH]; intros h H; cbn [fold_left]; [reflexivity|].
  inversion H; subst. rewrite IH by assumption. rewrite hop_refines by assumption. reflexivity.
Qed.

Lemma view_determines_wire h1 h2 :
  view h1 = view h2 ->
  N.land (b2n (hMsgType h1)) 0xe0 = N.land (b2n (hMsgType h2)) 0xe0 ->
  N.land (b2n (hSerialize h1)) 7 = N.land (b2n (hSerialize h2)) 7 -> h1 = h2.
Proof.
  destruct h1 as [t1 v1 s1 r1], h2 as [t2 v2 s2 r2].
  unfold view, GetVersion, GetStatus, IsHeartbeat, IsGzip, IsOneWay, IsProxy, isRequest, GetSerialize.
  cbn [hMsgType hVerStatus hSerialize hReqID]. intros H Ht Hs. injection H as H1 H2 H3 H4 H5 H6 H7 H8 H9.
  assert (RT : forall t, n2b (N.land (b2n t) 0xe0 + (if bit_is t 16 16 then 16 else 0) + (if bit_is t 8 8 then 8 else 0)
     + (if bit_is t 4 4 then 4 else 0) + (if bit_is t 2 2 then 2 else 0) + (if bit_is t 1 0 then 0 else 1)) = t).
  { intro t. apply byte_eqb_spec. revert t. apply byte_sweep. vm_compute. reflexivity. }
  assert (RV : forall v, n2b (N.land (N.shiftr (b2n v) 3) 31 * 8 + N.land (b2n v) 7) = v).
  { intro t. apply byte_eqb_spec. revert t. apply byte_sweep. vm_compute. reflexivity. }
  f_equal.
  - rewrite <- (RT t1), <- (RT t2), Ht, H1, H2, H3, H4, H5. reflexivity.
  - rewrite <- (RV v1), <- (RV v2), H7. change (N.land (N.shiftr (b2n v1) 3) 31 = N.land (N.shiftr (b2n v2) 3) 31) in H6. rewrite H6. reflexivity.
  - rewrite <- (RV s1), <- (RV s2), Hs. change (N.land (N.shiftr (b2n s1) 3) 31 = N.land (N.shiftr (b2n s2) 3) 31) in H8. rewrite H8. reflexivity.
  - exact H9.
Qed.

Lemma buildHeader_view isReq proxy ser rid st :
  (0 <= ser <= 31)%Z -> (0 <= st <= 7)%Z ->
  view (BuildHeader isReq proxy ser rid st) =
  mkView false false false proxy isReq 1 (Z.to_N st) (Z.to_N ser) rid.
Proof.
  intros Hs Ht.
  assert (S : forallb (fun s => N.eqb (hi5 (n2b (N.shiftl (u8 s) 3))) (Z.to_N s)) (zrange 32) = true)
    by (vm_compute; reflexivity).
  rewrite forallb_forall in S. specialize (S ser (zrange_complete 32 ser ltac:(lia))). apply N.eqb_eq in S.
  assert (T : forallb (fun s => let b := n2b (N.lor 8 (N.land (u8 s) 7)) in
       N.eqb (hi5 b) 1 && N.eqb (lo3 b) (Z.to_N s)) (zrange 8) = true) by (vm_compute; reflexivity).
  rewrite forallb_forall in T. specialize (T st (zrange_complete 8 st ltac:(lia))).
  apply andb_true_iff in T as [T1 T2]. apply N.eqb_eq in T1, T2.
  unfold view, BuildHeader, GetVersion, GetStatus, GetSerialize. cbn [hMsgType hVerStatus hSerialize hReqID].
  unfold hi5, lo3 in *. rewrite S, T1, T2.
  destruct isReq, proxy; reflexivity.
Qed.
