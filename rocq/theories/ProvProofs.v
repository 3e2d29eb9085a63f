(* ProvProofs.v: proofs about calls through the whole stack. *)
From Verif Require Import Base BytesModel BytesSpec BytesProofs Strconv GoStrings GoStrings2 ProtoModel ProtoSpec ProtoProofs
  ConvModel ConvSpec ConvProofs SimpleModel SimpleSpec SimpleProofs UrlModel V1Model V1Spec ServerModel ServerSpec ServerProofs ProvModel ProvSpec.
Ltac Zify.zify_post_hook ::= idtac.

(* ------------------------------------------------------------ the request *)

Definition qWithID {A} (q : mrequest A) (rid : N) : mrequest A :=
  mkReq _ rid (qService q) (qMethod q) (qDesc q) (qArgs q) (qAttach q) (qCtx q).

Lemma convReq_id {A} X asBytes (ser : option (serialization A)) q m rid : cProxy (qCtx q) = false ->
  convertToReqMessage X asBytes ser q = inl m -> convertToReqMessage X asBytes ser (qWithID q rid) = inl (withID m rid).
Proof.
  intros Ho. unfold convertToReqMessage. cbv zeta. cbn [qWithID qCtx qService qMethod qDesc qArgs qAttach qID]. rewrite Ho.
  set (hd := if cSerialized (qCtx q) then Some (cSerNum (qCtx q)) else _). destruct hd as [num|]; [|discriminate].
  destruct (match qArgs q with [] => _ | _ => _ end) as [b|e]; [|discriminate]. intro H. injection H as <-. f_equal.
  unfold encodeMessageGzip. cbn [mHeader mMeta mBody].
  change (IsGzip (BuildHeader true false num rid 0)) with (IsGzip (BuildHeader true false num (qID q) 0)).
  destruct (_ && _ && _); [destruct (x_gz X b)|]; cbn [mHeader mMeta mBody withID]; destruct (cOneway (qCtx q)); reflexivity.
Qed.

Lemma host_fields h : IsProxy h = false -> IsGzip (SetProxy false h) = IsGzip h /\ IsProxy (SetProxy false h) = false /\ hReqID (SetProxy false h) = hReqID h.
Proof.
  intro H. pose proof (view_setproxy false h) as W. pose proof (f_equal v_gz W) as W1. pose proof (f_equal v_px W) as W2.
  pose proof (f_equal v_rid W) as W3. cbn [v_gz v_px v_rid view spec_hop] in W1, W2, W3. auto.
Qed.

Lemma convertToRequest_host X m ip r : IsProxy (mHeader m) = false -> convertToRequest X true m = inl r ->
  exists r', convertToRequest X true (mkMsg (SetProxy false (mHeader m)) (aset bs_eqb (mMeta m) (s2b "host") ip) (mBody m)) = inl r' /\
    rqID r' = rqID r /\ rqService r' = rqService r /\ rqMethod r' = rqMethod r /\ rqBody r' = rqBody r /\
    (forall k, k <> s2b "host" -> aget bs_eqb (rqAttach r') k = aget bs_eqb (rqAttach r) k).
Proof.
  intros Hp. destruct (host_fields _ Hp) as (F1 & F2 & F3). unfold convertToRequest. cbn [mHeader mMeta mBody].
  rewrite F1, F2, F3, Hp, (aget_aset bs_eqb bs_eqb_spec). change (bs_eqb MRequestID (s2b "host")) with false. cbv iota.
  assert (L : forall k, bs_eqb k (s2b "host") = false -> loadOrEmpty (aset bs_eqb (mMeta m) (s2b "host") ip) k = loadOrEmpty (mMeta m) k).
  { intros k Hk. unfold loadOrEmpty. rewrite (aget_aset bs_eqb bs_eqb_spec), Hk. reflexivity. }
  assert (G : forall k, k <> s2b "host" -> aget bs_eqb (aset bs_eqb (mMeta m) (s2b "host") ip) k = aget bs_eqb (mMeta m) k).
  { intros k Hk. rewrite (aget_aset bs_eqb bs_eqb_spec). rewrite (proj2 (bs_eqb_neq k (s2b "host"))); [reflexivity|congruence]. }
  destruct (aget bs_eqb (mMeta m) MRequestID) as [s|];
    (destruct (0 <? length (mBody m)); [rewrite andb_false_r|]; intro H; injection H as <-; eexists; (split; [reflexivity|]);
     cbn [rqID rqService rqMethod rqBody rqAttach]; rewrite !L by reflexivity; auto 6).
Qed.

Lemma serializeMulti_args args : args_ok args -> serializeMulti args = SOk (concat (map wire args)).
Proof.
  intros (Hg & Hs & Hl). unfold serializeMulti. destruct args as [|v vs]; [reflexivity|].
  destruct (serializeAll_ok (v :: vs) (newBuf DefaultBufferSize BigE) (newBuf_ok _ _) eq_refl Hg Hs Hl) as (b' & E & A & _).
  rewrite E, A. reflexivity.
Qed.

Lemma wire_args_nonempty v vs : concat (map wire (v :: vs)) <> [].
Proof. intro H. pose proof (wire_pos v). apply (f_equal (@length _)) in H. cbn [map concat] in H. rewrite app_length in H. cbn in H. lia. Qed.

Lemma request_side (c : gclient) (g : gserver) ip sid q : ordinary q -> args_ok (qArgs q) -> plain_server c g -> (sid < 2 ^ 64)%N ->
  exists m, sendRequest c sid q = inl m /\
    (sizes_ok (s_max (g_cfg g)) m -> readOne (s_max (g_cfg g)) (concat (getEncodedBytes None m)) = RGot (J2 (received m)) []) /\
    IsHeartbeat (mHeader m) = false /\ hReqID (mHeader m) = sid /\ GetSerialize (mHeader m) = 6%N /\
    exists r, convertToRequest (c_ext c) true
        (mkMsg (SetProxy false (mHeader (received m))) (aset bs_eqb (mMeta (received m)) (s2b "host") ip) (mBody (received m))) = inl r /\
      rqID r = sid /\ rqService r = qService q /\ rqMethod r = qMethod q /\
      rqBody r = match qArgs q with [] => None | v0 :: l0 => Some (concat (map wire (v0 :: l0))) end /\
      ~ wants_framework (mkDreq (rqID r) (rqService r) (rqAttach r)).
Proof.
  intros (O1 & O2 & O3 & O4 & O5 & O6) Ha (_ & _ & _ & _ & Hg) Hsid. unfold sendRequest. cbv zeta.
  set (x := mkCtx _ _ _ _ _ _). set (q' := mkReq _ _ _ _ _ _ _ x). set (asB := fun v : value => _).
  assert (Hm : exists m0, convertToReqMessage (c_ext c) asB (Some simpleSer) q' = inl m0).
  { unfold convertToReqMessage. cbv zeta. subst q' x. cbn [qCtx cProxy cSerialized cSerNum qArgs]. rewrite O1.
    cbn [simpleSer s_num s_multi]. pose proof (serializeMulti_args _ Ha) as E.
    destruct (qArgs q); [eexists; reflexivity|]. rewrite E. eexists; reflexivity. }
  destruct Hm as [m0 Hm]. rewrite Hm.
  pose proof (convReq_id _ _ _ q' m0 sid eq_refl Hm) as Hc. set (q2 := qWithID q' sid) in Hc. set (m := withID m0 sid) in *.
  exists m. split; [reflexivity|].
  assert (Hnum : forall n, num_sent (Some simpleSer) (qCtx q2) n -> n = 6%Z).
  { intros n [(B & _)|(_ & s & B & ->)]; [cbn in B; rewrite O1 in B; discriminate B|injection B as <-; reflexivity]. }
  destruct (convertToReqMessage_inv (c_ext c) asB (Some simpleSer) q2 m Hg ltac:(discriminate) Hc) as (b & n & HA & HN & HM & HI & HB).
  pose proof (Hnum n HN) as ->. assert (Hr : (0 <= 6 <= 31)%Z) by lia.
  assert (HV : exists gz, view (mHeader m) = mkView false gz (cOneway (qCtx q2)) false true 1 0 6 sid).
  { destruct HB as [(_ & V)|(_ & _ & _ & V)]; rewrite (V Hr); [exists false|exists true]; reflexivity. }
  destruct HV as [gz HV]. pose proof (f_equal v_hb HV) as V1. pose proof (f_equal v_ver HV) as V2. pose proof (f_equal v_ser HV) as V3.
  pose proof (f_equal v_px HV) as V4. cbn [v_hb v_ver v_ser v_px view] in V1, V2, V3, V4.
  split; [|split; [exact V1|]; split; [exact HI|]; split; [exact V3|]].
  - intro Hsz. assert (Hs : sendable (s_max (g_cfg g)) m).
    { destruct Hsz as (Z1 & Z2 & Z3). split; [rewrite HI; exact Hsid|]. split; [exact V2|]. split; [|repeat split; assumption].
      change (NoDup (akeys (mMeta m))). rewrite HM. apply req_meta_nodup. exact O2. }
    rewrite (encoded_frame Hsz). unfold readOne. pose proof (frame_length m) as L. destruct (Nat.ltb_spec (length (frame m)) 4); [lia|].
    pose proof (version_of_item (g_cfg g) (S2 m) [] Hs) as Hv. cbn [item_bytes] in Hv. rewrite app_nil_r in Hv. rewrite Hv.
    change (N.eqb 1 0) with false. change (N.eqb 1 1) with true. cbv iota.
    pose proof (decode_frame (s_max (g_cfg g)) m [] Hs) as D. rewrite app_nil_r in D. rewrite D. reflexivity.
  - destruct (convert_request_roundtrip (c_ext c) asB (Some simpleSer) q2 m Hg ltac:(discriminate) O2 O3 O4) as
      (r & b2 & R1 & R2 & R3 & _ & R5 & R6 & _ & R8 & _ & _ & _ & R12).
    + cbn. rewrite O5. intros [].
    + intros _. apply O6. right. left. reflexivity.
    + intros k Hk. rewrite (Hnum k Hk). exact Hr.
    + exact Hc.
    + destruct (convertToRequest_host (c_ext c) (received m) ip r V4 R1) as (r' & T1 & T2 & T3 & T4 & T5 & T6).
      exists r'. split; [exact T1|]. rewrite T2, T3, T4, T5. rewrite R3 by (apply O6; left; reflexivity).
      split; [reflexivity|]. split; [exact R5|]. split; [exact R6|]. split.
      * rewrite R8. destruct R2 as [(A1 & A2)|[(A1 & _ & s & A2 & A3)|(A1 & _)]].
        -- cbn in A1. rewrite A1, A2. reflexivity.
        -- injection A2 as <-. cbn [simpleSer s_multi] in A3. change (qArgs q2) with (qArgs q) in *. rewrite (serializeMulti_args _ Ha) in A3.
           injection A3 as <-. destruct (qArgs q) as [|v vs]; [contradiction A1; reflexivity|].
           pose proof (wire_args_nonempty v vs) as Hne. destruct (concat (map wire (v :: vs))); [contradiction|reflexivity].
        -- cbn in A1. rewrite O1 in A1. discriminate A1.
      * intros (v & W1 & W2). cbn [d_attach] in W1. rewrite T6 in W1 by (vm_compute; discriminate).
        destruct (R12 (s2b "M_fws")) as [K|K].
        -- change (s2b "M_fws") with (s2b "M_fws"). rewrite W1. discriminate.
        -- change (qAttach q2) with (qAttach q) in K. specialize (O6 (s2b "M_fws") ltac:(right; right; left; reflexivity)).
           apply (aget_None bs_eqb bs_eqb_spec) in O6. contradiction.
        -- vm_compute in K. intuition discriminate.
Qed.

(* arguments the serialization refuses are refused on the client's side *)
Lemma serializeAll_refuses vs : forall b, buf_ok b -> border b = BigE -> Forall good vs -> forallb supported vs = false ->
  (N.of_nat (length (concat (map wire vs))) < 2 ^ 32)%N -> exists b', serializeAll vs b = ENotSupport b'.
Proof.
  induction vs as [|v vs IH]; intros b Hok Ho Hg Hs Hl; cbn [serializeAll map concat forallb] in *; [discriminate Hs|].
  inversion Hg as [|? ? G1 G2]; subst. rewrite app_length in Hl.
  assert (Hf : fits v) by (unfold fits; lia).
  pose proof (serializeBuf_ok v b Hok Ho G1 Hf) as E.
  destruct (supported v); cbn [enc_outcome] in E.
  - destruct E as (b' & E & A). rewrite E. cbn [ebind]. apply IH; auto; [apply (app_to_ok _ _ _ A)|rewrite (app_to_order _ _ _ A); exact Ho|lia].
  - destruct E as (b' & E). rewrite E. cbn [ebind]. eauto.
Qed.

(* ------------------------------------------------------------ the answer *)

Lemma readAnswer_ext c rid m : convertToResponse (c_ext c) true (withID (mkMsg (SetProxy false (mHeader m)) (mMeta m) (mBody m)) rid) =
  match convertToResponse (c_ext c) true m with
  | inl s => inl (mkRRes rid (rpBody s) (rpExc s) (rpTime s) (rpAttach s) false)
  | inr e => inr e
  end.
Proof.
  unfold convertToResponse. cbn [withID mHeader mMeta mBody].
  pose proof (view_setproxy false (mHeader m)) as W. pose proof (f_equal v_gz W) as W1. pose proof (f_equal v_st W) as W2. pose proof (f_equal v_px W) as W3.
  cbn [v_gz v_st v_px view spec_hop] in W1, W2, W3.
  set (h := mkHdr _ _ _ rid).
  change (GetStatus h) with (GetStatus (SetProxy false (mHeader m))). change (IsGzip h) with (IsGzip (SetProxy false (mHeader m))).
  change (IsProxy h) with (IsProxy (SetProxy false (mHeader m))). rewrite W1, W2, W3. rewrite !andb_false_r.
  destruct (N.eqb (GetStatus (mHeader m)) 0 && (0 <? length (mBody m)));
  (destruct (N.eqb (GetStatus (mHeader m)) 1); [|reflexivity]; destruct (bs_empty _); [reflexivity|]; destruct (x_ofJSON _ _); reflexivity).
Qed.

Lemma exc500_as_response {A} (g : scfg A) asB (ser : serialization A) rid e : s_num ser = 6%Z -> eCode e = 500%Z -> eType e = 1%Z ->
  convertToResMessage (s_ext g) asB (Some ser) (mkRes A rid None (Some e) [] ctx0) = inl (withID (exc500 g rid (eMsg e)) rid).
Proof. intros H1 H2 H3. destruct e as [ec em et]. cbn in H2, H3. subst. unfold convertToResMessage. cbn [pCtx ctx0 cProxy cOriginal cSerialized cSerNum pExc orb]. rewrite H1. reflexivity. Qed.

(* reading what was written for a response *)
Lemma read_response c rid reply (p : mresponse value) ser r asB :
  gzip_lossless (c_ext c) -> (forall e, pExc p = Some e -> json_lossless (c_ext c) e) -> (cProxy (pCtx p) = true -> cOriginal (pCtx p) = None) ->
  NoDup (akeys (pAttach p)) -> (pID p < 2 ^ 64)%N -> (0 <= s_num ser <= 31)%Z -> (0 <= cSerNum (pCtx p) <= 31)%Z -> sizes_ok (c_max c) r ->
  convertToResMessage (c_ext c) asB (Some ser) p = inl r ->
  exists s, readAnswer c rid reply (concat (getEncodedBytes None r)) =
      match rpExc s with
      | Some e => Error (eMsg e)
      | None => match rpBody s with
                | None => Value VNull None
                | Some b => match fst (deserialize b reply) with
                            | DOk v => Value v (assigned reply v)
                            | DErr e => Error (c_etext c e)
                            | DPanic | DFuel => Lost
                            end
                end
      end /\ rpExc s = pExc p /\
      (pExc p = None -> match pValue p with
                      | None => rpBody s = None
                      | Some v => exists b, res_bytes asB (Some ser) (pCtx p) v b /\ rpBody s = match b with [] => None | _ => Some b end
                      end) /\
      (exists m', decodeMsg (c_max c) (concat (getEncodedBytes None r)) = DecOk m' [] /\ convertToResponse (c_ext c) true m' = inl s).
Proof.
  intros Hg Hj Hp Hn Hid Hs1 Hs2 Hsz H.
  destruct (response_over_wire (c_ext c) asB (Some ser) p r (c_max c) None [] Hg Hj) as (m' & s & D & S1 & S2 & S3 & _ & _ & S4 & _); try assumption.
  - intros s E. injection E as <-. exact Hs1.
  - exact I.
  - exists s. rewrite app_nil_r in D. pose proof (encoded_frame Hsz) as EF. destruct Hsz as (Z1 & Z2 & Z3). destruct (encode_frame None r I ltac:(lia) ltac:(lia)) as [E1 _].
    rewrite E1 in D. split; [|split; [exact S3|split; [exact S4|exists m'; rewrite EF; split; [exact D|exact S1]]]]. unfold readAnswer. rewrite EF.
    rewrite D. cbv zeta. rewrite readAnswer_ext, S1. cbn [rpExc rpBody]. reflexivity.
Qed.

Lemma exception_no_body X hs m s : convertToResponse X hs m = inl s -> rpExc s <> None -> rpBody s = None.
Proof.
  unfold convertToResponse. cbv zeta. destruct (N.eqb_spec (GetStatus (mHeader m)) 1) as [->|_].
  - cbn [N.eqb andb]. destruct (bs_empty _); [intro H; injection H as <-; reflexivity|]. destruct (x_ofJSON X _); [|discriminate]. intro H. injection H as <-. reflexivity.
  - destruct (N.eqb _ 0 && _); [destruct (_ && _); [discriminate|]|]; intro H; injection H as <-; cbn; intros []; reflexivity.
Qed.

Lemma answer_side (c : gclient) (g : gserver) ip pt h m q p reply rid :
  plain_server c g -> IsHeartbeat (mHeader m) = false -> GetSerialize (mHeader m) = 6%N -> (hReqID (mHeader m) < 2 ^ 64)%N ->
  convertToRequest (c_ext c) true (mkMsg (SetProxy false (mHeader m)) (aset bs_eqb (mMeta m) (s2b "host") ip) (mBody m)) = inl q ->
  h q = HRes p -> pAttach p = [] -> cSerialized (pCtx p) = false -> cSerNum (pCtx p) = 0%Z ->
  (forall r, processV2 (g_cfg g) ip pt h m = Write r -> sizes_ok (c_max c) r) ->
  (forall e, pExc p = Some e -> json_lossless (c_ext c) e /\ pValue p = None) ->
  (forall v, pValue p = Some v -> v <> VNull /\ good v /\ fits v /\
     (supportedIn v = false -> json_lossless (c_ext c) (mkExc 500 (s2b "convert to response fail. err:" ++ s_errText (g_cfg g) CErrSerialize) 1))) ->
  exists r, processV2 (g_cfg g) ip pt h m = Write r /\
    readAnswer c rid reply (concat (getEncodedBytes None r)) =
      match pExc p with
      | Some e => Error (eMsg e)
      | None => match pValue p with
                | None => Value VNull None
                | Some v => seen reply (back reply (s_errText (g_cfg g) CErrSerialize) (Returns [v]))
                end
      end /\
    exists m' s, decodeMsg (c_max c) (concat (getEncodedBytes None r)) = DecOk m' [] /\ convertToResponse (c_ext c) true m' = inl s /\ rpBody s <> Some [] /\
      rpExc s = match pExc p with
                | Some e => Some e
                | None => match pValue p with
                          | None => None
                          | Some v => match back reply (s_errText (g_cfg g) CErrSerialize) (Returns [v]) with Fails e => Some e | Gives _ => None end
                          end
                end.
Proof.
  intros (Hpx & Hser & Hn & Hext & Hg) Hb Hs6 Hid Hq Hh Ha Hc1 Hc2 Hsz Hex Hval.
  assert (P : processV2 (g_cfg g) ip pt h m =
    match convertToResMessage (c_ext c) (s_asBytes (g_cfg g)) (Some simpleSer) (fillRes false pt p) with
    | inl r => Write (withID r (hReqID (mHeader m)))
    | inr e => Write (withID (exc500 (g_cfg g) (hReqID (mHeader m)) (s2b "convert to response fail. err:" ++ s_errText (g_cfg g) e)) (hReqID (mHeader m)))
    end).
  { unfold processV2. cbv zeta. cbn [mHeader mMeta mBody]. rewrite Hpx, Hext.
    destruct (setproxy_fields false (mHeader m)) as (F1 & F2 & F3). rewrite F1, F2, F3, Hb, Hs6, Hser.
    change HostKey with (s2b "host"). rewrite Hq, Hh.
    destruct (convertToResMessage _ _ _ _); reflexivity. }
  set (p1 := pWithID (fillRes false pt p) (hReqID (mHeader m))).
  assert (Hp1 : NoDup (akeys (pAttach p1))).
  { cbn. destruct (bs_empty _); [|rewrite Ha; constructor]. apply NoDup_aset; [exact bs_eqb_spec|rewrite Ha; constructor]. }
  destruct (convertToResMessage _ _ _ _) as [r|e] eqn:Ec.
  - pose proof (convRes_id (c_ext c) (s_asBytes (g_cfg g)) (Some simpleSer) (fillRes false pt p) (hReqID (mHeader m)) (or_intror eq_refl) Ec) as Ec'. fold p1 in Ec'.
    exists (withID r (hReqID (mHeader m))). split; [exact P|]. specialize (Hsz _ P).
    destruct (read_response c rid reply p1 simpleSer (withID r (hReqID (mHeader m))) (s_asBytes (g_cfg g)) Hg) as (s & R1 & R2 & R3 & m' & D1 & D2); try assumption.
    + intros e E. apply (Hex e E).
    + discriminate.
    + cbn. lia.
    + cbn. rewrite Hc2. lia.
    + split; [|exists m', s; split; [exact D1|split; [exact D2|]]].
      2: { split.
           2: { rewrite R2. change (pExc p1) with (pExc p). destruct (pExc p) as [e|] eqn:Ee; [reflexivity|]. destruct (pValue p) as [v|] eqn:Ev; [|reflexivity].
                cbn [back]. destruct (supportedIn v) eqn:Es; [reflexivity|]. destruct (Hval v eq_refl) as (V0 & V1 & V2 & _).
                specialize (R3 Ee). change (pValue p1) with (pValue p) in R3. rewrite Ev in R3. destruct R3 as (b & [(B & _)|(_ & s' & B1 & B2)] & _); [cbn in B; rewrite Hc1 in B; discriminate B|]. injection B1 as <-.
                cbn [simpleSer s_one] in B2. rewrite (serialize_result v V1 V2) in B2.
                assert (Esup : supported v = supportedIn v) by (destruct v; try reflexivity; contradiction). rewrite Esup, Es in B2. discriminate B2. }
           destruct (rpExc s) eqn:Xs; [rewrite (exception_no_body _ _ _ _ D2); [discriminate|congruence]|]. specialize (R3 (eq_sym R2)).
           destruct (pValue p1) as [v|]; [destruct R3 as (b & _ & ->); destruct b; discriminate|rewrite R3; discriminate]. }
      rewrite R1, R2. change (pExc p1) with (pExc p) in *. change (pValue p1) with (pValue p) in *. change (cSerialized (pCtx p1)) with (cSerialized (pCtx p)) in *.
      destruct (pExc p) as [e|]; [reflexivity|]. specialize (R3 eq_refl). destruct (pValue p) as [v|] eqn:Ev; [|rewrite R3; reflexivity].
      destruct R3 as (b & B1 & ->). destruct (Hval v eq_refl) as (V0 & V1 & V2 & _).
      destruct B1 as [(B & _)|(_ & s' & B1 & B2)]; [cbn in B; rewrite Hc1 in B; discriminate B|]. injection B1 as <-.
      cbn [simpleSer s_one] in B2. rewrite (serialize_result v V1 V2) in B2.
      assert (Esup : supported v = supportedIn v) by (destruct v; try reflexivity; contradiction).
      destruct (supported v) eqn:Es; [|discriminate B2]. injection B2 as <-. cbn [back]. rewrite <- Esup. cbn [seen].
      destruct (wire v) as [|w0 w] eqn:Ew; [pose proof (wire_pos v) as Hw; rewrite Ew in Hw; cbn in Hw; lia|].
      destruct (roundtrip v reply [] V1 Es V2) as (_ & b' & D & _). rewrite app_nil_r, Ew in D. rewrite D. reflexivity.
  - assert (Hcase : pExc p = None /\ e = CErrSerialize /\ exists v, pValue p = Some v /\ supportedIn v = false).
    { unfold convertToResMessage in Ec. cbv zeta in Ec. cbn [fillRes pCtx pExc pValue cProxy cOriginal cSerialized cSerNum] in Ec. rewrite Hc1 in Ec.
      destruct (pExc p) as [x|] eqn:Ex.
      - rewrite (proj2 (Hex x eq_refl)) in Ec. cbn [orb simpleSer] in Ec. discriminate Ec.
      - split; [reflexivity|]. destruct (pValue p) as [v|]; [|discriminate Ec]. destruct (Hval v eq_refl) as (V0 & V1 & V2 & _).
        cbn [simpleSer s_one] in Ec. rewrite (serialize_result v V1 V2) in Ec.
        assert (Esup : supported v = supportedIn v) by (destruct v; try reflexivity; contradiction).
        destruct (supported v) eqn:Es; [discriminate Ec|]. injection Ec as <-. split; [reflexivity|]. exists v. auto. }
    destruct Hcase as (X1 & -> & v & X2 & X3). rewrite X1, X2. destruct (Hval v X2) as (V0 & V1 & V2 & V3). specialize (V3 X3).
    eexists. split; [exact P|]. specialize (Hsz _ P).
    set (msg := s2b "convert to response fail. err:" ++ s_errText (g_cfg g) CErrSerialize) in *.
    destruct (read_response c rid reply (mkRes value (hReqID (mHeader m)) None (Some (mkExc 500 msg 1)) [] ctx0) simpleSer
      (withID (exc500 (g_cfg g) (hReqID (mHeader m)) msg) (hReqID (mHeader m))) (s_asBytes (g_cfg g)) Hg) as (s & R1 & R2 & R3 & m' & D1 & D2); try assumption; try reflexivity.
    + intros e E. injection E as <-. exact V3.
    + constructor.
    + cbn. lia.
    + cbn. lia.
    + rewrite <- Hext. apply (exc500_as_response (g_cfg g) (s_asBytes (g_cfg g)) simpleSer (hReqID (mHeader m)) (mkExc 500 msg 1)); reflexivity.
    + rewrite R1, R2. cbn [pExc eMsg back]. rewrite X3. split; [reflexivity|]. exists m', s. split; [exact D1|]. split; [exact D2|].
      split; [rewrite (exception_no_body _ _ _ _ D2); [discriminate|rewrite R2; discriminate]|rewrite R2; reflexivity].
Qed.

(* ------------------------------------------------------------ the provider *)

Lemma ptype_eqb_spec a b : ptype_eqb a b = true <-> a = b.
Proof. destruct a, b; cbn; split; intro H; try reflexivity; try discriminate H. Qed.

Lemma has_typeb_spec p v : has_typeb p v = true <-> has_type p v.
Proof.
  unfold has_typeb, has_type. destruct (typeOf v) as [t|].
  - rewrite orb_true_iff, !ptype_eqb_spec. split; [intro H; exists t; auto|intros (t' & E & H); injection E as <-; exact H].
  - split; [discriminate|intros (t & E & _); discriminate E].
Qed.

Lemma assignable_has p v : assignable p (AVal v) = has_typeb p v.
Proof. unfold assignable, has_typeb. destruct (typeOf v) as [t|]; [|reflexivity]. destruct p, t; reflexivity. Qed.

Lemma allAssignable_zip ps : forall xs, length xs = length ps ->
  allAssignable ps (map AVal xs) = forallb (fun b => b) (zipWith has_typeb ps xs).
Proof.
  induction ps as [|p ps IH]; intros [|x xs] H; cbn [length] in H; try lia; [reflexivity|].
  cbn [map allAssignable zipWith forallb]. rewrite assignable_has, IH by lia. reflexivity.
Qed.

Lemma arrives_for p v : asDecodedFor (targetOf p) v = arrives p v.
Proof. destruct p, v; reflexivity. Qed.
Lemma zipDecoded_arrives ps : forall vs, zipDecoded (map targetOf ps) vs = zipWith arrives ps vs.
Proof. induction ps as [|p ps IH]; intros [|v vs]; [reflexivity..|]. cbn [map zipDecoded zipWith]. rewrite IH, arrives_for. reflexivity. Qed.
Lemma zipWith_length {A B C} (f : A -> B -> C) l : forall m, length (zipWith f l m) = Nat.min (length l) (length m).
Proof. induction l as [|a l IH]; intros [|b m]; cbn; auto. Qed.
Lemma zipWith_firstn {A B C} (f : A -> B -> C) l : forall m, zipWith f l (firstn (length l) m) = zipWith f l m.
Proof. induction l as [|a l IH]; intros [|b m]; cbn; auto. rewrite IH. reflexivity. Qed.

Lemma forallb_firstn {A} (f : A -> bool) n : forall l, forallb f l = true -> forallb f (firstn n l) = true.
Proof. induction n as [|n IH]; intros [|a l] H; cbn in *; auto. apply andb_true_iff in H as [H1 H2]. rewrite H1. apply IH, H2. Qed.
Lemma Forall_firstn' {A} (P : A -> Prop) n : forall l, Forall P l -> Forall P (firstn n l).
Proof. induction n as [|n IH]; intros [|a l] H; cbn; try constructor; inversion H; subst; auto. Qed.

Lemma deser_enough args ts : args_ok args -> length ts <= length args ->
  fst (deserializeMulti (concat (map wire args)) (Some ts)) = DOk (zipDecoded ts (firstn (length ts) args)).
Proof.
  intros (Hg & Hs & Hl) Hle. unfold deserializeMulti. cbv zeta.
  set (p := concat (map wire args)) in *.
  assert (E : p = concat (map wire (firstn (length ts) args)) ++ concat (map wire (skipn (length ts) args))).
  { unfold p. rewrite <- concat_app, <- map_app, firstn_skipn. reflexivity. }
  change (createBuf p BigE) with (atPos [] p BigE). pose proof (f_equal (@length _) E) as EL. rewrite app_length in EL.
  rewrite E at 2. rewrite deserializeEach_app; [reflexivity| | | | |].
  - rewrite firstn_length. lia.
  - apply Forall_firstn', Hg.
  - apply forallb_firstn, Hs.
  - lia.
  - lia.
Qed.

Lemma deserializeEach_short vs : forall fuel ts acc pre,
  length vs < length ts -> Forall good vs -> forallb supported vs = true ->
  (N.of_nat (length (concat (map wire vs))) < 2 ^ 32)%N -> length (concat (map wire vs)) < fuel ->
  fst (deserializeEach fuel ts acc (atPos pre (concat (map wire vs)) BigE)) = DErr (DBuf ErrEOF).
Proof.
  induction vs as [|v vs IH]; intros fuel ts acc pre Hlen Hgo Hs Hl Hf;
    (destruct ts as [|t ts]; cbn [length] in Hlen; try lia); cbn [deserializeEach map concat forallb] in *.
  - destruct fuel as [|f]; [cbn in Hf; lia|]. cbn [deSerializeBuf].
    assert (R : readByte (atPos pre [] BigE) = (RErr ErrEOF, atPos pre [] BigE)).
    { unfold readByte, atPos. cbn [brpos bwpos bbuf]. rewrite app_nil_r. rewrite (proj2 (nth_error_None pre (length pre))) by lia. reflexivity. }
    rewrite R. reflexivity.
  - apply andb_true_iff in Hs as [S1 S2]. inversion Hgo as [|? ? G1 G2]; subst. rewrite app_length in Hl, Hf.
    rewrite (good_supp_dec v); auto; [|unfold fits; lia|lia].
    cbn [dbind]. apply IH; auto; lia.
Qed.

Lemma deser_short args ts : args_ok args -> length args < length ts ->
  fst (deserializeMulti (concat (map wire args)) (Some ts)) = DErr (DBuf ErrEOF).
Proof.
  intros (Hg & Hs & Hl) Hlt. unfold deserializeMulti. cbv zeta. change (createBuf ?p BigE) with (atPos [] p BigE).
  apply deserializeEach_short; auto.
Qed.


(* the outcome of the provider in terms of the specification *)
Lemma provider_side uni etext s (q : rrequest) args reply eof un : args_ok args -> results_ok s args ->
  rqBody q = match args with [] => None | v0 :: l0 => Some (concat (map wire (v0 :: l0))) end ->
  etext (DBuf ErrEOF) = eof ->
  let r := spec_method s (firstUpper uni (rqMethod q)) (rqMethod q) args reply eof un in
  (defaultCall uni etext s q = HPanic /\ r = panicked) \/
  (exists e, defaultCall uni etext s q = HRes (excResponse (rqID q) e) /\ r = Fails e) \/
  (defaultCall uni etext s q = HRes (mkRes _ (rqID q) None None [] ctx0) /\ r = Gives VNull) \/
  (exists v, defaultCall uni etext s q = HRes (mkRes _ (rqID q) (Some v) None [] ctx0) /\ v <> VNull /\ good v /\ fits v /\
     r = back reply un (Returns [v])).
Proof.
  intros Ha Hr Hbody He. cbv zeta. unfold defaultCall, spec_method.
  destruct (firstUpper uni (rqMethod q)) as [name|]; [|auto].
  destruct (aget bs_eqb (v_methods s) name) as [m|] eqn:Em; [|right; left; eexists; split; reflexivity].
  cbv zeta. rewrite Hbody.
  assert (Run : forall xs, xs = zipWith arrives (g_params m) args -> length xs = length (g_params m) ->
    let d := match reflectCall m (map AVal xs) with Panics => HPanic | Returns vs => HRes (mkRes value (rqID q) (firstResult vs) None [] ctx0) end in
    let r := if forallb (fun b => b) (zipWith has_typeb (g_params m) xs) then back reply un (g_run m xs) else panicked in
    (d = HPanic /\ r = panicked) \/ (exists e, d = HRes (excResponse (rqID q) e) /\ r = Fails e) \/
    (d = HRes (mkRes _ (rqID q) None None [] ctx0) /\ r = Gives VNull) \/
    (exists v, d = HRes (mkRes _ (rqID q) (Some v) None [] ctx0) /\ v <> VNull /\ good v /\ fits v /\ r = back reply un (Returns [v]))).
  { intros xs Exs Hxs. cbv zeta. unfold reflectCall. rewrite allAssignable_zip by exact Hxs.
    assert (Mp : map argValue (map AVal xs) = xs) by (rewrite map_map; cbn; apply map_id). rewrite Mp.
    destruct (forallb _ _); [|auto]. destruct (g_run m xs) as [vs|] eqn:Er; [|auto].
    destruct vs as [|v vs]; [right; right; left; auto|]. right. right. right.
    apply (aget_In bs_eqb bs_eqb_spec) in Em. rewrite Exs in Er. destruct (Hr name m v vs Em Er) as [G F].
    destruct v; try (eexists; split; [reflexivity|]; split; [discriminate|]; split; [exact G|]; split; [exact F|]; reflexivity). }
  destruct (g_params m) as [|p0 ps] eqn:Ep.
  - cbn [length Nat.ltb Nat.leb Nat.eqb andb zipWith]. destruct args as [|a args].
    + cbn [length Nat.ltb Nat.leb]. apply (Run [] eq_refl eq_refl).
    + cbn [length Nat.ltb Nat.leb]. left. split; [|reflexivity]. unfold reflectCall. rewrite Ep. reflexivity.
  - rewrite <- Ep in *. assert (Hpos : length (g_params m) > 0) by (rewrite Ep; cbn; lia).
    destruct (Nat.eqb_spec (length (g_params m)) 0) as [E0|_]; [lia|]. destruct (Nat.ltb_spec 0 (length (g_params m))) as [_|]; [|lia]. cbn [andb].
    destruct args as [|a args].
    + cbn [length Nat.eqb processDeserializable]. left. split; [|reflexivity]. unfold reflectCall. rewrite Ep. reflexivity.
    + cbn [length Nat.eqb]. change (S (length args)) with (length (a :: args)). cbn [processDeserializable].
      destruct (Nat.ltb_spec (length (a :: args)) (length (g_params m))) as [Hlt|Hge].
      * rewrite deser_short; [|exact Ha|rewrite map_length; exact Hlt]. right. left. eexists. split; [reflexivity|]. rewrite He. reflexivity.
      * rewrite deser_enough; [|exact Ha|rewrite map_length; exact Hge]. rewrite zipDecoded_arrives, map_length, zipWith_firstn.
        apply Run; [reflexivity|]. rewrite zipWith_length. lia.
Qed.

(* ------------------------------------------------------------ the whole call *)

Lemma handler_side g q p reply args :
  args_ok args -> results_ok (g_impl g (v_id p)) args -> rqBody q = match args with [] => None | v0 :: l0 => Some (concat (map wire (v0 :: l0))) end ->
  ~ wants_framework (mkDreq (rqID q) (rqService q) (rqAttach q)) -> aget bs_eqb (g_table g) (rqService q) = Some p ->
  let r := spec_method (g_impl g (v_id p)) (firstUpper (g_uni g) (rqMethod q)) (rqMethod q) args reply (g_etext g (DBuf ErrEOF))
             (s_errText (g_cfg g) CErrSerialize) in
  exists res, gHandler g q = HRes res /\ pAttach res = [] /\ cSerialized (pCtx res) = false /\ cSerNum (pCtx res) = 0%Z /\
    ((exists e, r = Fails e /\ pExc res = Some e /\ pValue res = None) \/
     (pExc res = None /\ pValue res = None /\ r = Gives VNull) \/
     (exists v, pExc res = None /\ pValue res = Some v /\ v <> VNull /\ good v /\ fits v /\
        r = back reply (s_errText (g_cfg g) CErrSerialize) (Returns [v]))).
Proof.
  intros Ha Hr Hb Hf Hp. cbv zeta. unfold gHandler.
  set (run := fun c : callee => _). set (d := mkDreq _ _ _) in *.
  destruct (@dispatch_found (mresponse value) [MetaServiceName] (g_table g) (d_service d) p d run Hf Hp) as [_ D].
  unfold handlerCall. rewrite D.
  destruct (provider_side (g_uni g) (g_etext g) (g_impl g (v_id p)) q args reply _ (s_errText (g_cfg g) CErrSerialize) Ha Hr Hb eq_refl)
    as [(E & R)|[(e & E & R)|[(E & R)|(v & E & V1 & V2 & V3 & R)]]]; cbv zeta in R; unfold run; rewrite E, R.
  - eexists. split; [reflexivity|]. repeat (split; [reflexivity|]). left. eexists. split; [reflexivity|]. split; reflexivity.
  - eexists. split; [reflexivity|]. repeat (split; [reflexivity|]). left. eexists. split; [reflexivity|]. split; reflexivity.
  - eexists. split; [reflexivity|]. repeat (split; [reflexivity|]). right. left. split; [reflexivity|]. split; reflexivity.
  - eexists. split; [reflexivity|]. repeat (split; [reflexivity|]). right. right. exists v. split; [reflexivity|]. split; [reflexivity|]. auto.
Qed.

Lemma every_call c g ip pt sid reply q p :
  plain_server c g -> ordinary q -> args_ok (qArgs q) -> (sid < 2 ^ 64)%N -> sizes_fit c g ip pt sid q ->
  aget bs_eqb (g_table g) (qService q) = Some p -> results_ok (g_impl g (v_id p)) (qArgs q) ->
  let r := spec_method (g_impl g (v_id p)) (firstUpper (g_uni g) (qMethod q)) (qMethod q) (qArgs q) reply (g_etext g (DBuf ErrEOF))
             (s_errText (g_cfg g) CErrSerialize) in
  (forall e, r = Fails e -> json_lossless (c_ext c) e) ->
  roundTrip c g ip pt sid reply q = seen reply r.
Proof.
  intros Hps Ho Ha Hsid Hfit Hp Hr. cbv zeta. intro Hj.
  destruct (request_side c g ip sid q Ho Ha Hps Hsid) as (m & S1 & S2 & S3 & S4 & S5 & rq & T1 & T2 & T3 & T4 & T5 & T6).
  destruct (Hfit m S1) as [F1 F2]. unfold roundTrip. rewrite S1, (S2 F1).
  rewrite <- T3 in Hp.
  destruct (handler_side g rq p reply (qArgs q) Ha Hr T5 T6 Hp) as (res & H1 & H2 & H3 & H4 & H5). cbv zeta in H5. rewrite T4 in H5.
  set (r := spec_method _ _ _ _ _ _ _) in *.
  destruct (answer_side c g ip pt (gHandler g) (received m) rq res reply (qID q) Hps S3 S5) as (w & W1 & W2 & _); try assumption.
  - cbn. rewrite S4. exact Hsid.
  - intros e E. destruct H5 as [(e' & R & E1 & E2)|[(E1 & _)|(v & E1 & _)]]; try congruence.
    rewrite E1 in E. injection E as <-. split; [apply Hj, R|exact E2].
  - intros v E. destruct H5 as [(e' & R & E1 & E2)|[(_ & E1 & _)|(v' & E1 & E2 & V1 & V2 & V3 & R)]]; try congruence.
    rewrite E2 in E. injection E as <-. repeat (split; [assumption|]). intro Hs. apply Hj. rewrite R. cbn [back]. rewrite Hs. reflexivity.
  - rewrite W1, W2. destruct H5 as [(e' & R & E1 & E2)|[(E0 & E1 & R)|(v' & E1 & E2 & V1 & V2 & V3 & R)]].
    + rewrite E1, R. reflexivity.
    + rewrite E0, E1, R. destruct reply; reflexivity.
    + rewrite E1, E2, R. reflexivity.
Qed.

Lemma not_served c g ip pt sid reply q :
  plain_server c g -> ordinary q -> args_ok (qArgs q) -> (sid < 2 ^ 64)%N -> sizes_fit c g ip pt sid q ->
  aget bs_eqb (g_table g) (qService q) = None ->
  json_lossless (c_ext c) (mkExc 404 (s2b "provider not exist serviceKey=" ++ qService q) 1) ->
  roundTrip c g ip pt sid reply q = Error (s2b "provider not exist serviceKey=" ++ qService q).
Proof.
  intros Hps Ho Ha Hsid Hfit Hp Hj.
  destruct (request_side c g ip sid q Ho Ha Hps Hsid) as (m & S1 & S2 & S3 & S4 & S5 & rq & T1 & T2 & T3 & T4 & T5 & T6).
  destruct (Hfit m S1) as [F1 F2]. unfold roundTrip. rewrite S1, (S2 F1).
  set (e := mkExc 404 _ 1) in Hj.
  assert (Hh : gHandler g rq = HRes (excResponse (rqID rq) e)).
  { unfold gHandler. set (run := fun c : callee => _). set (d := mkDreq _ _ _) in *. rewrite <- T3 in Hp.
    unfold handlerCall. rewrite (@dispatch_none (mresponse value) [MetaServiceName] (g_table g) (d_service d) d run T6 Hp). cbn [fst].
    unfold d, e. cbn [d_service d_id]. rewrite T3. reflexivity. }
  destruct (answer_side c g ip pt (gHandler g) (received m) rq (excResponse (rqID rq) e) reply (qID q) Hps S3 S5) as (w & W1 & W2 & _); try assumption; try reflexivity.
  - cbn. rewrite S4. exact Hsid.
  - intros e' E. injection E as <-. split; [exact Hj|reflexivity].
  - intros v E. discriminate E.
  - rewrite W1, W2. reflexivity.
Qed.

Lemma refused_args c g ip pt sid reply q :
  cSerialized (qCtx q) = false -> Forall good (qArgs q) -> (N.of_nat (length (concat (map wire (qArgs q)))) < 2 ^ 32)%N ->
  forallb supported (qArgs q) = false -> roundTrip c g ip pt sid reply q = Error (s2b "convert motan request fail!").
Proof.
  intros Hs Hg Hl Hn. unfold roundTrip, sendRequest. cbv zeta. unfold convertToReqMessage. cbv zeta. cbn [qCtx cProxy cSerialized cSerNum qArgs]. rewrite Hs.
  cbn [simpleSer s_num s_multi]. destruct (qArgs q) as [|v vs] eqn:Ea; [discriminate Hn|].
  destruct (serializeAll_refuses (v :: vs) (newBuf DefaultBufferSize BigE) (newBuf_ok _ _) eq_refl Hg Hn Hl) as (b' & E).
  unfold serializeMulti. rewrite E. reflexivity.
Qed.

(* a client's request is ordinary *)
Lemma built_ordinary u app meth args : one_line (uPath u) -> one_line meth -> ordinary (buildRequest u app meth args).
Proof.
  intros H1 H2. unfold ordinary, buildRequest. cbn [qCtx qAttach qService qMethod qDesc ctx0 cSerialized].
  split; [reflexivity|]. split; [vm_compute; repeat constructor; cbn; intuition discriminate|].
  split; [exact H1|]. split; [exact H2|]. split; [reflexivity|].
  intros k [<-|[<-|[<-|[]]]]; reflexivity.
Qed.

Lemma firstUpper_ascii uni c r : forallb (fun x => (b2n x <? 128)%N) (c :: r) = true ->
  firstUpper uni (c :: r) = Some (upperByte c :: r).
Proof. intro H. cbn [firstUpper]. rewrite H. reflexivity. Qed.
