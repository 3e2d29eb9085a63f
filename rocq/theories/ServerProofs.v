(* ServerProofs.v: proofs about the server. *)
From Verif Require Import Base BytesModel BytesSpec BytesProofs Strconv GoStrings GoStrings2 ProtoModel ProtoSpec ProtoProofs
  ConvModel ConvSpec ConvProofs V1Model V1Spec V1Proofs UrlModel UrlSpec UrlProofs RateProofs EpProofs EpProofs2 ServerModel ServerSpec.
Set Implicit Arguments.
Ltac Zify.zify_post_hook ::= idtac.

(* ------------------------------------------------------------ one motan2 message *)

Lemma withID_view m rid : view (mHeader (withID m rid)) =
  let v := view (mHeader m) in mkView (v_hb v) (v_gz v) (v_ow v) (v_px v) (v_rq v) (v_ver v) (v_st v) (v_ser v) rid.
Proof. reflexivity. Qed.

Definition plain_view (v : hview) : Prop := v_rq v = false /\ v_ver v = 1%N /\ v_hb v = false.

Lemma gzip_view X m g : view (mHeader (encodeMessageGzip X m g)) = view (mHeader m) \/
  view (mHeader (encodeMessageGzip X m g)) = spec_hop (view (mHeader m)) (OpGzip true).
Proof.
  unfold encodeMessageGzip. destruct (_ && _ && _); [|auto]. destruct (x_gz X (mBody m)); [|auto].
  right. apply view_setgzip.
Qed.
Lemma gzip_meta X m g : mMeta (encodeMessageGzip X m g) = mMeta m.
Proof. unfold encodeMessageGzip. destruct (_ && _ && _); [|auto]. destruct (x_gz X (mBody m)); reflexivity. Qed.

Lemma convRes_shape {A} X asBytes (ser : option (serialization A)) p m :
  (forall s, ser = Some s -> (0 <= s_num s <= 31)%Z) -> response_ok p ->
  convertToResMessage X asBytes ser p = inl m ->
  isRequest (mHeader m) = false /\ GetVersion (mHeader m) = 1%N /\ NoDup (akeys (mMeta m)).
Proof.
  intros Hs (Hn & Hc & Ho). unfold convertToResMessage. cbv zeta.
  destruct (if cProxy (pCtx p) then cOriginal (pCtx p) else None) as [o|] eqn:E.
  - assert (Eo : cOriginal (pCtx p) = Some o) by (destruct (cProxy (pCtx p)); [exact E|discriminate E]).
    destruct (Ho o Eo) as (V & R & N0). intro H. injection H as <-. cbn [mHeader mMeta].
    pose proof (view_setproxy true (mHeader o)) as W. pose proof (f_equal v_rq W) as W5. pose proof (f_equal v_ver W) as W6.
    cbn [v_rq v_ver view spec_hop] in W5, W6. rewrite W5, W6. auto.
  - set (hd := if (_ : bool) then Some (cSerNum (pCtx p)) else _). destruct hd as [num|] eqn:Eh; [|discriminate].
    assert (Hnum : (0 <= num <= 31)%Z).
    { unfold hd in Eh. destruct (match pExc p with Some _ => _ | None => _ end); [injection Eh as <-; exact Hc|].
      destruct ser as [s|]; [injection Eh as <-; apply Hs; reflexivity|discriminate Eh]. }
    destruct (match pValue p with Some _ => _ | None => _ end) as [b|e]; [|discriminate]. intro H. injection H as <-. cbn [mHeader mMeta].
    set (st := match pExc p with Some _ => 1%Z | None => 0%Z end).
    set (att := match pExc p with Some _ => _ | None => pAttach p end).
    set (h := BuildHeader false false num (pID p) st).
    assert (Hv : view h = mkView false false false false false 1 (Z.to_N st) (Z.to_N num) (pID p)).
    { apply buildHeader_view; [exact Hnum|]. unfold st. destruct (pExc p); lia. }
    assert (Hm1 : exists gz, view (mHeader (encodeMessageGzip X (mkMsg h att b) (cGzipSize (pCtx p)))) =
                  mkView false gz false false false 1 (Z.to_N st) (Z.to_N num) (pID p)).
    { destruct (gzip_view X (mkMsg h att b) (cGzipSize (pCtx p))) as [G|G]; rewrite G; cbn [mHeader]; rewrite Hv; cbn [spec_hop]; eauto. }
    destruct Hm1 as [gz Hm1].
    assert (Hf : exists px, view (if cProxy (pCtx p) then SetProxy true (mHeader (encodeMessageGzip X (mkMsg h att b) (cGzipSize (pCtx p))))
              else mHeader (encodeMessageGzip X (mkMsg h att b) (cGzipSize (pCtx p)))) =
              mkView false gz false px false 1 (Z.to_N st) (Z.to_N num) (pID p)).
    { destruct (cProxy (pCtx p)); [rewrite view_setproxy, Hm1; cbn [spec_hop]; eauto|rewrite Hm1; eauto]. }
    destruct Hf as [px Hf]. pose proof (f_equal v_rq Hf) as F5. pose proof (f_equal v_ver Hf) as F6.
    cbn [v_rq v_ver view] in F5, F6.
    split; [exact F5|]. split; [exact F6|]. rewrite gzip_meta. cbn [mMeta]. unfold att.
    destruct (pExc p); [|exact Hn]. apply NoDup_aset; [exact bs_eqb_spec|exact Hn].
Qed.

Lemma exc500_shape {A} (c : scfg A) rid msg :
  let m := exc500 c rid msg in
  view (mHeader m) = mkView false false false false false 1 1 6 rid /\
  mMeta m = [(MException, x_toJSON (s_ext c) (mkExc 500 msg 1))] /\ mBody m = [].
Proof. repeat split. Qed.

Lemma fillRes_ok {A} px pt (p : mresponse A) : response_ok p -> response_ok (fillRes px pt p).
Proof.
  intros (Hn & Hc & Ho). split; [|split; [exact Hc|exact Ho]]. unfold fillRes. cbn [pAttach].
  destruct (bs_empty _); [|exact Hn]. apply NoDup_aset; [exact bs_eqb_spec|exact Hn].
Qed.

Definition pv2_in {A} (c : scfg A) (ip : bs) (m0 : message) : message :=
  mkMsg (SetProxy (s_proxy c) (mHeader m0)) (aset bs_eqb (mMeta m0) HostKey ip) (mBody m0).

Lemma setproxy_fields x h : hReqID (SetProxy x h) = hReqID h /\ IsHeartbeat (SetProxy x h) = IsHeartbeat h /\
  GetSerialize (SetProxy x h) = GetSerialize h.
Proof.
  pose proof (view_setproxy x h) as W. pose proof (f_equal v_rid W) as W1. pose proof (f_equal v_hb W) as W2. pose proof (f_equal v_ser W) as W3.
  cbn [v_rid v_hb v_ser view spec_hop] in W1, W2, W3. auto.
Qed.

Lemma processV2_id {A} (c : scfg A) ip pt h m r : numbers_ok c -> (forall q p, h q = HRes p -> response_ok p) ->
  processV2 c ip pt h m = Write r ->
  hReqID (mHeader r) = hReqID (mHeader m) /\ isRequest (mHeader r) = false /\ GetVersion (mHeader r) = 1%N /\ NoDup (akeys (mMeta r)).
Proof.
  intros Hn Hh. unfold processV2. cbv zeta. cbn [mHeader mMeta mBody].
  destruct (setproxy_fields (s_proxy c) (mHeader m)) as (F1 & F2 & F3). rewrite F1.
  set (ser := s_ser c _).
  assert (EX : forall msg, hReqID (mHeader (withID (exc500 c (hReqID (mHeader m)) msg) (hReqID (mHeader m)))) = hReqID (mHeader m) /\
     isRequest (mHeader (withID (exc500 c (hReqID (mHeader m)) msg) (hReqID (mHeader m)))) = false /\
     GetVersion (mHeader (withID (exc500 c (hReqID (mHeader m)) msg) (hReqID (mHeader m)))) = 1%N /\
     NoDup (akeys (mMeta (withID (exc500 c (hReqID (mHeader m)) msg) (hReqID (mHeader m)))))).
  { intro msg. split; [reflexivity|]. split; [reflexivity|]. split; [reflexivity|]. constructor; [intros []|constructor]. }
  destruct (IsHeartbeat _).
  { destruct (s_heartbeat c); cbn [negb]; [|discriminate]. intro H. injection H as <-. repeat split. constructor. }
  destruct (convertToRequest _ _ _) as [q|e].
  2:{ intro H. injection H as <-. apply EX. }
  destruct (h q) as [p| |] eqn:Eq; [|intro H; injection H as <-; apply EX|discriminate].
  destruct (convertToResMessage _ _ _ _) as [r0|e] eqn:Ec.
  - intro H. injection H as <-. apply convRes_shape in Ec as (R & V & N0).
    + split; [reflexivity|]. split; [exact R|]. split; [exact V|exact N0].
    + intros s Es. apply (Hn (GetSerialize (SetProxy (s_proxy c) (mHeader m)))). exact Es.
    + apply fillRes_ok, (Hh q), Eq.
  - intro H. injection H as <-. apply EX.
Qed.

Lemma encoded_frame r max : sizes_ok max r -> concat (getEncodedBytes None r) = frame r.
Proof. intros (H1 & H2 & H3). apply (encode_frame None r); [exact I| |]; lia. Qed.

Lemma wire_answer r max rid : hReqID (mHeader r) = rid -> (rid < 2 ^ 64)%N -> isRequest (mHeader r) = false -> GetVersion (mHeader r) = 1%N ->
  NoDup (akeys (mMeta r)) -> sizes_ok max r -> motan2_answer max rid (concat (getEncodedBytes None r)).
Proof.
  intros Hr Hlt Hq Hv Hn Hs. exists (received r). rewrite (encoded_frame Hs). split; [|split; [exact Hr|exact Hq]].
  rewrite <- (app_nil_r (frame r)). apply decode_frame. destruct Hs as (H1 & H2 & H3).
  repeat split; auto. rewrite Hr. exact Hlt.
Qed.

(* answered: everything but a handler panic and a disabled heartbeat produces an answer *)
Lemma processV2_answers {A} (c : scfg A) ip pt h m :
  (IsHeartbeat (mHeader m) = true -> s_heartbeat c = true) -> (forall q, h q <> HPanic) ->
  exists r, processV2 c ip pt h m = Write r.
Proof.
  intros Hb Hp. unfold processV2. cbv zeta. cbn [mHeader mMeta mBody].
  destruct (setproxy_fields (s_proxy c) (mHeader m)) as (F1 & F2 & F3). rewrite F2.
  destruct (IsHeartbeat (mHeader m)) eqn:E; [rewrite (Hb eq_refl); cbn [negb]; eauto|].
  destruct (convertToRequest _ _ _) as [q|e]; [|eauto].
  destruct (h q) as [p| |] eqn:Eq; [|eauto|destruct (Hp q Eq)].
  destruct (convertToResMessage _ _ _ _); eauto.
Qed.

Lemma processV2_heartbeat {A} (c : scfg A) ip pt h m : IsHeartbeat (mHeader m) = true ->
  (s_heartbeat c = true -> exists r, processV2 c ip pt h m = Write r /\
     view (mHeader r) = mkView true false false true false 1 0 6 (hReqID (mHeader m)) /\ mMeta r = [] /\ mBody r = []) /\
  (s_heartbeat c = false -> processV2 c ip pt h m = CloseConn).
Proof.
  intro Hb. unfold processV2. cbv zeta. cbn [mHeader mMeta mBody].
  destruct (setproxy_fields (s_proxy c) (mHeader m)) as (F1 & F2 & F3). rewrite F1, F2, Hb.
  split; intro E; rewrite E; cbn [negb]; [|reflexivity]. eexists. split; [reflexivity|]. repeat split.
Qed.

Lemma processV2_nil {A} (c : scfg A) ip pt h m : IsHeartbeat (mHeader m) = false -> (forall q, h q = HNil) ->
  exists r msg, processV2 c ip pt h m = Write r /\ exc_answer (s_ext c) r msg.
Proof.
  intros Hb Hh. unfold processV2. cbv zeta. cbn [mHeader mMeta mBody].
  destruct (setproxy_fields (s_proxy c) (mHeader m)) as (F1 & F2 & F3). rewrite F2, Hb.
  destruct (convertToRequest _ _ _) as [q|e].
  - rewrite Hh. eexists _, _. split; [reflexivity|]. repeat split.
  - eexists _, _. split; [reflexivity|]. repeat split.
Qed.

(* what the handler said reaches the peer *)
Lemma buildHeader_id isReq px num rid rid' st : BuildHeader isReq px num rid' st =
  mHeader (withID (mkMsg (BuildHeader isReq px num rid st) [] []) rid').
Proof. reflexivity. Qed.

Definition pWithID {A} (p : mresponse A) (rid : N) : mresponse A := mkRes _ rid (pValue p) (pExc p) (pAttach p) (pCtx p).

Lemma convRes_id {A} X asBytes (ser : option (serialization A)) p m rid : cOriginal (pCtx p) = None \/ cProxy (pCtx p) = false ->
  convertToResMessage X asBytes ser p = inl m -> convertToResMessage X asBytes ser (pWithID p rid) = inl (withID m rid).
Proof.
  intros Ho. unfold convertToResMessage. cbv zeta. cbn [pWithID pCtx pExc pValue pAttach pID].
  assert (E : (if cProxy (pCtx p) then cOriginal (pCtx p) else None) = None) by (destruct Ho as [-> | ->]; [destruct (cProxy (pCtx p))|]; reflexivity).
  rewrite E. set (hd := if (_ : bool) then Some (cSerNum (pCtx p)) else _). destruct hd as [num|]; [|discriminate].
  destruct (match pValue p with Some _ => _ | None => _ end) as [b|e]; [|discriminate]. intro H. injection H as <-. f_equal.
  unfold encodeMessageGzip. cbn [mHeader mMeta mBody].
  set (st := match pExc p with Some _ => 1%Z | None => 0%Z end). set (att := match pExc p with Some _ => _ | None => pAttach p end).
  change (IsGzip (BuildHeader false false num rid st)) with (IsGzip (BuildHeader false false num (pID p) st)).
  destruct (_ && _ && _); [destruct (x_gz X b)|]; cbn [mHeader mMeta mBody withID]; destruct (cProxy (pCtx p)); reflexivity.
Qed.

Lemma convRes_fail {A} X asBytes (ser : option (serialization A)) px pt p e :
  convertToResMessage X asBytes ser (fillRes px pt p) = inr e -> unsendable asBytes ser p.
Proof.
  unfold convertToResMessage, unsendable. cbv zeta. cbn [fillRes pCtx pExc pValue cProxy cOriginal cSerialized cSerNum].
  destruct (if px then cOriginal (pCtx p) else None); [discriminate|].
  destruct (pExc p) as [x|].
  - destruct (cSerialized (pCtx p) || px).
    + destruct (pValue p); [intros _; right; discriminate|discriminate].
    + destruct ser as [s|]; [|auto]. destruct (pValue p); [intros _; right; discriminate|discriminate].
  - destruct (cSerialized (pCtx p)) eqn:Es.
    + destruct (pValue p) as [v|]; [|discriminate]. destruct (asBytes v) as [b|] eqn:Eb; [discriminate|].
      intros _. right. exists v. split; [reflexivity|]. intros b [(_ & B)|(B & _)]; [rewrite Eb in B; discriminate B|rewrite Es in B; discriminate B].
    + destruct ser as [s|]; [|auto]. destruct (pValue p) as [v|]; [|discriminate]. destruct (s_one s v) as [b|] eqn:Eb; [discriminate|].
      intros _. right. exists v. split; [reflexivity|]. intros b [(B & _)|(_ & s' & B1 & B2)]; [rewrite Es in B; discriminate B|].
      injection B1 as <-. rewrite Eb in B2. discriminate B2.
Qed.

Lemma processV2_value {A} (c : scfg A) ip pt h m q p max :
  numbers_ok c -> gzip_lossless (s_ext c) -> (forall e, pExc p = Some e -> json_lossless (s_ext c) e) ->
  IsHeartbeat (mHeader m) = false -> (hReqID (mHeader m) < 2 ^ 64)%N ->
  convertToRequest (s_ext c) (match s_ser c (GetSerialize (mHeader m)) with Some _ => true | None => false end)
    (mkMsg (SetProxy (s_proxy c) (mHeader m)) (aset bs_eqb (mMeta m) (s2b "host") ip) (mBody m)) = inl q ->
  h q = HRes p -> NoDup (akeys (pAttach p)) -> (0 <= cSerNum (pCtx p) <= 31)%Z -> (s_proxy c = true -> cOriginal (pCtx p) = None) ->
  (forall r, processV2 c ip pt h m = Write r -> sizes_ok max r) ->
  exists r m' s, processV2 c ip pt h m = Write r /\ decodeMsg max (concat (getEncodedBytes None r)) = DecOk m' [] /\
    (convertToResponse (s_ext c) true m' = inl s /\
    rpID s = hReqID (mHeader m) /\ rpExc s = pExc p /\
    (pExc p = None -> match pValue p with
                      | None => rpBody s = None
                      | Some v => exists b, res_bytes (s_asBytes c) (s_ser c (GetSerialize (mHeader m))) (pCtx p) v b /\
                                            rpBody s = match b with [] => None | _ => Some b end
                      end) /\
    (forall k v, In (k, v) (pAttach p) -> encodable (k, v) = true -> (k <> s2b "M_e" \/ pExc p = None) -> k <> s2b "M_pt" ->
       aget bs_eqb (rpAttach s) k = Some v) \/
    unsendable (s_asBytes c) (s_ser c (GetSerialize (mHeader m))) p /\ exists msg, exc_answer (s_ext c) r msg).
Proof.
  intros Hn Hg Hj Hb Hid Hq Hh Hnd Hsn Ho Hsz.
  assert (P : processV2 c ip pt h m =
    match convertToResMessage (s_ext c) (s_asBytes c) (s_ser c (GetSerialize (mHeader m))) (fillRes (s_proxy c) pt p) with
    | inl r => Write (withID r (hReqID (mHeader m)))
    | inr e => Write (withID (exc500 c (hReqID (mHeader m)) (s2b "convert to response fail. err:" ++ s_errText c e)) (hReqID (mHeader m)))
    end).
  { unfold processV2. cbv zeta. cbn [mHeader mMeta mBody].
    destruct (setproxy_fields (s_proxy c) (mHeader m)) as (F1 & F2 & F3). rewrite F1, F2, F3, Hb.
    change HostKey with (s2b "host"). rewrite Hq, Hh.
    destruct (convertToResMessage _ _ _ _); reflexivity. }
  destruct (convertToResMessage _ _ _ _) as [r|e] eqn:Ec.
  - specialize (Hsz _ P).
    assert (Hfo : cOriginal (pCtx (fillRes (s_proxy c) pt p)) = None \/ cProxy (pCtx (fillRes (s_proxy c) pt p)) = false).
    { cbn. destruct (s_proxy c); [left; apply Ho; reflexivity|right; reflexivity]. }
    pose proof (convRes_id _ _ _ _ (hReqID (mHeader m)) Hfo Ec) as Ec'.
    assert (Hnd' : NoDup (akeys (pAttach (fillRes (s_proxy c) pt p)))).
    { cbn. destruct (bs_empty _); [|exact Hnd]. apply NoDup_aset; [exact bs_eqb_spec|exact Hnd]. }
    destruct (response_over_wire (s_ext c) (s_asBytes c) (s_ser c (GetSerialize (mHeader m)))
                (pWithID (fillRes (s_proxy c) pt p) (hReqID (mHeader m))) (withID r (hReqID (mHeader m))) max None []) as
      (m' & s & D & S1 & S2 & S3 & _ & _ & S4 & S5 & _); try assumption.
    + intros s E. eapply Hn. exact E.
    + exact I.
    + exists (withID r (hReqID (mHeader m))), m', s. split; [exact P|].
      split. { rewrite (encoded_frame Hsz). rewrite app_nil_r in D.
               destruct Hsz as (Z1 & Z2 & Z3). destruct (encode_frame None (withID r (hReqID (mHeader m))) I ltac:(lia) ltac:(lia)) as [E1 _].
               rewrite E1 in D. exact D. }
      left. split; [exact S1|]. split; [exact S2|]. split; [exact S3|]. split.
      * intro E. specialize (S4 E). cbn in S4. destruct (pValue p) as [v|]; [|exact S4].
        destruct S4 as (b & B1 & B2). exists b. split; [exact B1|exact B2].
      * intros k v Hin He Hk Hpt. apply S5; [|exact He|exact Hk]. unfold pWithID, fillRes. cbn [pAttach].
        destruct (bs_empty _); [|exact Hin].
        apply (In_aget bs_eqb bs_eqb_spec) in Hin; [|exact Hnd]. eapply (aget_In bs_eqb bs_eqb_spec).
        rewrite (aget_aset bs_eqb bs_eqb_spec). destruct (bs_eqb k MProcessTime) eqn:E; [apply bs_eqb_spec in E; contradiction|exact Hin].
  - specialize (Hsz _ P). set (r := withID _ _) in *.
    assert (W : motan2_answer max (hReqID (mHeader m)) (concat (getEncodedBytes None r))).
    { apply wire_answer; auto. constructor; [intros []|constructor]. }
    destruct W as (m' & D & _ & _).
    exists r, m', (mkRRes 0 None None 0 [] false). split; [exact P|]. split; [exact D|]. right.
    split; [|eexists; repeat split]. eapply convRes_fail, Ec.
Qed.

(* ------------------------------------------------------------ one motan1 message *)

Lemma v1_exception_prefix e : s2b "build v1 exception res. org err:" ++ eMsg e <> [].
Proof. intro H. apply (f_equal (@length byte)) in H. rewrite app_length in H. cbn in H. lia. Qed.

Lemma Some_eq {T} (x y : T) : Some x = Some y -> x = y.
Proof. congruence. Qed.

Lemma processV1_id {A} (c : scfg A) gunzip ip h m b max : (81 <= max)%N -> (max < 2 ^ 32)%N -> (vRid m < 2 ^ 64)%N ->
  (forall q r, h q = HRes r -> v1_response_ok max (i_id q) r \/ encodeV1Resp r = None) ->
  processV1 c gunzip ip h m = Write b -> motan1_answer max (vRid m) b.
Proof.
  intros H81 Hm Hr Hh. unfold processV1. destruct (decodeV1Request gunzip m) as [q| | |]; try discriminate.
  cbv zeta. destruct (isV1HeartbeatReq q).
  - destruct (s_heartbeat c); cbn [negb]; [|discriminate]. intro H.
    destruct (heartbeatRes_read gunzip max (vRid m) [] Hr H81 Hm) as (m' & s & R & I1 & _). rewrite app_nil_r in R.
    destruct (buildV1HeartbeatRes (vRid m)) eqn:Eb; [discriminate H|]. injection H as <-. exists m'. auto.
  - set (qi := mkV1in _ _ _ _ _ _). destruct (h qi) as [r| |] eqn:Eh; try discriminate.
    destruct (encodeV1Resp r) as [b0|] eqn:Ee; [|discriminate]. intro H.
    assert (b0 = b) as -> by (destruct b0; [discriminate H|injection H as <-; reflexivity]). clear H.
    destruct (Hh qi r Eh) as [(Hid & Ho)|Hx]; [|rewrite Ee in Hx; discriminate Hx].
    change (i_id qi) with (vRid m) in Hid. unfold encodeV1Resp in Ee. rewrite Hid in Ee.
    destruct (w_orig r) as [o|].
    + injection Ee as <-. destruct Ho as (tag & ver & flag & i & stream & (F1 & F2 & F3 & F4) & Eo).
      assert (Ex : encodeV1Response o (vRid m) = v1_frame tag ver flag (vRid m) stream).
      { rewrite <- (encodeV1Response_ok tag ver flag i (vRid m) stream F1). unfold encodeV1Response. rewrite Eo. reflexivity. }
      rewrite Ex. exists (frame_msg tag ver flag (vRid m) stream). split; [|reflexivity].
      rewrite <- (app_nil_r (v1_frame _ _ _ _ _)). apply readV1_frame. repeat split; assumption.
    + destruct (w_exc r) as [e|]; [|destruct Ho]. apply Some_eq in Ee. subst b. cbv zeta in Ho. destruct Ho as (L1 & L2).
      destruct (exception_read gunzip max (vRid m) _ [] (v1_exception_prefix e) Hr L1 L2 Hm) as (_ & m' & R & I1 & _).
      rewrite app_nil_r in R. exists m'. auto.
Qed.

(* ------------------------------------------------------------ a connection *)

Section Conn.
Variable A : Type.
Variable c : scfg A.
Variable gunzip : bs -> option bs.
Variable ip : bs.

Lemma cruns_snoc l : forall s o, cruns c gunzip ip s (l ++ [o]) =
  match cruns c gunzip ip s l with Some s1 => cstep c gunzip ip s1 o | None => None end.
Proof.
  induction l as [|a l IH]; intros s o; cbn [app cruns].
  - destruct (cstep c gunzip ip s o); reflexivity.
  - destruct (cstep c gunzip ip s a); [apply IH|reflexivity].
Qed.
Lemma arrived_snoc (l : list (cop A)) o : arrived (l ++ [o]) = arrived l ++ arrived [o].
Proof.
  induction l as [|a l IH]; [reflexivity|]. cbn [app]. destruct a; cbn [arrived app]; rewrite IH; rewrite ?app_assoc; reflexivity.
Qed.

Lemma item_length x : item_ok (s_max c) x -> 4 <= length (item_bytes x).
Proof.
  destruct x as [m|tag ver flag rid stream]; cbn [item_ok item_bytes].
  - intros _. pose proof (frame_length m). lia.
  - intros ((H & _) & _). rewrite v1_frame_length by exact H. lia.
Qed.

Lemma version_of_item x t : item_ok (s_max c) x -> checkMotanVersion (item_bytes x ++ t) = Some (match x with S2 _ => 1%N | S1 _ _ _ _ _ => 0%N end).
Proof.
  destruct x as [m|tag ver flag rid stream]; cbn [item_ok item_bytes].
  - intros (_ & Hv & _). unfold checkMotanVersion, frame. cbn [app length].
    change (Nat.ltb (S (S (S (S _)))) 4) with false. cbn [firstn nth].
    change (N.eqb (getUint BigE [xf1; xf1]) MotanMagic) with true. cbn [negb]. f_equal. exact Hv.
  - intros (_ & a & b & -> & Hb). unfold checkMotanVersion, v1_frame. cbn [app length].
    change (Nat.ltb (S (S (S (S _)))) 4) with false. cbn [firstn nth].
    change (N.eqb (getUint BigE [xf1; xf1]) MotanMagic) with true. cbn [negb]. f_equal.
    rewrite N.shiftr_div_pow2. change (2 ^ 3)%N with 8%N. rewrite N.div_small by exact Hb. reflexivity.
Qed.

Lemma checkVersion_prefix s t : 4 <= length s -> checkMotanVersion (s ++ t) = checkMotanVersion s.
Proof.
  intro H. unfold checkMotanVersion. rewrite app_length.
  destruct (Nat.ltb_spec (length s + length t) 4); destruct (Nat.ltb_spec (length s) 4); try lia.
  rewrite firstn_app. replace (2 - length s) with 0 by lia. rewrite firstn_O, app_nil_r. rewrite app_nth1 by lia. reflexivity.
Qed.

Lemma readOne_item x : forall s t R, item_ok (s_max c) x -> s ++ t = item_bytes x ++ R ->
  readOne (s_max c) s = RWait \/ exists rest, readOne (s_max c) s = RGot (item_job x) rest /\ s = item_bytes x ++ rest.
Proof.
  intros s t R Hx E. unfold readOne. destruct (Nat.ltb_spec (length s) 4) as [|Hl]; [auto|].
  assert (Hv : checkMotanVersion s = Some (match x with S2 _ => 1%N | S1 _ _ _ _ _ => 0%N end)).
  { rewrite <- (checkVersion_prefix s t Hl), E. apply version_of_item, Hx. }
  rewrite Hv.
  destruct (Nat.le_gt_cases (length (item_bytes x)) (length s)) as [Hc|Hc].
  - right. assert (Es : s = item_bytes x ++ skipn (length (item_bytes x)) s).
    { rewrite <- (firstn_skipn (length (item_bytes x)) s) at 1. f_equal.
      transitivity (firstn (length (item_bytes x)) (s ++ t)).
      - rewrite firstn_app. replace (length (item_bytes x) - length s) with 0 by lia. rewrite firstn_O, app_nil_r. reflexivity.
      - rewrite E, firstn_app, Nat.sub_diag, firstn_O, app_nil_r. apply firstn_all. }
    set (rest := skipn _ s) in *. exists rest. split; [|exact Es]. rewrite Es. clear Hv Hl E Es.
    destruct x as [m|tag ver flag rid stream]; cbn [item_ok item_bytes item_job] in *.
    + change (N.eqb 1 0) with false. change (N.eqb 1 1) with true. cbv iota. rewrite (decode_frame _ _ rest Hx). reflexivity.
    + change (N.eqb 0 0) with true. cbv iota. destruct Hx as (Hx & _). rewrite (readV1_frame _ _ _ _ _ _ rest Hx). reflexivity.
  - left. assert (Et : exists u, u <> [] /\ item_bytes x = s ++ u /\ t = u ++ R).
    { exists (skipn (length s) (item_bytes x)).
      assert (Ei : item_bytes x = s ++ skipn (length s) (item_bytes x)).
      { rewrite <- (firstn_skipn (length s) (item_bytes x)) at 1. f_equal.
        transitivity (firstn (length s) (item_bytes x ++ R)).
        - rewrite firstn_app. replace (length s - length (item_bytes x)) with 0 by lia. rewrite firstn_O, app_nil_r. reflexivity.
        - rewrite <- E, firstn_app, Nat.sub_diag, firstn_O, app_nil_r. apply firstn_all. }
      split. { intro K. rewrite K, app_nil_r in Ei. rewrite Ei in Hc. lia. }
      split; [exact Ei|]. rewrite Ei, <- app_assoc in E. apply app_inv_head in E. exact E. }
    destruct Et as (u & Hu & Ei & _).
    destruct x as [m|tag ver flag rid stream]; cbn [item_ok item_bytes item_job] in *.
    + change (N.eqb 1 0) with false. change (N.eqb 1 1) with true. cbv iota.
      assert (D : decodeMsg (s_max c) (s ++ u ++ []) = DecOk (received m) []).
      { rewrite app_nil_r, <- Ei. rewrite <- (app_nil_r (frame m)). apply decode_frame, Hx. }
      rewrite (decode_truncated _ _ _ _ _ D Hu). reflexivity.
    + change (N.eqb 0 0) with true. cbv iota. destruct Hx as (Hx & _).
      assert (D : readV1 (s_max c) (s ++ u) = ROkV1 (frame_msg tag ver flag rid stream) []).
      { rewrite <- Ei. rewrite <- (app_nil_r (v1_frame _ _ _ _ _)). apply readV1_frame, Hx. }
      destruct (readV1_truncated _ _ _ _ _ D) as [r Hr]; [|rewrite Hr; reflexivity].
      unfold frame_msg. cbn [vOrigin]. exact Hc.
Qed.

(* what a conforming peer sent is what is being processed *)
Definition reads_in_order (items : list sent_item) (ops : list (cop A)) (pending : bs) (s : conn) : Prop :=
  arrived ops ++ pending = concat (map item_bytes items) ->
  exists n, map fst (k_jobs s) = map item_job (firstn n items) /\ k_in s ++ pending = concat (map item_bytes (skipn n items)) /\ n <= length items.

Lemma map_fst_set (l : list (job * jstate)) : forall i j x y, nth_error l i = Some (j, x) -> map fst (list_set l i (j, y)) = map fst l.
Proof.
  induction l as [|a l IH]; intros i j x y E; [destruct i; discriminate E|].
  destruct i; cbn in *; [injection E as ->; reflexivity|f_equal; eapply IH, E].
Qed.

Lemma cstep_order items ops o s s' : Forall (item_ok (s_max c)) items ->
  (forall pending, reads_in_order items ops pending s) -> cstep c gunzip ip s o = Some s' ->
  forall pending, reads_in_order items (ops ++ [o]) pending s'.
Proof.
  intros Hi IH Hs pending. unfold reads_in_order in *. rewrite arrived_snoc.
  destruct o as [b| |acc|i pt h2 h1|i]; cbn [cstep arrived] in *; rewrite ?app_nil_r; intro Ha.
  - destruct (k_eof s || k_closed s); [discriminate Hs|]. injection Hs as <-. cbn [k_jobs k_in].
    rewrite <- app_assoc in Ha. destruct (IH (b ++ pending) Ha) as (n & H1 & H2 & H3). exists n. rewrite <- app_assoc. auto.
  - injection Hs as <-. apply IH, Ha.
  - destruct (IH pending Ha) as (n & H1 & H2 & H3). destruct (k_closed s); [discriminate Hs|].
    destruct (nth_error items n) as [x|] eqn:En.
    + assert (Hsk : skipn n items = x :: skipn (S n) items).
      { clear - En. revert n En. induction items as [|a l IHl]; intros n En; destruct n; try discriminate En; cbn in *; [injection En as ->; reflexivity|apply IHl, En]. }
      assert (Hf : firstn (S n) items = firstn n items ++ [x]).
      { clear - En. revert n En. induction items as [|a l IHl]; intros n En; destruct n; try discriminate En; cbn in *; [injection En as ->; reflexivity|f_equal; apply IHl, En]. }
      rewrite Hsk in H2. cbn [map concat] in H2.
      assert (Hx : item_ok (s_max c) x) by (rewrite Forall_forall in Hi; apply Hi; eapply nth_error_In, En).
      destruct (readOne_item x (k_in s) pending _ Hx H2) as [R|(rest & R & Er)]; rewrite R in Hs.
      * destruct (k_eof s); [|discriminate Hs]. injection Hs as <-. cbn [k_jobs k_in]. exists n. rewrite Hsk. auto.
      * assert (Hlen : n < length items) by (apply nth_error_Some; congruence).
        assert (Hrest : rest ++ pending = concat (map item_bytes (skipn (S n) items))).
        { rewrite Er, <- app_assoc in H2. apply app_inv_head in H2. exact H2. }
        exists (S n). destruct acc.
        -- injection Hs as <-. cbn [k_jobs k_in]. rewrite map_app, H1, Hf, map_app. auto.
        -- destruct x as [m|tag ver flag rid stream]; cbn [item_job] in Hs; [|discriminate Hs]. injection Hs as <-. cbn [k_jobs k_in].
           rewrite map_app, H1, Hf, map_app. auto.
    + assert (Hsk : skipn n items = []) by (apply nth_error_None in En; apply skipn_all2, En).
      rewrite Hsk in H2. cbn in H2. apply app_eq_nil in H2 as [K1 K2].
      assert (R : readOne (s_max c) (k_in s) = RWait) by (rewrite K1; reflexivity). rewrite R in Hs.
      destruct (k_eof s); [|discriminate Hs]. injection Hs as <-. cbn [k_jobs k_in]. exists n. rewrite K1, K2, Hsk. auto.
  - destruct (IH pending Ha) as (n & H1 & H2 & H3).
    destruct (nth_error (k_jobs s) i) as [[j [|]]|] eqn:En; try discriminate Hs.
    exists n. rewrite <- (map_fst_set _ i Finished En) in H1.
    destruct (jobFate c gunzip ip pt h2 h1 j); injection Hs as <-; cbn [k_jobs k_in]; auto.
  - destruct (IH pending Ha) as (n & H1 & H2 & H3).
    destruct (nth_error (k_jobs s) i) as [[j [|]]|] eqn:En; try discriminate Hs. injection Hs as <-. cbn [k_jobs k_in].
    exists n. rewrite (map_fst_set _ i Finished En). auto.
Qed.

Lemma cruns_order items : Forall (item_ok (s_max c)) items -> forall ops s,
  cruns c gunzip ip initConn ops = Some s -> forall pending, reads_in_order items ops pending s.
Proof.
  intros Hi. induction ops as [|o ops IH] using rev_ind; intros s Hs.
  - cbn in Hs. injection Hs as <-. intros pending Ha. exists 0. cbn in *. auto with arith.
  - rewrite cruns_snoc in Hs. destruct (cruns c gunzip ip initConn ops) as [s1|] eqn:E; [|discriminate Hs].
    intro pending. exact (@cstep_order items ops o s1 s Hi (IH s1 eq_refl) Hs pending).
Qed.

(* a conforming peer is not disconnected by the read loop *)
Definition closes (o : cop A) : Prop := match o with PeerClose | EndJobLost _ => True | _ => False end.

Lemma cruns_open items ops : Forall (item_ok (s_max c)) items -> forall s,
  cruns c gunzip ip initConn ops = Some s -> (exists pending, arrived ops ++ pending = concat (map item_bytes items)) ->
  s_heartbeat c = true -> Forall (fun o => ~ closes o) ops -> k_closed s = false.
Proof.
  intro Hi. assert (G : forall s, cruns c gunzip ip initConn ops = Some s -> (exists pending, arrived ops ++ pending = concat (map item_bytes items)) ->
  s_heartbeat c = true -> Forall (fun o => ~ closes o) ops -> k_closed s = false /\ k_eof s = false).
  2:{ intros s H1 H2 H3 H4. apply (G s H1 H2 H3 H4). }
  induction ops as [|o ops IH] using rev_ind; intros s Hs Ha Hb Hf.
  - injection Hs as <-. auto.
  - rewrite cruns_snoc in Hs. destruct (cruns c gunzip ip initConn ops) as [s1|] eqn:E; [|discriminate Hs].
    apply Forall_app in Hf as [Hf Hfo]. inversion Hfo as [|? ? Ho _]; subst.
    destruct Ha as [pending Ha]. rewrite arrived_snoc, <- app_assoc in Ha.
    destruct (IH s1 eq_refl (ex_intro _ _ Ha) Hb Hf) as [C1 C2].
    destruct (@cruns_order items Hi ops s1 E _ Ha) as (n & O1 & O2 & O3).
    destruct o as [b| |acc|i pt h2 h1|i]; cbn [cstep] in Hs; try (exfalso; apply Ho; exact I).
    + rewrite C1, C2 in Hs. injection Hs as <-. auto.
    + rewrite C1 in Hs.
      destruct (skipn n items) as [|x rest] eqn:Esk.
      * apply app_eq_nil in O2 as [K1 K2]. rewrite K1 in Hs. cbn in Hs. rewrite C2 in Hs. discriminate Hs.
      * assert (Hx : item_ok (s_max c) x).
        { rewrite Forall_forall in Hi. apply Hi. rewrite <- (firstn_skipn n items), Esk. apply in_or_app. right. left. reflexivity. }
        destruct (readOne_item x (k_in s1) _ _ Hx O2) as [R|(rst & R & Er)]; rewrite R in Hs.
        -- rewrite C2 in Hs. discriminate Hs.
        -- destruct acc; [injection Hs as <-; auto|]. destruct (item_job x); [injection Hs as <-; auto|discriminate Hs].
    + destruct (nth_error (k_jobs s1) i) as [[j [|]]|] eqn:En; try discriminate Hs.
      destruct (jobFate c gunzip ip pt h2 h1 j) eqn:Ej; injection Hs as <-; auto. exfalso.
      destruct j as [m|m]; cbn [jobFate] in Ej.
      * unfold processV2 in Ej. cbv zeta in Ej. rewrite Hb in Ej. cbn [negb] in Ej.
        destruct (IsHeartbeat _); [discriminate Ej|].
        destruct (convertToRequest _ _ _); [|discriminate Ej]. destruct (h2 r); try discriminate Ej.
        destruct (convertToResMessage _ _ _ _); discriminate Ej.
      * unfold processV1 in Ej. rewrite Hb in Ej. cbv zeta in Ej. destruct (decodeV1Request gunzip m); try discriminate Ej. cbn [negb] in Ej.
        destruct (isV1HeartbeatReq a); [destruct (buildV1HeartbeatRes (vRid m)); discriminate Ej|].
        destruct (h1 _); try discriminate Ej. destruct (encodeV1Resp p) as [[|]|]; discriminate Ej.
Qed.

(* every write answers a distinct message that was read, with that message's id *)
Definition job_ok (j : job) : Prop := (job_id j < 2 ^ 64)%N.
Definition ans_inv (peermax : N) (s : conn) : Prop :=
  NoDup (map fst (k_out s)) /\
  (forall i b, In (i, b) (k_out s) -> exists j, nth_error (k_jobs s) i = Some (j, Finished) /\ is_answer peermax j b) /\
  Forall (fun x => job_ok (fst x)) (k_jobs s).

Lemma getUint_bound k s : k <= 8 -> (getUint BigE (firstn k s) < 2 ^ 64)%N.
Proof.
  intro H. pose proof (getUint_lt BigE (firstn k s)) as B.
  eapply N.lt_le_trans; [exact B|]. change (2 ^ 64)%N with (256 ^ 8)%N. apply N.pow_le_mono_r; [discriminate|].
  rewrite firstn_length. lia.
Qed.

Lemma readOne_job_ok s j rest : readOne (s_max c) s = RGot j rest -> job_ok j.
Proof.
  unfold readOne, job_ok. destruct (length s <? 4); [discriminate|]. destruct (checkMotanVersion s) as [v|]; [|discriminate].
  destruct (N.eqb v 0).
  - destruct (readV1 (s_max c) s) as [m r|e r] eqn:E; [|destruct e; discriminate]. intro H. injection H as <- _.
    apply readV1_accepts in E as (_ & _ & _ & _ & _ & _ & E & _). cbn [job_id]. rewrite E. rewrite <- be_be_field. unfold be. apply getUint_bound. lia.
  - destruct (N.eqb v 1); [|discriminate]. destruct (decodeMsg (s_max c) s) as [m r|e r] eqn:E; [|destruct e; discriminate].
    intro H. injection H as <- _. apply decode_accepts in E as (_ & _ & _ & _ & _ & E & _). cbn [job_id]. rewrite E.
    unfold be_at. rewrite <- getUint_BigE_fold. apply getUint_bound. lia.
Qed.

Lemma cstep_answers peermax o s s' : numbers_ok c -> (81 <= peermax)%N -> (peermax < 2 ^ 32)%N -> op_ok c ip peermax o ->
  ans_inv peermax s -> cstep c gunzip ip s o = Some s' -> ans_inv peermax s'.
Proof.
  intros Hn H81 Hm Ho (I1 & I2 & I3) Hs.
  destruct o as [b| |acc|i pt h2 h1|i]; cbn [cstep] in Hs.
  - destruct (k_eof s || k_closed s); [discriminate Hs|]. injection Hs as <-. split; auto.
  - injection Hs as <-. split; auto.
  - destruct (k_closed s); [discriminate Hs|]. destruct (readOne (s_max c) (k_in s)) as [j rest| |] eqn:R.
    + pose proof (readOne_job_ok _ R) as Hj.
      assert (G : forall x, ans_inv peermax (mkConn rest (k_eof s) (k_jobs s ++ [(j, x)]) (k_out s) false)).
      { intro x. split; [exact I1|]. split; cbn [k_jobs k_out].
        - intros i b Hin. destruct (I2 i b Hin) as (j' & E & A'). exists j'. split; [|exact A'].
          rewrite nth_error_app1; [exact E|]. apply nth_error_Some. congruence.
        - apply Forall_app. split; [exact I3|]. constructor; [exact Hj|constructor]. }
      destruct acc; [injection Hs as <-; apply G|]. destruct j; [injection Hs as <-; apply G|discriminate Hs].
    + injection Hs as <-. split; auto.
    + destruct (k_eof s); [|discriminate Hs]. injection Hs as <-. split; auto.
  - destruct (nth_error (k_jobs s) i) as [[j [|]]|] eqn:En; try discriminate Hs.
    assert (Hj : job_ok j) by (rewrite Forall_forall in I3; apply (I3 (j, Running)); eapply nth_error_In, En).
    assert (Hjobs : Forall (fun x => job_ok (fst x)) (list_set (k_jobs s) i (j, Finished))).
    { apply Forall_forall. intros x Hx. apply In_list_set in Hx as [Hx|Hx]; [subst x; exact Hj|rewrite Forall_forall in I3; apply I3, Hx]. }
    assert (Hkeep : forall i' b', In (i', b') (k_out s) -> exists j', nth_error (list_set (k_jobs s) i (j, Finished)) i' = Some (j', Finished) /\ is_answer peermax j' b').
    { intros i' b' Hin. destruct (I2 i' b' Hin) as (j' & E & A'). exists j'. split; [|exact A'].
      rewrite (nth_set _ _ _ _ _ En). destruct (Nat.eqb_spec i' i) as [->|]; [rewrite En in E; discriminate E|exact E]. }
    assert (Hfresh : ~ In i (map fst (k_out s))).
    { intro Hin. apply in_map_iff in Hin as ([i' b'] & <- & Hin). destruct (I2 _ _ Hin) as (j' & E & _). cbn [fst] in En. rewrite En in E. discriminate E. }
    destruct Ho as (O1 & O2 & O3).
    destruct (jobFate c gunzip ip pt h2 h1 j) as [b| |] eqn:Ej; injection Hs as <-; [|split; auto|split; auto].
    destruct (k_closed s); [split; auto|]. split; cbn [k_out k_jobs]; [|split; [|exact Hjobs]].
    + rewrite map_app. cbn [map fst]. apply NoDup_rev in I1. rewrite <- (rev_involutive (map fst (k_out s))) . 
      rewrite <- (rev_involutive (rev (rev (map fst (k_out s))) ++ [i])). apply NoDup_rev. rewrite rev_app_distr. cbn [rev app].
      constructor; [|rewrite rev_involutive; exact I1]. rewrite rev_involutive. rewrite <- in_rev. exact Hfresh.
    + intros i' b' Hin. apply in_app_or in Hin as [Hin|[Hin|[]]]; [apply Hkeep, Hin|]. injection Hin as <- <-.
      exists j. split. { rewrite (nth_set _ _ _ _ _ En), Nat.eqb_refl. reflexivity. }
      destruct j as [m|m]; cbn [jobFate is_answer] in *.
      * destruct (processV2 c ip pt h2 m) as [r| |] eqn:Ep; try discriminate Ej. injection Ej as <-.
        destruct (processV2_id _ _ _ _ Hn O1 Ep) as (P1 & P2 & P3 & P4).
        apply wire_answer; auto. apply (O2 _ _ Ep).
      * apply (processV1_id _ _ _ _ _ H81 Hm Hj O3 Ej).
  - destruct (nth_error (k_jobs s) i) as [[j [|]]|] eqn:En; try discriminate Hs. injection Hs as <-.
    split; [exact I1|]. split; cbn [k_jobs k_out].
    + intros i' b' Hin. destruct (I2 i' b' Hin) as (j' & E & A'). exists j'. split; [|exact A'].
      rewrite (nth_set _ _ _ _ _ En). destruct (Nat.eqb_spec i' i) as [->|]; [rewrite En in E; discriminate E|exact E].
    + apply Forall_forall. intros x Hx. rewrite Forall_forall in I3. apply In_list_set in Hx as [Hx|Hx]; [subst x|apply I3, Hx].
      apply (I3 (j, Running)). eapply nth_error_In, En.
Qed.

Lemma cruns_answers peermax : numbers_ok c -> (81 <= peermax)%N -> (peermax < 2 ^ 32)%N -> forall ops s,
  Forall (op_ok c ip peermax) ops -> cruns c gunzip ip initConn ops = Some s -> ans_inv peermax s.
Proof.
  intros Hn H81 Hm. induction ops as [|o ops IH] using rev_ind; intros s Hf Hs.
  - injection Hs as <-. split; [constructor|]. split; [intros i b []|constructor].
  - apply Forall_app in Hf as [Hf Hfo]. inversion Hfo as [|? ? Ho _]; subst.
    rewrite cruns_snoc in Hs. destruct (cruns c gunzip ip initConn ops) as [s1|] eqn:E; [|discriminate Hs].
    eapply cstep_answers; eauto.
Qed.

Lemma cstep_answered s i pt h2 h1 m : nth_error (k_jobs s) i = Some (J2 m, Running) -> k_closed s = false ->
  (IsHeartbeat (mHeader m) = true -> s_heartbeat c = true) -> (forall q, h2 q <> HPanic) ->
  exists s' b, cstep c gunzip ip s (EndJob i pt h2 h1) = Some s' /\ k_out s' = k_out s ++ [(i, b)] /\ k_closed s' = false.
Proof.
  intros En Hc Hb Hp. cbn [cstep]. rewrite En. cbn [jobFate]. destruct (processV2_answers c ip pt h2 m Hb Hp) as [r ->].
  rewrite Hc. eexists _, _. split; [reflexivity|]. split; reflexivity.
Qed.
Lemma cstep_keeps s o s' : cstep c gunzip ip s o = Some s' -> exists t, k_out s' = k_out s ++ t.
Proof.
  intro Hs. destruct o as [b| |acc|i pt h2 h1|i]; cbn [cstep] in Hs.
  - destruct (k_eof s || k_closed s); [discriminate Hs|]. injection Hs as <-. exists []. symmetry. apply app_nil_r.
  - injection Hs as <-. exists []. symmetry. apply app_nil_r.
  - destruct (k_closed s); [discriminate Hs|]. destruct (readOne (s_max c) (k_in s)) as [j rest| |].
    + destruct acc; [injection Hs as <-; exists []; symmetry; apply app_nil_r|].
      destruct j; [injection Hs as <-; exists []; symmetry; apply app_nil_r|discriminate Hs].
    + injection Hs as <-. exists []. symmetry. apply app_nil_r.
    + destruct (k_eof s); [|discriminate Hs]. injection Hs as <-. exists []. symmetry. apply app_nil_r.
  - destruct (nth_error (k_jobs s) i) as [[j [|]]|]; try discriminate Hs.
    destruct (jobFate c gunzip ip pt h2 h1 j); injection Hs as <-; cbn [k_out].
    + destruct (k_closed s); [exists []; symmetry; apply app_nil_r|eauto].
    + exists []. symmetry. apply app_nil_r.
    + exists []. symmetry. apply app_nil_r.
  - destruct (nth_error (k_jobs s) i) as [[j [|]]|]; try discriminate Hs. injection Hs as <-. exists []. symmetry. apply app_nil_r.
Qed.

(* a message that has arrived completely is read, whatever jobs are running *)
Lemma cstep_reads s x rest : k_closed s = false -> item_ok (s_max c) x -> k_in s = item_bytes x ++ rest ->
  cstep c gunzip ip s (ReadOne true) = Some (mkConn rest (k_eof s) (k_jobs s ++ [(item_job x, Running)]) (k_out s) false).
Proof.
  intros Hc Hx E. cbn [cstep]. rewrite Hc.
  destruct (readOne_item x (k_in s) [] rest Hx) as [R|(r & R & Er)].
  - rewrite app_nil_r. exact E.
  - exfalso. unfold readOne in R. pose proof (item_length _ Hx) as L4.
    destruct (Nat.ltb_spec (length (k_in s)) 4) as [Hl|Hl]; [rewrite E, app_length in Hl; lia|].
    rewrite E, (version_of_item _ rest Hx) in R. destruct x as [m|tag ver flag rid stream]; cbn [item_ok item_bytes] in *.
    + change (N.eqb 1 0) with false in R. change (N.eqb 1 1) with true in R. cbv iota in R. rewrite (decode_frame _ _ rest Hx) in R. discriminate R.
    + change (N.eqb 0 0) with true in R. cbv iota in R. destruct Hx as (Hx & _). rewrite (readV1_frame _ _ _ _ _ _ rest Hx) in R. discriminate R.
  - rewrite R. assert (r = rest) as -> by (rewrite E in Er; apply app_inv_head in Er; symmetry; exact Er). reflexivity.
Qed.
End Conn.

(* ------------------------------------------------------------ provider tables *)

Lemma hruns_snoc l o : hruns (l ++ [o]) = hstep (hruns l) o.
Proof. unfold hruns. apply fold_left_app. Qed.
Lemma hrunsA_snoc l o : hrunsA (l ++ [o]) = hstepA (hrunsA l) o.
Proof. unfold hrunsA. apply fold_left_app. Qed.

Lemma aget_added svc t p : aget bs_eqb (addProvider t p) svc = if bs_eqb svc (v_path p) then Some p else aget bs_eqb t svc.
Proof. unfold addProvider. apply (aget_aset bs_eqb bs_eqb_spec). Qed.

Lemma objects_app l1 l2 : objects_ok (l1 ++ l2) -> objects_ok l1.
Proof. intros H o1 o2 p q H1 H2. apply H; apply in_or_app; left; assumption. Qed.

Lemma serves_snoc_keep l svc p o : (forall q, o = AddP q -> v_path q <> svc) -> (forall q, o = RmP q -> v_id q <> v_id p) ->
  serves l svc p -> serves (l ++ [o]) svc p.
Proof.
  intros H1 H2 (Hp & l1 & l2 & E & K1 & K2). split; [exact Hp|]. exists l1, (l2 ++ [o]).
  split; [rewrite E, <- app_assoc; reflexivity|]. split; intros q Hin; apply in_app_or in Hin as [Hin|[Hin|[]]]; auto.
Qed.
Lemma serves_snoc_inv l svc p o : serves (l ++ [o]) svc p ->
  (o = AddP p /\ v_path p = svc) \/ (serves l svc p /\ (forall q, o = AddP q -> v_path q <> svc) /\ (forall q, o = RmP q -> v_id q <> v_id p)).
Proof.
  intros (Hp & l1 & l2 & E & K1 & K2). destruct (exists_last (l := AddP p :: l2)) as (l3 & o' & E'); [discriminate|].
  rewrite E' in E. rewrite app_assoc in E. apply app_inj_tail in E as [E1 E2]. subst o'.
  destruct l3 as [|a l3].
  - injection E' as E2 E3. left. auto.
  - injection E' as <- E3. right. split; [|split; intros q ->].
    + split; [exact Hp|]. exists l1, l3. split; [exact E1|]. split; intros q Hin; [apply K1|apply K2]; rewrite E3; apply in_or_app; left; exact Hin.
    + apply K1. rewrite E3. apply in_or_app. right. left. reflexivity.
    + apply K2. rewrite E3. apply in_or_app. right. left. reflexivity.
Qed.
Lemma serves_in l svc p : serves l svc p -> In (AddP p) l /\ v_path p = svc.
Proof. intros (Hp & l1 & l2 & -> & _). split; [apply in_or_app; right; left; reflexivity|exact Hp]. Qed.

Lemma table_serves l : objects_ok l -> forall svc p, aget bs_eqb (hruns l) svc = Some p <-> serves l svc p.
Proof.
  induction l as [|o l IH] using rev_ind; intros Ho svc p.
  - cbn. split; [discriminate|]. intros (_ & l1 & l2 & E & _). destruct l1; discriminate E.
  - specialize (IH (objects_app _ _ Ho)). rewrite hruns_snoc. destruct o as [q|q]; cbn [hstep].
    + rewrite aget_added. destruct (bs_eqb svc (v_path q)) eqn:E.
      * apply bs_eqb_spec in E. split.
        -- intro H. injection H as <-. split; [auto|]. exists l, []. split; [reflexivity|]. split; intros ? [].
        -- intro H. apply serves_snoc_inv in H as [[H _]|(_ & H & _)]; [injection H as ->; reflexivity|destruct (H q eq_refl); auto].
      * assert (Hne : v_path q <> svc) by (intro K; rewrite K, (proj2 (bs_eqb_spec svc svc) eq_refl) in E; discriminate E).
        rewrite IH. split.
        -- apply serves_snoc_keep; [intros q' K; injection K as <-; exact Hne|discriminate].
        -- intro H. apply serves_snoc_inv in H as [[H Hs]|(H & _)]; [injection H as <-; contradiction|exact H].
    + unfold rmProvider. destruct (aget bs_eqb (hruns l) (v_path q)) as [dp|] eqn:Eg.
      * pose proof (proj1 (IH _ _) Eg) as Hdp. destruct (serves_in Hdp) as [Hin Hpath]. unfold pv_eqb. destruct (Nat.eqb_spec (v_id q) (v_id dp)) as [Hid|Hid].
        -- assert (q = dp) as ->.
           { apply (Ho (RmP q) (AddP dp)); auto; apply in_or_app; [right; left; reflexivity|left; exact Hin]. }
           rewrite (aget_adel bs_eqb bs_eqb_spec). destruct (bs_eqb svc (v_path dp)) eqn:E.
           ++ apply bs_eqb_spec in E. split; [discriminate|]. intro H. exfalso.
              apply serves_snoc_inv in H as [[H _]|(H & _ & Hr)]; [discriminate H|].
              apply IH in H. rewrite E, Eg in H. injection H as ->. exact (Hr p eq_refl eq_refl).
           ++ rewrite IH. split.
              ** intro H. apply serves_snoc_keep; [discriminate| |exact H]. intros q' K. injection K as <-. intro K.
                 destruct (serves_in H) as [Hin' Hp']. assert (dp = p) as <-.
                 { apply (Ho (AddP dp) (AddP p)); auto; apply in_or_app; left; assumption. }
                 rewrite Hp', (proj2 (bs_eqb_spec svc svc) eq_refl) in E. discriminate E.
              ** intro H. apply serves_snoc_inv in H as [[H _]|(H & _)]; [discriminate H|exact H].
        -- rewrite IH. split.
           ++ intro H. apply serves_snoc_keep; [discriminate| |exact H]. intros q' K. injection K as <-. intro K.
              destruct (serves_in H) as [Hin' Hp']. assert (q = p) as ->.
              { apply (Ho (RmP q) (AddP p)); auto; apply in_or_app; [right; left; reflexivity|left; exact Hin']. }
              apply IH in H. rewrite <- Hp', Eg in H. injection H as ->. apply Hid. reflexivity.
           ++ intro H. apply serves_snoc_inv in H as [[H _]|(H & _)]; [discriminate H|exact H].
      * rewrite IH. split.
        -- intro H. apply serves_snoc_keep; [discriminate| |exact H]. intros q' K. injection K as <-. intro K.
           destruct (serves_in H) as [Hin' Hp']. assert (q = p) as ->.
           { apply (Ho (RmP q) (AddP p)); auto; apply in_or_app; [right; left; reflexivity|left; exact Hin']. }
           apply IH in H. rewrite <- Hp', Eg in H. discriminate H.
        -- intro H. apply serves_snoc_inv in H as [[H _]|(H & _)]; [discriminate H|exact H].
Qed.

(* the agent's table *)
Lemma serviceKey_inj g1 p1 g2 p2 : ~ In x5f g1 -> ~ In x5f g2 -> serviceKey g1 p1 = serviceKey g2 p2 -> g1 = g2 /\ p1 = p2.
Proof.
  unfold serviceKey. change (s2b "_") with [x5f]. revert g2. induction g1 as [|a g1 IH]; intros g2 H1 H2 E.
  - destruct g2 as [|b g2]; [injection E as ->; auto|]. injection E as <- _. exfalso. apply H2. left. reflexivity.
  - destruct g2 as [|b g2]; [injection E as -> _; exfalso; apply H1; left; reflexivity|]. injection E as <- E.
    destruct (IH g2) as [-> ->]; auto; intro K; [apply H1|apply H2]; right; exact K.
Qed.

Lemma servesA_snoc_inv l g svc p o : servesA (l ++ [o]) g svc p ->
  (o = AddP p /\ v_group p = g /\ v_path p = svc) \/
  (servesA l g svc p /\ forall q, (o = AddP q \/ o = RmP q) -> ~ (v_group q = g /\ v_path q = svc)).
Proof.
  intros (Hg & Hp & l1 & l2 & E & K). destruct (exists_last (l := AddP p :: l2)) as (l3 & o' & E'); [discriminate|].
  rewrite E' in E. rewrite app_assoc in E. apply app_inj_tail in E as [E1 E2]. subst o'.
  destruct l3 as [|a l3].
  - injection E' as E2 E3. left. auto.
  - injection E' as <- E3. right. split.
    + split; [exact Hg|]. split; [exact Hp|]. exists l1, l3. split; [exact E1|]. intros o' q Hin Hq. apply (K o' q); [|exact Hq]. rewrite E3. apply in_or_app. left. exact Hin.
    + intros q Hq. apply (K o q); [|exact Hq]. rewrite E3. apply in_or_app. right. left. reflexivity.
Qed.
Lemma servesA_snoc_keep l g svc p o : (forall q, (o = AddP q \/ o = RmP q) -> ~ (v_group q = g /\ v_path q = svc)) ->
  servesA l g svc p -> servesA (l ++ [o]) g svc p.
Proof.
  intros H (Hg & Hp & l1 & l2 & E & K). split; [exact Hg|]. split; [exact Hp|]. exists l1, (l2 ++ [o]).
  split; [rewrite E, <- app_assoc; reflexivity|]. intros o' q Hin Hq. apply in_app_or in Hin as [Hin|[<-|[]]]; [eapply K; eauto|apply H, Hq].
Qed.

Lemma tableA_serves l : plain_groups l -> forall g svc p, ~ In x5f g ->
  aget bs_eqb (hrunsA l) (serviceKey g svc) = Some p <-> servesA l g svc p.
Proof.
  intros Hpl. induction l as [|o l IH] using rev_ind; intros g svc p Hg.
  - cbn. split; [discriminate|]. intros (_ & _ & l1 & l2 & E & _). destruct l1; discriminate E.
  - assert (Hpl' : plain_groups l) by (intros o' q H; apply Hpl, in_or_app; left; exact H). specialize (IH Hpl').
    assert (Hq : forall q, o = AddP q \/ o = RmP q -> ~ In x5f (v_group q)).
    { intros q H. apply (Hpl o q); [apply in_or_app; right; left; reflexivity|exact H]. }
    rewrite hrunsA_snoc. destruct o as [q|q]; cbn [hstepA].
    + unfold addProviderA. rewrite (aget_aset bs_eqb bs_eqb_spec). specialize (Hq q (or_introl eq_refl)).
      destruct (bs_eqb (serviceKey g svc) (serviceKey (v_group q) (v_path q))) eqn:E.
      * apply bs_eqb_spec, serviceKey_inj in E as [-> ->]; [|exact Hg|exact Hq]. split.
        -- intro H. injection H as <-. split; [reflexivity|]. split; [reflexivity|]. exists l, []. split; [reflexivity|]. intros ? ? [].
        -- intro H. apply servesA_snoc_inv in H as [[H _]|(_ & H)]; [injection H as ->; reflexivity|destruct (H q (or_introl eq_refl)); auto].
      * rewrite (IH g svc p Hg). split.
        -- apply servesA_snoc_keep. intros q' [K|K]; [|discriminate K]. injection K as <-. intros [<- <-].
           rewrite (proj2 (bs_eqb_spec _ _) eq_refl) in E. discriminate E.
        -- intro H. apply servesA_snoc_inv in H as [(H & <- & <-)|(H & _)]; [injection H as ->; rewrite (proj2 (bs_eqb_spec _ _) eq_refl) in E; discriminate E|exact H].
    + unfold rmProviderA. rewrite (aget_adel bs_eqb bs_eqb_spec). specialize (Hq q (or_intror eq_refl)).
      destruct (bs_eqb (serviceKey g svc) (serviceKey (v_group q) (v_path q))) eqn:E.
      * apply bs_eqb_spec, serviceKey_inj in E as [-> ->]; [|exact Hg|exact Hq]. split; [discriminate|].
        intro H. apply servesA_snoc_inv in H as [[H _]|(_ & H)]; [discriminate H|destruct (H q (or_intror eq_refl)); auto].
      * rewrite (IH g svc p Hg). split.
        -- apply servesA_snoc_keep. intros q' [K|K]; [discriminate K|]. injection K as <-. intros [<- <-].
           rewrite (proj2 (bs_eqb_spec _ _) eq_refl) in E. discriminate E.
        -- intro H. apply servesA_snoc_inv in H as [[H _]|(H & _)]; [discriminate H|exact H].
Qed.

Lemma framework_flag q : wants_framework q \/ negb (bs_empty (loadOrEmpty (d_attach q) MFrameworkService)) = false.
Proof.
  unfold wants_framework, loadOrEmpty. change (s2b "M_fws") with MFrameworkService.
  destruct (aget bs_eqb (d_attach q) MFrameworkService) as [v|]; [|auto]. destruct v; [auto|]. left. eexists. split; [reflexivity|discriminate].
Qed.
Lemma framework_flag_off q : ~ wants_framework q -> negb (bs_empty (loadOrEmpty (d_attach q) MFrameworkService)) = false.
Proof. intro H. destruct (framework_flag q); [contradiction|assumption]. Qed.
Lemma framework_flag_on q : wants_framework q -> negb (bs_empty (loadOrEmpty (d_attach q) MFrameworkService)) = true.
Proof.
  intros (v & E & Hv). unfold loadOrEmpty. change MFrameworkService with (s2b "M_fws"). rewrite E. destruct v; [contradiction|reflexivity].
Qed.

Lemma dispatch_found {R} fw l key p (q : dreq) (run : callee -> hret R) : ~ wants_framework q ->
  aget bs_eqb l key = Some p ->
  snd (dispatch fw l key q run) = [Prov p] /\
  fst (dispatch fw l key q run) = match run (Prov p) with
                                  | HRes r => FromProvider r
                                  | _ => ExcAnswer (d_id q) (mkExc 500 (s2b "provider call panic") 1)
                                  end.
Proof.
  intros Hf Hg. unfold dispatch. rewrite (framework_flag_off Hf), Hg. cbn [fst snd]. split; [reflexivity|].
  destruct (run (Prov p)); reflexivity.
Qed.
Lemma dispatch_none {R} fw l key (q : dreq) (run : callee -> hret R) : ~ wants_framework q -> aget bs_eqb l key = None ->
  dispatch fw l key q run = (ExcAnswer (d_id q) (mkExc 404 (s2b "provider not exist serviceKey=" ++ key) 1), []).
Proof. intros Hf Hg. unfold dispatch. rewrite (framework_flag_off Hf), Hg. reflexivity. Qed.
Lemma dispatch_framework {R} fw l key (q : dreq) (run : callee -> hret R) : wants_framework q ->
  (In (d_service q) fw -> snd (dispatch fw l key q run) = [Framework (d_service q)]) /\
  (~ In (d_service q) fw -> dispatch fw l key q run = (ExcAnswer (d_id q) (mkExc 501 (s2b "service not support") 1), [])).
Proof.
  intros Hf. unfold dispatch. rewrite (framework_flag_on Hf).
  destruct (existsb (bs_eqb (d_service q)) fw) eqn:E.
  - split; [reflexivity|]. intro H. exfalso. apply H. apply (existsb_eqb_In bs_eqb bs_eqb_spec). exact E.
  - split; [|reflexivity]. intro H. exfalso. apply (existsb_eqb_In bs_eqb bs_eqb_spec) in H. rewrite E in H. discriminate H.
Qed.

(* ------------------------------------------------------------ exporting *)

Lemma param_putParam u kv k : param (putParam u kv) k = if bs_eqb k (fst kv) then Some (snd kv) else param u k.
Proof.
  unfold param, putParam, withParams. cbn [uParams]. destruct (uParams u) as [m|]; rewrite (aget_aset bs_eqb bs_eqb_spec); [reflexivity|].
  destruct (bs_eqb k (fst kv)); reflexivity.
Qed.

Lemma chosen_configured X u : chosenRegs X u = configured X (exportUrl X u).
Proof.
  unfold chosenRegs, configured. change RegistryKey with (s2b "registry"). unfold pget, param.
  destruct (uParams (exportUrl X u)) as [m|]; [|reflexivity]. destruct (aget bs_eqb m (s2b "registry")); [|reflexivity].
  rewrite trimSplit_spec by discriminate. reflexivity.
Qed.
Lemma export_nodeType X u : param (exportUrl X u) (s2b "nodeType") = Some (s2b "service").
Proof. unfold exportUrl. cbv zeta. rewrite param_putParam. reflexivity. Qed.

Definition xinv (e : exporter) (eps : list episode) (cur : option episode) : Prop :=
  Forall episode_ok eps /\
  e_log e = concat (map (fun x => opening x ++ closing x) eps) ++ match cur with Some x => opening x | None => [] end /\
  match cur with
  | Some x => e_exported e = true /\ episode_ok x /\ e_url e = Some (n_url x) /\ e_regs e = n_regs x
  | None => e_exported e = false
  end.

Lemma xstep_inv e eps cur o : xinv e eps cur -> exists eps' cur', xinv (xstep e o) eps' cur' /\
  match o with
  | OExport X => match cur with
                 | Some _ => eps' = eps /\ cur' = cur
                 | None => eps' = eps /\ (cur' = None -> e_prov e = None \/ exists u, e_prov e = Some u /\ configured X (exportUrl X u) = None) /\
                           (forall x, cur' = Some x -> n_env x = X /\ exists u, e_prov e = Some u /\ n_url x = exportUrl X u)
                 end
  | OUnexport => cur' = None /\ eps' = eps ++ match cur with Some x => [x] | None => [] end
  | _ => eps' = eps /\ cur' = cur
  end.
Proof.
  intros (H1 & H2 & H3). destruct o as [X| | |]; cbn [xstep].
  - unfold export. destruct cur as [x|].
    + destruct H3 as (H3 & H4). rewrite H3. exists eps, (Some x). split; [|auto]. split; [exact H1|]. split; [exact H2|]. split; [exact H3|exact H4].
    + rewrite H3. destruct (e_prov e) as [u|] eqn:Ep.
      * rewrite chosen_configured. destruct (configured X (exportUrl X u)) as [rs|] eqn:Ec.
        -- exists eps, (Some (mkEpis X (exportUrl X u) rs)). split.
           ++ split; [exact H1|]. cbn [fst e_log e_exported e_url e_regs]. rewrite H2, app_nil_r. split; [reflexivity|].
              split; [reflexivity|]. split; [split; [exact Ec|apply export_nodeType]|]. split; reflexivity.
           ++ split; [reflexivity|]. split; [discriminate|]. intros x E. injection E as <-. split; [reflexivity|]. eauto.
        -- exists eps, None. split.
           ++ split; [exact H1|]. split; [exact H2|]. reflexivity.
           ++ split; [reflexivity|]. split; [eauto|discriminate].
      * exists eps, None. split; [|split; [reflexivity|split; [auto|discriminate]]]. split; [exact H1|]. split; [exact H2|exact H3].
  - unfold unexport. destruct cur as [x|].
    + destruct H3 as (H3 & H4 & H5 & H6). rewrite H3, H5. exists (eps ++ [x]), None. split; [|auto]. split; [apply Forall_app; auto|].
      cbn [e_log e_exported]. split; [|reflexivity]. rewrite H2, H6, map_app, concat_app. cbn [map concat].
      rewrite !app_nil_r. rewrite <- !app_assoc. reflexivity.
    + rewrite H3. exists eps, None. rewrite app_nil_r. split; [|auto]. split; [exact H1|]. split; [exact H2|exact H3].
  - exists eps, cur. split; [|auto]. split; [exact H1|]. split; [exact H2|exact H3].
  - exists eps, cur. split; [|auto]. split; [exact H1|]. split; [exact H2|exact H3].
Qed.

Lemma xruns_inv p ops : exists eps cur, xinv (xruns (initExp p) ops) eps cur.
Proof.
  induction ops as [|o ops IH] using rev_ind.
  - exists [], None. split; [constructor|]. split; reflexivity.
  - destruct IH as (eps & cur & IH). unfold xruns. rewrite fold_left_app. cbn [fold_left].
    destruct (xstep_inv o IH) as (eps' & cur' & H & _). exists eps', cur'. exact H.
Qed.

Lemma regs_app r l1 l2 : regs_of r (l1 ++ l2) = regs_of r l1 + regs_of r l2.
Proof. induction l1 as [|[]]; cbn [app regs_of]; lia. Qed.
Lemma unregs_app r l1 l2 : unregs_of r (l1 ++ l2) = unregs_of r l1 + unregs_of r l2.
Proof. induction l1 as [|[]]; cbn [app unregs_of]; lia. Qed.
Lemma regs_opening r x : regs_of r (opening x) = countb (Nat.eqb r) (n_regs x) /\ unregs_of r (opening x) = 0.
Proof.
  unfold opening. induction (n_regs x) as [|a l [IH1 IH2]]; [auto|]. cbn [map regs_of unregs_of]. rewrite countb_cons, IH1. destruct (Nat.eqb r a); auto.
Qed.
Lemma regs_closing r x : unregs_of r (closing x) = countb (Nat.eqb r) (n_regs x) /\ regs_of r (closing x) = 0.
Proof.
  unfold closing. rewrite unregs_app, regs_app. cbn [regs_of unregs_of]. rewrite !Nat.add_0_r.
  induction (n_regs x) as [|a l [IH1 IH2]]; [auto|]. cbn [map regs_of unregs_of]. rewrite countb_cons, IH1. destruct (Nat.eqb r a); auto.
Qed.
Lemma xinv_balance e eps cur r : xinv e eps cur ->
  regs_of r (e_log e) = unregs_of r (e_log e) + match cur with Some x => countb (Nat.eqb r) (n_regs x) | None => 0 end.
Proof.
  intros (_ & -> & _). rewrite regs_app, unregs_app.
  assert (G : regs_of r (concat (map (fun x => opening x ++ closing x) eps)) = unregs_of r (concat (map (fun x => opening x ++ closing x) eps))).
  { induction eps as [|x eps IH]; [reflexivity|]. cbn [map concat]. rewrite !regs_app, !unregs_app, IH.
    destruct (regs_opening r x) as [-> ->], (regs_closing r x) as [-> ->]. lia. }
  rewrite G. destruct cur as [x|]; [destruct (regs_opening r x) as [-> ->]|cbn]; lia.
Qed.

Lemma fill_value m k k1 x : att_value (fillAttach m k k1) x = if bs_eqb x k then own_or m k k1 else att_value m x.
Proof.
  unfold fillAttach, own_or. change (loadOrEmpty m k) with (att_value m k). change (loadOrEmpty m k1) with (att_value m k1). destruct (bs_eqb x k) eqn:E.
  - apply bs_eqb_spec in E. subst x. destruct (att_value m k) as [|c v] eqn:V; cbn [bs_empty].
    + unfold att_value at 1. rewrite (aget_aset bs_eqb bs_eqb_spec), bs_eqb_refl. reflexivity.
    + exact V.
  - destruct (bs_empty (att_value m k)); [|reflexivity]. unfold att_value at 1. rewrite (aget_aset bs_eqb bs_eqb_spec), E. reflexivity.
Qed.
Lemma processV1_given A (c : scfg A) gunzip ip m q : decodeV1Request gunzip m = VOk q -> isV1HeartbeatReq q = false ->
  exists i, (forall h, processV1 c gunzip ip h m = processV1 c gunzip ip (fun _ => h i) m) /\ i_id i = vRid m /\ i_service i = rService q /\
    i_method i = rMethod q /\ i_desc i = rDesc q /\ i_orig i = m /\ forall k, att_value (i_attach i) k = motan1_seen (rAttach q) ip k.
Proof.
  intros D HB. eexists. split; [intro h; unfold processV1; rewrite D, HB; reflexivity|]. cbn [i_id i_service i_method i_desc i_orig i_attach]. repeat (split; [reflexivity|]).
  intro k. unfold att_value at 1. rewrite (aget_aset bs_eqb bs_eqb_spec). unfold motan1_seen. change (s2b "host") with HostKey.
  destruct (bs_eqb k HostKey); [reflexivity|]. fold (att_value (setV1Attachments (rAttach q)) k). unfold setV1Attachments.
  change (s2b "M_g") with MGroup. change (s2b "M_v") with MVersion. change (s2b "M_s") with MSource.
  rewrite fill_value. destruct (bs_eqb k MSource) eqn:E3.
  - apply bs_eqb_spec in E3. subst k. change (bs_eqb MSource MGroup) with false. change (bs_eqb MSource MVersion) with false. cbv iota.
    unfold own_or. rewrite !fill_value. reflexivity.
  - rewrite fill_value. destruct (bs_eqb k MVersion) eqn:E2.
    + apply bs_eqb_spec in E2. subst k. change (bs_eqb MVersion MGroup) with false. cbv iota. unfold own_or. rewrite !fill_value. reflexivity.
    + rewrite fill_value. reflexivity.
Qed.

Lemma requestGroup_asked q : requestGroup q = asked_group q.
Proof.
  unfold requestGroup, asked_group, loadOrEmpty. change MGroup with (s2b "M_g").
  destruct (aget bs_eqb (d_attach q) (s2b "M_g")) as [[|c g]|]; cbn [bs_empty]; try reflexivity;
  destruct (aget bs_eqb (d_attach q) (s2b "group")); reflexivity.
Qed.

Lemma closed_step2 {A} (c : scfg A) gunzip ip s o s' : cstep c gunzip ip s o = Some s' -> k_closed s = true -> k_closed s' = true /\ k_out s' = k_out s.
Proof.
  intros H K. destruct o; cbn [cstep] in H; rewrite ?K, ?orb_true_r in H; try discriminate H.
  - injection H as <-. auto.
  - destruct (nth_error (k_jobs s) i) as [[j []]|]; try discriminate H.
    destruct (jobFate c gunzip ip pt h2 h1 j); injection H as <-; auto.
  - destruct (nth_error (k_jobs s) i) as [[j []]|]; try discriminate H. injection H as <-. auto.
Qed.
Lemma lost_closed : forall A (c : scfg A) gunzip ip s i s1 ops s2,
  cstep c gunzip ip s (EndJobLost i) = Some s1 -> cruns c gunzip ip s1 ops = Some s2 -> k_closed s2 = true /\ k_out s2 = k_out s.
Proof.
  intros A c gunzip ip s i s1 ops s2 H R. assert (X : k_closed s1 = true /\ k_out s1 = k_out s).
  { cbn [cstep] in H. destruct (nth_error (k_jobs s) i) as [[j []]|]; try discriminate H. injection H as <-. auto. }
  clear H. revert s1 X R. induction ops as [|o ops IH]; intros s1 X R; cbn [cruns] in R; [injection R as <-; exact X|].
  destruct (cstep c gunzip ip s1 o) as [s3|] eqn:E; [|discriminate R]. destruct X as [X1 X2].
  pose proof (@closed_step2 A c gunzip ip s1 o s3) as Y. destruct (Y E X1) as [Y1 Y2]. clear Y. apply (IH s3); [|exact R]. split; congruence.
Qed.
