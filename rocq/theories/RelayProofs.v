(* RelayProofs.v: proofs about calls through the agent. *)
From Verif Require Import Base BytesModel BytesSpec BytesProofs Strconv GoStrings GoStrings2 ProtoModel ProtoSpec ProtoProofs
  ConvModel ConvSpec ConvProofs SimpleModel SimpleSpec SimpleProofs UrlModel UrlSpec V1Model V1Spec ServerModel ServerSpec ServerProofs ProvModel ProvSpec ProvProofs
  RelayModel RelaySpec.
From Verif Require AgentModel AgentSpec AgentProofs EpModel.
Ltac Zify.zify_post_hook ::= idtac.

Lemma load_aset m k v k' : loadOrEmpty (aset bs_eqb m k v) k' = if bs_eqb k' k then v else loadOrEmpty m k'.
Proof. unfold loadOrEmpty. rewrite (aget_aset bs_eqb bs_eqb_spec). destruct (bs_eqb k' k); reflexivity. Qed.

Lemma load_sent m k : NoDup (akeys (mMeta m)) -> loadOrEmpty (sent_meta m) k = sent_value k (loadOrEmpty (mMeta m) k).
Proof.
  intro H. unfold loadOrEmpty. rewrite sent_meta_get by exact H. unfold sent_value. destruct (aget bs_eqb (mMeta m) k) as [v|].
  - destruct (encodable (k, v)); reflexivity.
  - destruct (encodable _); reflexivity.
Qed.

Lemma sent_value_idem k v : sent_value k (sent_value k v) = sent_value k v.
Proof. unfold sent_value. destruct (encodable (k, v)) eqn:E; [rewrite E; reflexivity|]. match goal with |- context [if ?b then _ else _] => destruct b end; reflexivity. Qed.

Lemma sent_nodup m : NoDup (akeys (mMeta m)) -> NoDup (akeys (sent_meta m)).
Proof. intro H. unfold sent_meta, akeys. apply NoDup_map_filter. exact H. Qed.

(* the body, possibly compressed *)
Definition zbody (X : ConvModel.ext) (m : message) (b : bs) : Prop :=
  (IsGzip (mHeader m) = false /\ mBody m = b) \/ (IsGzip (mHeader m) = true /\ b <> [] /\ mBody m <> [] /\ x_ungz X (mBody m) = Some b).

(* a request message that calls a method of a service with some bytes as arguments *)
Record carries (X : ConvModel.ext) (m : message) (sid : N) (sv me b : bs) : Prop := mkCarries {
  ca_hb : IsHeartbeat (mHeader m) = false; ca_ver : GetVersion (mHeader m) = 1%N; ca_ser : GetSerialize (mHeader m) = 6%N;
  ca_id : hReqID (mHeader m) = sid; ca_nd : NoDup (akeys (mMeta m)); ca_body : zbody X m b;
  ca_sv : loadOrEmpty (sent_meta m) (s2b "M_p") = sv; ca_me : loadOrEmpty (sent_meta m) (s2b "M_m") = me }.

Lemma carries_read X m sid sv me b max : carries X m sid sv me b -> (sid < 2 ^ 64)%N -> sizes_ok max m ->
  readOne max (concat (getEncodedBytes None m)) = RGot (J2 (received m)) [].
Proof.
  intros [C1 C2 C3 C4 C5 C6 C7 C8] Hsid Hsz.
  assert (Hs : sendable max m).
  { destruct Hsz as (Z1 & Z2 & Z3). split; [rewrite C4; exact Hsid|]. split; [exact C2|]. split; [exact C5|repeat split; assumption]. }
  rewrite (encoded_frame Hsz). unfold readOne. pose proof (frame_length m) as L. destruct (Nat.ltb_spec (length (frame m)) 4); [lia|].
  pose proof (version_of_item (mkScfg (A:=unit) false false (mkExt (fun _ => None) (fun _ => None) (fun _ => []) (fun _ => None)) (fun _ => []) (fun _ => None) (fun _ => None) max) (S2 m) [] Hs) as Hv.
  cbn [item_bytes] in Hv. rewrite app_nil_r in Hv. rewrite Hv.
  change (N.eqb 1 0) with false. change (N.eqb 1 1) with true. cbv iota.
  pose proof (decode_frame max m [] Hs) as D. rewrite app_nil_r in D. rewrite D. reflexivity.
Qed.

(* what the receiver makes of it *)
Lemma carries_request X m sid sv me b (px : bool) ip : carries X m sid sv me b ->
  exists r, convertToRequest X true (mkMsg (SetProxy px (mHeader (received m))) (aset bs_eqb (mMeta (received m)) (s2b "host") ip) (mBody (received m))) = inl r /\
    rqID r = match aget bs_eqb (sent_meta m) (s2b "M_rid") with None => sid | Some s => toUnsigned 64 (fst (parseInt64 s)) end /\
    rqService r = sv /\ rqMethod r = me /\ rqBody r = match b with [] => None | _ => Some b end /\
    rqAttach r = (let a := aset bs_eqb (sent_meta m) (s2b "host") ip in
                  match aget bs_eqb (sent_meta m) (s2b "M_rid") with
                  | None => if px then aset bs_eqb a (s2b "M_rid") (fmtZ (toSigned 64 sid)) else a
                  | Some _ => a
                  end) /\
    mBody (rqOriginal r) = b /\ IsGzip (mHeader (rqOriginal r)) = false /\
    v_hb (view (mHeader (rqOriginal r))) = false /\ v_ver (view (mHeader (rqOriginal r))) = 1%N /\ v_ser (view (mHeader (rqOriginal r))) = 6%N.
Proof.
  intros [C1 C2 C3 C4 C5 C6 C7 C8]. unfold convertToRequest, received. cbn [mHeader mMeta mBody].
  pose proof (view_setproxy px (mHeader m)) as W. pose proof (f_equal v_gz W) as W1. pose proof (f_equal v_px W) as W2.
  pose proof (f_equal v_rid W) as W3. pose proof (f_equal v_hb W) as W4. pose proof (f_equal v_ver W) as W5. pose proof (f_equal v_ser W) as W6.
  cbn [v_gz v_px v_rid v_hb v_ver v_ser view spec_hop] in W1, W2, W3, W4, W5, W6.
  set (h := SetProxy px (mHeader m)) in *. rewrite W1, W2, W3, C4.
  rewrite (aget_aset bs_eqb bs_eqb_spec). change (bs_eqb MRequestID (s2b "host")) with false. cbv iota.
  change MRequestID with (s2b "M_rid").
  set (a := aset bs_eqb (sent_meta m) (s2b "host") ip).
  assert (LP : loadOrEmpty a (s2b "M_p") = sv) by (unfold a; rewrite load_aset; exact C7).
  assert (LM : loadOrEmpty a (s2b "M_m") = me) by (unfold a; rewrite load_aset; exact C8).
  change MPath with (s2b "M_p"). change MMethod with (s2b "M_m").
  assert (LR : forall k v, bs_eqb k (s2b "M_rid") = false -> loadOrEmpty (aset bs_eqb a (s2b "M_rid") v) k = loadOrEmpty a k).
  { intros k v E. rewrite load_aset, E. reflexivity. }
  assert (VG : forall x, v_hb (view (SetGzip x h)) = false /\ v_ver (view (SetGzip x h)) = 1%N /\ v_ser (view (SetGzip x h)) = 6%N).
  { intro x. rewrite view_setgzip. cbn. rewrite W4, W5, W6. auto. }
  assert (VH : v_hb (view h) = false /\ v_ver (view h) = 1%N /\ v_ser (view h) = 6%N) by (cbn; rewrite W4, W5, W6; auto).
  assert (GZ : IsGzip (SetGzip false h) = false) by (change (IsGzip (SetGzip false h)) with (v_gz (view (SetGzip false h))); rewrite view_setgzip; reflexivity).
  destruct (aget bs_eqb (sent_meta m) (s2b "M_rid")) as [s|] eqn:Er.
  - destruct C6 as [(G1 & G2)|(G1 & G2 & G3 & G4)]; rewrite G1.
    + destruct (Nat.ltb_spec 0 (length (mBody m))) as [L|L].
      * rewrite andb_false_r. eexists. split; [reflexivity|]. cbn [rqID rqService rqMethod rqBody rqAttach rqOriginal mBody mHeader].
        rewrite LP, LM, G2. split; [reflexivity|]. split; [reflexivity|]. split; [reflexivity|]. split; [destruct b; [rewrite G2 in L; cbn in L; lia|reflexivity]|].
        split; [reflexivity|]. split; [reflexivity|]. split; [congruence|]. exact VH.
      * eexists. split; [reflexivity|]. cbn [rqID rqService rqMethod rqBody rqAttach rqOriginal mBody mHeader].
        rewrite LP, LM, G2. split; [reflexivity|]. split; [reflexivity|]. split; [reflexivity|]. split; [destruct b; [reflexivity|rewrite G2 in L; cbn in L; lia]|].
        split; [reflexivity|]. split; [reflexivity|]. split; [congruence|]. exact VH.
    + destruct (Nat.ltb_spec 0 (length (mBody m))) as [L|L]; [|destruct (mBody m); [contradiction|cbn in L; lia]].
      rewrite andb_false_r. eexists. split; [reflexivity|]. cbn [rqID rqService rqMethod rqBody rqAttach rqOriginal mBody mHeader].
      rewrite (decodeGzipBody_ok _ _ _ G3 G4), LP, LM. split; [reflexivity|]. split; [reflexivity|]. split; [reflexivity|]. split; [destruct b; [contradiction|reflexivity]|].
      split; [reflexivity|]. split; [reflexivity|]. split; [exact GZ|]. apply VG.
  - set (a2 := if px then aset bs_eqb a (s2b "M_rid") (fmtZ (toSigned 64 sid)) else a).
    assert (LP2 : loadOrEmpty a2 (s2b "M_p") = sv) by (unfold a2; destruct px; [rewrite LR by reflexivity|]; exact LP).
    assert (LM2 : loadOrEmpty a2 (s2b "M_m") = me) by (unfold a2; destruct px; [rewrite LR by reflexivity|]; exact LM).
    destruct C6 as [(G1 & G2)|(G1 & G2 & G3 & G4)]; rewrite G1.
    + destruct (Nat.ltb_spec 0 (length (mBody m))) as [L|L].
      * rewrite andb_false_r. eexists. split; [reflexivity|]. cbn [rqID rqService rqMethod rqBody rqAttach rqOriginal mBody mHeader].
        rewrite LP2, LM2, G2. split; [reflexivity|]. split; [reflexivity|]. split; [reflexivity|]. split; [destruct b; [rewrite G2 in L; cbn in L; lia|reflexivity]|].
        split; [reflexivity|]. split; [reflexivity|]. split; [congruence|]. exact VH.
      * eexists. split; [reflexivity|]. cbn [rqID rqService rqMethod rqBody rqAttach rqOriginal mBody mHeader].
        rewrite LP2, LM2, G2. split; [reflexivity|]. split; [reflexivity|]. split; [reflexivity|]. split; [destruct b; [reflexivity|rewrite G2 in L; cbn in L; lia]|].
        split; [reflexivity|]. split; [reflexivity|]. split; [congruence|]. exact VH.
    + destruct (Nat.ltb_spec 0 (length (mBody m))) as [L|L]; [|destruct (mBody m); [contradiction|cbn in L; lia]].
      rewrite andb_false_r. eexists. split; [reflexivity|]. cbn [rqID rqService rqMethod rqBody rqAttach rqOriginal mBody mHeader].
      rewrite (decodeGzipBody_ok _ _ _ G3 G4), LP2, LM2. split; [reflexivity|]. split; [reflexivity|]. split; [reflexivity|]. split; [destruct b; [contradiction|reflexivity]|].
      split; [reflexivity|]. split; [reflexivity|]. split; [exact GZ|]. apply VG.
Qed.

(* ------------------------------------------------------------ the client's message *)

Lemma one_line_sent k v : one_line k -> k <> [] -> one_line v -> sent_value k v = v.
Proof.
  intros Hk Nk Hv. unfold sent_value, encodable. cbn [fst snd]. destruct k as [|k0 k]; [contradiction|]. destruct v as [|v0 v].
  - cbn. reflexivity.
  - cbn [bs_empty negb andb].
    rewrite (proj2 (bs_has_false newline (k0 :: k)) Hk), (proj2 (bs_has_false newline (v0 :: v)) Hv). reflexivity.
Qed.

Lemma no_newline_lit (k : bs) : forallb (fun c => negb (byte_eqb c newline)) k = true -> one_line k.
Proof. intros H J. rewrite forallb_forall in H. specialize (H _ J). vm_compute in H. discriminate H. Qed.

Lemma request_carries (c : gclient) sid q : ordinary q -> args_ok (qArgs q) -> gzip_lossless (c_ext c) ->
  exists m, sendRequest c sid q = inl m /\ carries (c_ext c) m sid (qService q) (qMethod q) (concat (map wire (qArgs q))) /\
    aget bs_eqb (sent_meta m) (s2b "M_rid") = None /\ mMeta m = req_meta q.
Proof.
  intros (O1 & O2 & O3 & O4 & O5 & O6) Ha Hg. unfold sendRequest. cbv zeta.
  set (x := mkCtx _ _ _ _ _ _). set (q' := mkReq _ _ _ _ _ _ _ x). set (asB := fun v : value => _).
  assert (Hm : exists m0, convertToReqMessage (c_ext c) asB (Some simpleSer) q' = inl m0).
  { unfold convertToReqMessage. cbv zeta. subst q' x. cbn [qCtx cProxy cSerialized cSerNum qArgs]. rewrite O1.
    cbn [simpleSer s_num s_multi]. pose proof (serializeMulti_args _ Ha) as E.
    destruct (qArgs q); [eexists; reflexivity|]. rewrite E. eexists; reflexivity. }
  destruct Hm as [m0 Hm]. rewrite Hm.
  pose proof (convReq_id _ _ _ q' m0 sid eq_refl Hm) as Hc. set (q2 := qWithID q' sid) in Hc. set (m := withID m0 sid) in *.
  exists m. split; [reflexivity|].
  destruct (convertToReqMessage_inv (c_ext c) asB (Some simpleSer) q2 m Hg ltac:(discriminate) Hc) as (b & n & HA & HN & HM & HI & HB).
  assert (En : n = 6%Z).
  { destruct HN as [(B & _)|(_ & s & B & ->)]; [cbn in B; rewrite O1 in B; discriminate B|injection B as <-; reflexivity]. }
  subst n. assert (Hr : (0 <= 6 <= 31)%Z) by lia.
  assert (Eb : b = concat (map wire (qArgs q))).
  { destruct HA as [(A1 & ->)|[(A1 & _ & s & A2 & A3)|(A1 & _)]].
    - cbn in A1. rewrite A1. reflexivity.
    - injection A2 as <-. cbn [simpleSer s_multi] in A3. change (qArgs q2) with (qArgs q) in *. rewrite (serializeMulti_args _ Ha) in A3.
      injection A3 as <-. reflexivity.
    - cbn in A1. rewrite O1 in A1. discriminate A1. }
  assert (HM' : mMeta m = req_meta q) by exact HM.
  assert (HV : exists gz, view (mHeader m) = mkView false gz (cOneway (qCtx q2)) false true 1 0 6 sid /\ zbody (c_ext c) m b).
  { destruct HB as [(B & V)|(B1 & B2 & B3 & V)]; rewrite (V Hr); [exists false|exists true]; (split; [reflexivity|]); pose proof (f_equal v_gz (V Hr)) as G; cbn in G; [left|right]; auto. }
  destruct HV as (gz & HV & ZB).
  assert (ND : NoDup (akeys (mMeta m))) by (rewrite HM'; apply req_meta_nodup; exact O2).
  assert (LD : forall k, bs_eqb k (s2b "M_md") = false -> loadOrEmpty (req_meta q) k = loadOrEmpty (let a2 := aset bs_eqb (aset bs_eqb (qAttach q) (s2b "M_p") (qService q)) (s2b "M_m") (qMethod q) in
     if bs_empty (loadOrEmpty a2 (s2b "M_pp")) then aset bs_eqb a2 (s2b "M_pp") (s2b "motan2") else a2) k).
  { intros k _. unfold req_meta. rewrite O5. reflexivity. }
  split; [|split; [|exact HM']].
  - constructor.
    + exact (f_equal v_hb HV).
    + exact (f_equal v_ver HV).
    + exact (f_equal v_ser HV).
    + exact HI.
    + exact ND.
    + rewrite <- Eb. exact ZB.
    + rewrite load_sent by exact ND. rewrite HM', LD by reflexivity. cbv zeta.
      match goal with |- sent_value _ ?t = _ => assert (E : t = qService q) end.
      { destruct (bs_empty _); rewrite ?load_aset; reflexivity. }
      rewrite E. apply one_line_sent; [apply no_newline_lit; reflexivity|discriminate|exact O3].
    + rewrite load_sent by exact ND. rewrite HM', LD by reflexivity. cbv zeta.
      match goal with |- sent_value _ ?t = _ => assert (E : t = qMethod q) end.
      { destruct (bs_empty _); rewrite ?load_aset; reflexivity. }
      rewrite E. apply one_line_sent; [apply no_newline_lit; reflexivity|discriminate|exact O4].
  - rewrite sent_meta_get by exact ND. rewrite HM'. unfold req_meta. rewrite O5. cbn [bs_empty].
    match goal with |- match aget _ ?t _ with _ => _ end = _ => assert (E : aget bs_eqb t (s2b "M_rid") = aget bs_eqb (qAttach q) (s2b "M_rid")) end.
    { destruct (bs_empty (loadOrEmpty _ MProxyProtocol)); rewrite ?(aget_aset bs_eqb bs_eqb_spec); reflexivity. }
    rewrite E, O6 by (left; reflexivity). reflexivity.
Qed.

Lemma req_meta_other (q : mrequest value) k : qDesc q = [] -> ~ In k [s2b "M_p"; s2b "M_m"; s2b "M_pp"] -> loadOrEmpty (req_meta q) k = loadOrEmpty (qAttach q) k.
Proof.
  intros D N. unfold req_meta. rewrite D. cbn [bs_empty].
  assert (E : forall x, In x [s2b "M_p"; s2b "M_m"; s2b "M_pp"] -> bs_eqb k x = false).
  { intros x J. apply bs_eqb_neq. intros ->. contradiction. }
  change MPath with (s2b "M_p"). change MMethod with (s2b "M_m"). change MProxyProtocol with (s2b "M_pp").
  destruct (bs_empty (loadOrEmpty _ (s2b "M_pp"))); rewrite !load_aset, !E by (cbn; auto); reflexivity.
Qed.

(* ------------------------------------------------------------ the message the agent sends on *)

Lemma fit_load u a k : k <> s2b "M_g" -> loadOrEmpty (EpModel.fitGroup u false a) k = loadOrEmpty a k.
Proof.
  intro H. unfold EpModel.fitGroup. destruct (negb _ && negb _); [|reflexivity]. rewrite load_aset. change EpModel.MGroup with (s2b "M_g").
  rewrite (proj2 (bs_eqb_neq _ _) H). reflexivity.
Qed.
Lemma fit_nodup u a : NoDup (akeys a) -> NoDup (akeys (EpModel.fitGroup u false a)).
Proof. intro H. unfold EpModel.fitGroup. destruct (negb _ && negb _); [apply NoDup_aset; [exact bs_eqb_spec|exact H]|exact H]. Qed.
Lemma fill_load u a k : k <> s2b "M_s" -> k <> s2b "M_g" -> loadOrEmpty (AgentModel.fillDefault false u a) k = loadOrEmpty a k.
Proof. intros H1 H2. apply (AgentProofs.fill_others false u a k). intros [E|[E|[]]]; [apply H1|apply H2]; symmetry; exact E. Qed.
Lemma fill_nodup u a : NoDup (akeys a) -> NoDup (akeys (AgentModel.fillDefault false u a)).
Proof.
  intro H. unfold AgentModel.fillDefault, AgentModel.fillGroup, AgentModel.fillSource, AgentModel.setAtt.
  assert (N : forall (x : list (bs * bs)) k v, NoDup (akeys x) -> NoDup (akeys (aset bs_eqb x k v))) by (intros; apply NoDup_aset; [exact bs_eqb_spec|assumption]).
  repeat match goal with |- context [match ?t with [] => _ | _ => _ end] => destruct t end; auto.
Qed.

Lemma agent_message ag k sid2 rq sv me b : gzip_lossless (s_ext (ag_cfg ag)) ->
  mBody (rqOriginal rq) = b -> IsGzip (mHeader (rqOriginal rq)) = false ->
  v_hb (view (mHeader (rqOriginal rq))) = false -> v_ver (view (mHeader (rqOriginal rq))) = 1%N -> v_ser (view (mHeader (rqOriginal rq))) = 6%N ->
  NoDup (akeys (rqAttach rq)) -> rqService rq = sv -> rqMethod rq = me ->
  sent_value (s2b "M_p") (loadOrEmpty (rqAttach rq) (s2b "M_p")) = sv -> sent_value (s2b "M_m") (loadOrEmpty (rqAttach rq) (s2b "M_m")) = me ->
  exists m2, agentMessage ag k sid2 rq = inl m2 /\ carries (s_ext (ag_cfg ag)) m2 sid2 sv me b /\
    (forall key, loadOrEmpty (mMeta m2) key = loadOrEmpty (EpModel.fitGroup (ag_ep ag k) false (AgentModel.fillDefault false (ag_ref ag k) (rqAttach rq))) key) /\
    (forall key, ~ In key [s2b "M_g"; s2b "M_s"] -> loadOrEmpty (mMeta m2) key = loadOrEmpty (rqAttach rq) key).
Proof.
  intros HX B1 B2 V1 V2 V3 ND Hsv Hme Lsv Lme. unfold agentMessage. cbv zeta.
  set (a := EpModel.fitGroup _ _ _). unfold convertToReqMessage. cbn [qCtx cProxy cOriginal cGzipSize qAttach]. cbn [mHeader mMeta mBody].
  set (m1 := mkMsg (SetProxy true (mHeader (rqOriginal rq))) (aset bs_eqb a MGroup (loadOrEmpty a MGroup)) (mBody (rqOriginal rq))).
  pose proof (view_setproxy true (mHeader (rqOriginal rq))) as W.
  assert (G1 : IsGzip (mHeader m1) = false).
  { change (IsGzip (mHeader m1)) with (v_gz (view (mHeader m1))). unfold m1. cbn [mHeader]. rewrite W. exact B2. }
  eexists. split; [reflexivity|].
  destruct (gzip_cases _ m1 (ag_gzip ag k) HX G1) as [M E].
  set (m2 := encodeMessageGzip _ m1 _) in *.
  assert (NDa : NoDup (akeys a)) by (apply fit_nodup, fill_nodup; exact ND).
  assert (ND2 : NoDup (akeys (mMeta (withID m2 sid2)))) by (cbn [withID mMeta]; rewrite M; apply NoDup_aset; [exact bs_eqb_spec|exact NDa]).
  assert (L2 : forall key, loadOrEmpty (mMeta (withID m2 sid2)) key = loadOrEmpty a key).
  { intro key. cbn [withID mMeta]. rewrite M. unfold m1. cbn [mMeta]. rewrite load_aset. destruct (bs_eqb key MGroup) eqn:E1; [|reflexivity].
    apply bs_eqb_spec in E1. rewrite E1. reflexivity. }
  assert (La : forall key, ~ In key [s2b "M_g"; s2b "M_s"] -> loadOrEmpty a key = loadOrEmpty (rqAttach rq) key).
  { intros key J. unfold a. rewrite fit_load by (intros ->; apply J; cbn; auto). apply fill_load; intros ->; apply J; cbn; auto. }
  assert (VV : v_hb (view (mHeader m2)) = false /\ v_ver (view (mHeader m2)) = 1%N /\ v_ser (view (mHeader m2)) = 6%N).
  { destruct E as [->|(V & _)]; [unfold m1; cbn [mHeader]|rewrite V; unfold m1; cbn [mHeader]]; rewrite W; cbn; auto. }
  destruct VV as (VV1 & VV2 & VV3).
  split; [|split; [exact L2|intros key J; rewrite L2; apply La; exact J]].
  constructor.
  - exact VV1.
  - exact VV2.
  - exact VV3.
  - reflexivity.
  - exact ND2.
  - unfold zbody. change (IsGzip (mHeader (withID m2 sid2))) with (IsGzip (mHeader m2)). change (mBody (withID m2 sid2)) with (mBody m2).
    destruct E as [->|(V & N1 & N2 & U)]; [left; split; [exact G1|exact B1]|right].
    split; [exact (f_equal v_gz V)|]. unfold m1 in N1, U. cbn [mBody] in N1, U. rewrite B1 in N1, U. auto.
  - rewrite load_sent, L2, La by (try exact ND2; cbn; intuition discriminate). exact Lsv.
  - rewrite load_sent, L2, La by (try exact ND2; cbn; intuition discriminate). exact Lme.
Qed.

(* ------------------------------------------------------------ what is decoded *)

Definition clean_meta (l : list (bs * bs)) : Prop := NoDup (akeys l) /\ forall k v, aget bs_eqb l k = Some v -> one_line v.

Lemma clean_aset l k v : clean_meta l -> one_line v -> clean_meta (aset bs_eqb l k v).
Proof.
  intros [H1 H2] Hv. split; [apply NoDup_aset; [exact bs_eqb_spec|exact H1]|]. intros k' v'. rewrite (aget_aset bs_eqb bs_eqb_spec).
  destruct (bs_eqb k' k); [intro E; injection E as <-; exact Hv|apply H2].
Qed.

Lemma scan_clean p : forall seg k m k' m', one_line seg -> clean_meta m -> scanMeta p seg k m = (k', m') -> clean_meta m'.
Proof.
  induction p as [|c p IH]; intros seg k m k' m' Hs Hm; cbn [scanMeta].
  - unfold emitSeg. destruct (bs_empty k); intro E; injection E as <- <-; [exact Hm|apply clean_aset; assumption].
  - destruct (byte_eqb c newline) eqn:E.
    + unfold emitSeg. destruct (bs_empty k); apply IH; try (intros []); try assumption. apply clean_aset; assumption.
    + apply IH; [|exact Hm]. intro J. apply in_app_iff in J as [J|[J|[]]]; [exact (Hs J)|]. subst c. vm_compute in E. discriminate E.
Qed.

Lemma decode_shape max s m r : decodeMsg max s = DecOk m r -> GetVersion (mHeader m) = 1%N /\ clean_meta (mMeta m).
Proof.
  intro H. split; [apply (decode_accepts _ _ _ _ H)|]. unfold decodeMsg in H.
  destruct (readN 13 s) as [[hd|] s1]; [|discriminate]. destruct (negb _); [discriminate|]. cbv zeta in H. destruct (negb _); [discriminate|].
  destruct (readN 4 s1) as [[ms|] s2]; [|discriminate]. destruct (max <? _)%N; [discriminate|].
  assert (C0 : clean_meta []) by (split; [constructor|intros k v E; discriminate E]).
  destruct (0 <? getUint BigE ms)%N.
  - destruct (readN (getUint BigE ms) s2) as [[mb|] s3]; [|discriminate]. destruct (scanMeta mb [] [] []) as [k mt] eqn:Es.
    destruct (bs_empty k); [|discriminate]. destruct (readN 4 s3) as [[bz|] s4]; [|discriminate]. destruct (max <? _)%N; [discriminate|].
    destruct (readN _ s4) as [[body|] s5]; [|discriminate]. injection H as <- _. cbn [mMeta]. eapply scan_clean; [|exact C0|exact Es]. intros [].
  - destruct (readN 4 s2) as [[bz|] s4]; [|discriminate]. destruct (max <? _)%N; [discriminate|].
    destruct (readN _ s4) as [[body|] s5]; [|discriminate]. injection H as <- _. exact C0.
Qed.

(* ------------------------------------------------------------ reading an answer *)

Definition reading (c : gclient) (reply : target) (s : rresponse) : outcome :=
  match rpExc s with
  | Some e => Error (eMsg e)
  | None => match rpBody s with
            | None => Value VNull None
            | Some b => match fst (deserialize b reply) with
                        | DOk v => Value v (assigned reply v)
                        | DErr e => Error (c_etext c e)
                        | DPanic | DFuel => Lost
                        end
            end
  end.
Lemma readAnswer_of c rid reply b m r s : decodeMsg (c_max c) b = DecOk m r -> convertToResponse (c_ext c) true m = inl s ->
  readAnswer c rid reply b = reading c reply s.
Proof. intros H1 H2. unfold readAnswer. rewrite H1. cbv zeta. rewrite readAnswer_ext, H2. reflexivity. Qed.

Lemma received_bytes max m : (hReqID (mHeader m) < 2 ^ 64)%N -> GetVersion (mHeader m) = 1%N -> NoDup (akeys (mMeta m)) -> sizes_ok max m ->
  decodeMsg max (concat (getEncodedBytes None m)) = DecOk (received m) [].
Proof.
  intros H1 H2 H3 H4. rewrite (encoded_frame H4). rewrite <- (app_nil_r (frame m)). apply decode_frame. destruct H4 as (Z1 & Z2 & Z3). repeat split; assumption.
Qed.

(* what the client reads when the agent answers with the message that came back *)
Lemma relayed_answer (c : gclient) (ag : gagent) rid pt addr b r s reply qid w ser :
  s_ext (ag_cfg ag) = c_ext c -> decodeMsg (ag_max ag) b = DecOk r [] -> convertToResponse (c_ext c) true r = inl s -> rpBody s <> Some [] ->
  (rid < 2 ^ 64)%N ->
  convertToResMessage (c_ext c) (s_asBytes (ag_cfg ag)) ser (fillRes true pt (agentResponse (c_ext c) rid pt addr r)) = inl w ->
  sizes_ok (c_max c) (withID w rid) ->
  readAnswer c qid reply (concat (getEncodedBytes None (withID w rid))) = reading c reply s.
Proof.
  intros Hx Hd Hs Hb Hr Hw Hsz. destruct (decode_shape _ _ _ _ Hd) as (Vr & NDr & CLr).
  unfold agentResponse in Hw. cbv zeta in Hw.
  set (m := withID (mkMsg (SetProxy true (mHeader r)) (mMeta r) (mBody r)) rid) in Hw.
  pose proof (view_setproxy true (mHeader r)) as W.
  assert (M1 : GetStatus (mHeader m) = GetStatus (mHeader r)) by exact (f_equal v_st W).
  assert (M2 : IsGzip (mHeader m) = IsGzip (mHeader r)) by exact (f_equal v_gz W).
  assert (M3 : GetVersion (mHeader m) = 1%N) by (etransitivity; [exact (f_equal v_ver W)|exact Vr]).
  assert (M4 : IsProxy (mHeader m) = true) by exact (f_equal v_px W).
  assert (Cm : exists s', convertToResponse (c_ext c) true m = inl s' /\ rpExc s' = rpExc s).
  { revert Hs. unfold convertToResponse. cbv zeta. rewrite M1, M2. change (mMeta m) with (mMeta r). change (mBody m) with (mBody r). rewrite M4. cbn [negb andb].
    rewrite andb_false_r.
    destruct (N.eqb (GetStatus (mHeader r)) 0 && (0 <? length (mBody r)));
    (destruct (N.eqb (GetStatus (mHeader r)) 1); [destruct (bs_empty _); [|destruct (x_ofJSON _ _); [|discriminate]]|]; intro E; injection E as <-; eexists; split; reflexivity). }
  destruct Cm as (s' & Cm & Ce). rewrite Cm in Hw.
  unfold convertToResMessage, fillRes in Hw. cbn [pCtx cProxy cOriginal] in Hw. injection Hw as <-. cbn [mHeader mMeta mBody].
  set (o := afterConversion (c_ext c) m) in *.
  assert (Ho : GetVersion (mHeader o) = 1%N /\ GetStatus (mHeader o) = GetStatus (mHeader r) /\ mMeta o = mMeta r).
  { unfold o, afterConversion. destruct (_ && _ && _); cbn [mHeader mMeta]; [|auto].
    pose proof (view_setgzip false (mHeader m)) as W2. pose proof (f_equal v_ver W2) as W3. pose proof (f_equal v_st W2) as W4. cbn [v_ver v_st view spec_hop] in W3, W4. rewrite W3, W4. auto. }
  destruct Ho as (O1 & O2 & O3).
  assert (ST : forall a : list (bs * bs), NoDup (akeys a) -> NoDup (akeys (stored pt addr a)) /\ loadOrEmpty (stored pt addr a) (s2b "M_e") = loadOrEmpty a (s2b "M_e")).
  { intros a H. unfold stored. cbv zeta.
    assert (N1 : NoDup (akeys (if bs_empty addr then a else aset bs_eqb a (s2b "x-forwarded-for") addr)) /\
                 loadOrEmpty (if bs_empty addr then a else aset bs_eqb a (s2b "x-forwarded-for") addr) (s2b "M_e") = loadOrEmpty a (s2b "M_e")).
    { destruct (bs_empty addr); [auto|]. split; [apply NoDup_aset; [exact bs_eqb_spec|exact H]|rewrite load_aset; reflexivity]. }
    destruct (bs_empty (loadOrEmpty _ MProcessTime)); [|exact N1]. destruct N1 as [N1 N2]. split; [apply NoDup_aset; [exact bs_eqb_spec|exact N1]|].
    rewrite load_aset. exact N2. }
  destruct (ST (mMeta o)) as [ST1 ST2]; [rewrite O3; exact NDr|].
  set (w := withID (mkMsg (SetProxy true (mHeader o)) (stored pt addr (mMeta o)) (mBody o)) rid) in *.
  pose proof (view_setproxy true (mHeader o)) as Wo.
  assert (D : decodeMsg (c_max c) (concat (getEncodedBytes None w)) = DecOk (received w) []).
  { apply received_bytes; [exact Hr| |exact ST1|exact Hsz]. etransitivity; [exact (f_equal v_ver Wo)|exact O1]. }
  assert (Hst : GetStatus (mHeader w) = GetStatus (mHeader r)) by (etransitivity; [exact (f_equal v_st Wo)|exact O2]).
  assert (Hgz : IsGzip (mHeader w) = IsGzip (mHeader o)) by exact (f_equal v_gz Wo).
  assert (He : loadOrEmpty (sent_meta w) (s2b "M_e") = loadOrEmpty (mMeta r) (s2b "M_e")).
  { rewrite load_sent by exact ST1. change (mMeta w) with (stored pt addr (mMeta o)). rewrite ST2, O3. apply one_line_sent; [apply no_newline_lit; reflexivity|discriminate|].
    unfold loadOrEmpty. destruct (aget bs_eqb (mMeta r) (s2b "M_e")) as [v|] eqn:E; [exact (CLr _ _ E)|intros []]. }
  assert (Cw : exists s2, convertToResponse (c_ext c) true (received w) = inl s2 /\ rpExc s2 = rpExc s /\ rpBody s2 = rpBody s).
  { revert Hs Hb. unfold convertToResponse. cbv zeta. unfold received. cbn [mHeader mMeta mBody]. rewrite Hst, Hgz. change MException with (s2b "M_e"). rewrite He, !andb_false_r.
    change (mBody w) with (mBody o). unfold o, afterConversion. rewrite M1, M2. change (mBody m) with (mBody r).
    assert (GF : IsGzip (SetGzip false (mHeader m)) = false) by exact (f_equal v_gz (view_setgzip false (mHeader m))).
    destruct (N.eqb (GetStatus (mHeader r)) 0) eqn:E0; cbn [andb].
    - apply N.eqb_eq in E0. rewrite E0. change (N.eqb 0 1) with false. cbv iota.
      destruct (0 <? length (mBody r)) eqn:El; cbn [andb].
      + destruct (IsGzip (mHeader r)) eqn:Eg; cbn [andb mHeader mBody]; intros E Hb; injection E as <-; cbn [rpExc rpBody] in *.
        * rewrite GF. destruct (decodeGzipBody (c_ext c) (mBody r)) as [|b0 bb] eqn:Ed; [contradiction Hb; reflexivity|].
          eexists. split; [reflexivity|]. split; reflexivity.
        * rewrite M2, ?Eg. change (mBody m) with (mBody r). rewrite El. eexists. split; [reflexivity|]. split; reflexivity.
      + intros E _. injection E as <-. change (mBody m) with (mBody r). rewrite El. eexists. split; [reflexivity|]. split; reflexivity.
    - destruct (N.eqb (GetStatus (mHeader r)) 1); [destruct (bs_empty _); [|destruct (x_ofJSON _ _); [|discriminate]]|]; intros E _; injection E as <-; eexists; (split; [reflexivity|]); split; reflexivity. }
  destruct Cw as (s2 & C1 & C2 & C3). rewrite (readAnswer_of c qid reply _ _ _ _ D C1). unfold reading. rewrite C2, C3. reflexivity.
Qed.

(* ------------------------------------------------------------ the agent's server *)

Lemma convReq_proxy X hs m : IsProxy (mHeader m) = true -> convertToRequest X hs m = convertToRequest X true m.
Proof. intro H. unfold convertToRequest. rewrite H. reflexivity. Qed.

Lemma agent_process (c : gclient) ag ip pt h m rq p w sid : is_agent c ag -> IsHeartbeat (mHeader m) = false -> hReqID (mHeader m) = sid ->
  at_agent ag ip m = inl rq -> h rq = HRes p ->
  (forall ser, convertToResMessage (c_ext c) (s_asBytes (ag_cfg ag)) ser (fillRes true pt p) = inl w) ->
  processV2 (ag_cfg ag) ip pt h (received m) = Write (withID w sid).
Proof.
  intros (Hp & Hx) Hb Hid Hq Hh Hw. unfold processV2. cbv zeta. cbn [mHeader mMeta mBody received]. rewrite Hp.
  destruct (setproxy_fields true (mHeader m)) as (F1 & F2 & F3). rewrite F1, F2, F3, Hb, Hid. change HostKey with (s2b "host").
  rewrite convReq_proxy by exact (f_equal v_px (view_setproxy true (mHeader m))).
  unfold at_agent in Hq. cbn [mHeader mMeta mBody received] in Hq. rewrite Hq, Hh, Hx, Hw. reflexivity.
Qed.

(* an exception of the agent's own *)
Lemma agent_exception (c : gclient) ag reply qid sid (p : mresponse value) e pt w : is_agent c ag -> gzip_lossless (c_ext c) -> (sid < 2 ^ 64)%N ->
  pExc p = Some e -> pValue p = None -> NoDup (akeys (pAttach p)) -> pCtx p = ctx0 -> json_lossless (c_ext c) e ->
  (forall ser, convertToResMessage (c_ext c) (s_asBytes (ag_cfg ag)) ser (fillRes true pt p) = inl w) -> sizes_ok (c_max c) (withID w sid) ->
  readAnswer c qid reply (concat (getEncodedBytes None (withID w sid))) = Error (eMsg e).
Proof.
  intros (Hp & Hx) Hg Hsid He Hv Hn Hc Hj Hw Hsz.
  set (p1 := pWithID (fillRes true pt p) sid).
  assert (Hw1 : convertToResMessage (c_ext c) (s_asBytes (ag_cfg ag)) (Some simpleSer) p1 = inl (withID w sid)).
  { apply (convRes_id (c_ext c) (s_asBytes (ag_cfg ag)) (Some simpleSer) (fillRes true pt p) sid); [left; unfold fillRes; cbn [pCtx cOriginal]; rewrite Hc; reflexivity|apply Hw]. }
  destruct (read_response c qid reply p1 simpleSer (withID w sid) (s_asBytes (ag_cfg ag)) Hg) as (s & R1 & R2 & _).
  - intros e' E. change (pExc p1) with (pExc p) in E. rewrite He in E. injection E as <-. exact Hj.
  - intros _. unfold p1, fillRes. cbn [pWithID pCtx cOriginal]. rewrite Hc. reflexivity.
  - unfold p1, fillRes. cbn [pWithID pAttach]. destruct (bs_empty _); [apply NoDup_aset; [exact bs_eqb_spec|exact Hn]|exact Hn].
  - exact Hsid.
  - cbn. lia.
  - unfold p1, fillRes. cbn [pWithID pCtx cSerNum]. rewrite Hc. cbn. lia.
  - exact Hsz.
  - exact Hw1.
  - rewrite R1, R2. change (pExc p1) with (pExc p). rewrite He. reflexivity.
Qed.
Lemma exception_converts X asB pt (p : mresponse value) e : pExc p = Some e -> pValue p = None -> pCtx p = ctx0 ->
  exists w, forall ser : option (serialization value), convertToResMessage X asB ser (fillRes true pt p) = inl w.
Proof.
  intros He Hv Hc. unfold convertToResMessage, fillRes. cbv zeta. cbn [pCtx cProxy cOriginal pExc pValue pAttach pID cSerialized cSerNum cGzipSize].
  rewrite Hc, He, Hv. cbn [ctx0 cOriginal cSerialized cSerNum orb]. eexists. intros _. reflexivity.
Qed.

Lemma relayed_converts X asB pt pt' rid addr r :
  exists w, forall ser : option (serialization value), convertToResMessage X asB ser (fillRes true pt (agentResponse X rid pt' addr r)) = inl w.
Proof.
  unfold agentResponse. cbv zeta. set (cv := convertToResponse _ _ _). destruct cv as [s|e].
  - unfold convertToResMessage, fillRes. cbv zeta. cbn [pCtx cProxy cOriginal]. eexists. intros _. reflexivity.
  - eapply exception_converts; reflexivity.
Qed.

(* ------------------------------------------------------------ the server behind the agent *)

Lemma server_answers (c : gclient) (g : gserver) ip pt m sid sv me args reply p :
  plain_server c g -> carries (c_ext c) m sid sv me (concat (map wire args)) -> (sid < 2 ^ 64)%N -> loadOrEmpty (mMeta m) (s2b "M_fws") = [] ->
  args_ok args -> (forall r, processV2 (g_cfg g) ip pt (gHandler g) (received m) = Write r -> sizes_ok (c_max c) r) ->
  aget bs_eqb (g_table g) sv = Some p -> results_ok (g_impl g (v_id p)) args ->
  let r := spec_method (g_impl g (v_id p)) (firstUpper (g_uni g) me) me args reply (g_etext g (DBuf ErrEOF)) (s_errText (g_cfg g) CErrSerialize) in
  (forall e, r = Fails e -> json_lossless (c_ext c) e) ->
  exists w m' s, processV2 (g_cfg g) ip pt (gHandler g) (received m) = Write w /\ decodeMsg (c_max c) (concat (getEncodedBytes None w)) = DecOk m' [] /\
    convertToResponse (c_ext c) true m' = inl s /\ rpBody s <> Some [] /\ reading c reply s = seen reply r.
Proof.
  intros Hps Hc Hsid Hfw Ha Hsz Hp Hr. cbv zeta. intro Hj.
  destruct (carries_request _ _ _ _ _ _ false ip Hc) as (rq & T1 & T2 & T3 & T4 & T5 & T6 & _).
  assert (Tf : ~ wants_framework (mkDreq (rqID rq) (rqService rq) (rqAttach rq))).
  { intros (v & W1 & W2). cbn [d_attach] in W1. rewrite T6 in W1. cbv zeta in W1.
    assert (L : loadOrEmpty (sent_meta m) (s2b "M_fws") = v).
    { destruct (aget bs_eqb (sent_meta m) (s2b "M_rid")); rewrite (aget_aset bs_eqb bs_eqb_spec) in W1; change (bs_eqb (s2b "M_fws") (s2b "host")) with false in W1; unfold loadOrEmpty; rewrite W1; reflexivity. }
    rewrite load_sent in L by exact (ca_nd _ _ _ _ _ _ Hc). rewrite Hfw in L. apply W2. rewrite <- L. reflexivity. }
  assert (T5' : rqBody rq = match args with [] => None | v0 :: l0 => Some (concat (map wire (v0 :: l0))) end).
  { rewrite T5. destruct args as [|v vs]; [reflexivity|]. pose proof (wire_args_nonempty v vs) as Hne. destruct (concat (map wire (v :: vs))); [contradiction|reflexivity]. }
  rewrite <- T3 in Hp.
  destruct (handler_side g rq p reply args Ha Hr T5' Tf Hp) as (res & H1 & H2 & H3 & H4 & H5). cbv zeta in H5. rewrite T4 in H5.
  set (r := spec_method _ _ _ _ _ _ _) in *.
  destruct (answer_side c g ip pt (gHandler g) (received m) rq res reply 0 Hps (ca_hb _ _ _ _ _ _ Hc) (ca_ser _ _ _ _ _ _ Hc)) as (w & W1 & W2 & m' & s & D1 & D2 & D3 & _); try assumption.
  - cbn [received mHeader]. rewrite (ca_id _ _ _ _ _ _ Hc). exact Hsid.
  - intros e E. destruct H5 as [(e' & R & E1 & E2)|[(E1 & _)|(v & E1 & _)]]; try congruence.
    rewrite E1 in E. injection E as <-. split; [apply Hj, R|exact E2].
  - intros v E. destruct H5 as [(e' & R & E1 & E2)|[(_ & E1 & _)|(v' & E1 & E2 & V1 & V2 & V3 & R)]]; try congruence.
    rewrite E2 in E. injection E as <-. repeat (split; [assumption|]). intro Hs. apply Hj. rewrite R. cbn [back]. rewrite Hs. reflexivity.
  - exists w, m', s. split; [exact W1|]. split; [exact D1|]. split; [exact D2|]. split; [exact D3|].
    rewrite <- (readAnswer_of c 0 reply _ _ _ _ D1 D2), W2. destruct H5 as [(e' & R & E1 & E2)|[(E0 & E1 & R)|(v' & E1 & E2 & V1 & V2 & V3 & R)]].
    + rewrite E1, R. reflexivity.
    + rewrite E0, E1, R. destruct reply; reflexivity.
    + rewrite E1, E2, R. reflexivity.
Qed.

Lemma server_refuses (c : gclient) (g : gserver) ip pt m sid sv me args reply :
  plain_server c g -> carries (c_ext c) m sid sv me (concat (map wire args)) -> (sid < 2 ^ 64)%N -> loadOrEmpty (mMeta m) (s2b "M_fws") = [] ->
  (forall r, processV2 (g_cfg g) ip pt (gHandler g) (received m) = Write r -> sizes_ok (c_max c) r) ->
  aget bs_eqb (g_table g) sv = None -> json_lossless (c_ext c) (mkExc 404 (s2b "provider not exist serviceKey=" ++ sv) 1) ->
  exists w m' s, processV2 (g_cfg g) ip pt (gHandler g) (received m) = Write w /\ decodeMsg (c_max c) (concat (getEncodedBytes None w)) = DecOk m' [] /\
    convertToResponse (c_ext c) true m' = inl s /\ rpBody s <> Some [] /\ reading c reply s = Error (s2b "provider not exist serviceKey=" ++ sv).
Proof.
  intros Hps Hc Hsid Hfw Hsz Hp Hj.
  destruct (carries_request _ _ _ _ _ _ false ip Hc) as (rq & T1 & T2 & T3 & T4 & T5 & T6 & _).
  assert (Tf : ~ wants_framework (mkDreq (rqID rq) (rqService rq) (rqAttach rq))).
  { intros (v & W1 & W2). cbn [d_attach] in W1. rewrite T6 in W1. cbv zeta in W1.
    assert (L : loadOrEmpty (sent_meta m) (s2b "M_fws") = v).
    { destruct (aget bs_eqb (sent_meta m) (s2b "M_rid")); rewrite (aget_aset bs_eqb bs_eqb_spec) in W1; change (bs_eqb (s2b "M_fws") (s2b "host")) with false in W1; unfold loadOrEmpty; rewrite W1; reflexivity. }
    rewrite load_sent in L by exact (ca_nd _ _ _ _ _ _ Hc). rewrite Hfw in L. apply W2. rewrite <- L. reflexivity. }
  set (e := mkExc 404 _ 1) in Hj.
  assert (Hh : gHandler g rq = HRes (excResponse (rqID rq) e)).
  { unfold gHandler. set (run := fun c : callee => _). set (d := mkDreq _ _ _) in *. rewrite <- T3 in Hp.
    unfold handlerCall. rewrite (@dispatch_none (mresponse value) [MetaServiceName] (g_table g) (d_service d) d run Tf Hp). cbn [fst].
    unfold d, e. cbn [d_service d_id]. rewrite T3. reflexivity. }
  destruct (answer_side c g ip pt (gHandler g) (received m) rq (excResponse (rqID rq) e) reply 0 Hps (ca_hb _ _ _ _ _ _ Hc) (ca_ser _ _ _ _ _ _ Hc)) as (w & W1 & W2 & m' & s & D1 & D2 & D3 & _); try assumption; try reflexivity.
  - cbn [received mHeader]. rewrite (ca_id _ _ _ _ _ _ Hc). exact Hsid.
  - intros e' E. injection E as <-. split; [exact Hj|reflexivity].
  - intros v E. discriminate E.
  - exists w, m', s. split; [exact W1|]. split; [exact D1|]. split; [exact D2|]. split; [exact D3|].
    rewrite <- (readAnswer_of c 0 reply _ _ _ _ D1 D2), W2. reflexivity.
Qed.

(* ------------------------------------------------------------ the whole call *)

(* what the agent is given and sends on *)
Lemma agent_side c ag k ip sid sid2 q : ordinary q -> args_ok (qArgs q) -> gzip_lossless (c_ext c) -> is_agent c ag -> (sid < 2 ^ 64)%N ->
  exists m rq m2, sendRequest c sid q = inl m /\ carries (c_ext c) m sid (qService q) (qMethod q) (concat (map wire (qArgs q))) /\
    at_agent ag ip m = inl rq /\ rqID rq = sid /\ rqService rq = qService q /\
    agentMessage ag k sid2 rq = inl m2 /\ carries (c_ext c) m2 sid2 (qService q) (qMethod q) (concat (map wire (qArgs q))) /\
    mMeta m = req_meta q /\ NoDup (akeys (mMeta m)) /\ rqMethod rq = qMethod q /\
    rqAttach rq = aset bs_eqb (aset bs_eqb (sent_meta m) (s2b "host") ip) (s2b "M_rid") (fmtZ (toSigned 64 sid)) /\
    (forall key, loadOrEmpty (mMeta m2) key = loadOrEmpty (EpModel.fitGroup (ag_ep ag k) false (AgentModel.fillDefault false (ag_ref ag k) (rqAttach rq))) key) /\
    (forall key, ~ In key [s2b "M_g"; s2b "M_s"] -> loadOrEmpty (mMeta m2) key = loadOrEmpty (rqAttach rq) key).
Proof.
  intros Ho Ha Hg (Hp & Hx) Hsid.
  destruct (request_carries c sid q Ho Ha Hg) as (m & S1 & S2 & S3 & S4).
  destruct (carries_request _ _ _ _ _ _ true ip S2) as (rq & T1 & T2 & T3 & T4 & T5 & T6 & T7 & T8 & T9 & T10 & T11). rewrite S3 in T2, T6. cbv zeta in T6.
  pose proof (ca_nd _ _ _ _ _ _ S2) as ND.
  destruct Ho as (O1 & O2 & O3 & O4 & O5 & O6).
  destruct (agent_message ag k sid2 rq (qService q) (qMethod q) (concat (map wire (qArgs q)))) as (m2 & A1 & A2 & A3 & A4); try assumption.
  - rewrite Hx. exact Hg.
  - rewrite T6. apply NoDup_aset; [exact bs_eqb_spec|]. apply NoDup_aset; [exact bs_eqb_spec|]. apply sent_nodup. exact ND.
  - rewrite T6, !load_aset. change (bs_eqb (s2b "M_p") (s2b "M_rid")) with false. change (bs_eqb (s2b "M_p") (s2b "host")) with false. cbv iota.
    rewrite (ca_sv _ _ _ _ _ _ S2). apply one_line_sent; [apply no_newline_lit; reflexivity|discriminate|exact O3].
  - rewrite T6, !load_aset. change (bs_eqb (s2b "M_m") (s2b "M_rid")) with false. change (bs_eqb (s2b "M_m") (s2b "host")) with false. cbv iota.
    rewrite (ca_me _ _ _ _ _ _ S2). apply one_line_sent; [apply no_newline_lit; reflexivity|discriminate|exact O4].
  - rewrite Hx in A2. exists m, rq, m2. unfold at_agent. rewrite Hx. repeat (split; [assumption|]). assumption.
Qed.

Lemma no_framework_key q m m2 ip sid (rq : rrequest) : ordinary q -> mMeta m = req_meta q -> NoDup (akeys (mMeta m)) ->
  rqAttach rq = aset bs_eqb (aset bs_eqb (sent_meta m) (s2b "host") ip) (s2b "M_rid") (fmtZ (toSigned 64 sid)) ->
  (forall key, ~ In key [s2b "M_g"; s2b "M_s"] -> loadOrEmpty (mMeta m2) key = loadOrEmpty (rqAttach rq) key) ->
  loadOrEmpty (mMeta m2) (s2b "M_fws") = [].
Proof.
  intros (O1 & O2 & O3 & O4 & O5 & O6) HM ND HA HL. rewrite HL by (vm_compute; intuition discriminate). rewrite HA, !load_aset.
  change (bs_eqb (s2b "M_fws") (s2b "M_rid")) with false. change (bs_eqb (s2b "M_fws") (s2b "host")) with false. cbv iota.
  rewrite load_sent by exact ND. rewrite HM, req_meta_other; [|exact O5|vm_compute; intuition discriminate].
  unfold loadOrEmpty. rewrite O6 by (right; right; left; reflexivity). reflexivity.
Qed.

Lemma relay_result c ag k g ip pt sid ip2 pt2 sid2 reply q out :
  plain_server c g -> is_agent c ag -> ordinary q -> args_ok (qArgs q) -> (sid < 2 ^ 64)%N -> (sid2 < 2 ^ 64)%N ->
  relay_fits c ag k g ip pt sid ip2 pt2 sid2 q -> relayed_by c ag ip sid q k ->
  (forall m2, carries (c_ext c) m2 sid2 (qService q) (qMethod q) (concat (map wire (qArgs q))) -> loadOrEmpty (mMeta m2) (s2b "M_fws") = [] ->
     (forall r, processV2 (g_cfg g) ip2 pt2 (gHandler g) (received m2) = Write r -> sizes_ok (ag_max ag) r) ->
     exists w m' s, processV2 (g_cfg g) ip2 pt2 (gHandler g) (received m2) = Write w /\ decodeMsg (ag_max ag) (concat (getEncodedBytes None w)) = DecOk m' [] /\
       convertToResponse (c_ext c) true m' = inl s /\ rpBody s <> Some [] /\ reading c reply s = out) ->
  relayTrip c ag g ip pt sid ip2 pt2 sid2 reply q = out.
Proof.
  intros Hps Hag Ho Ha Hsid Hsid2 Hfit Hroute Hsrv.
  destruct (agent_side c ag k ip sid sid2 q Ho Ha (proj2 (proj2 (proj2 (proj2 Hps)))) Hag Hsid) as (m & rq & m2 & S1 & S2 & S3 & S4 & S5 & S6 & S7 & S8 & S9 & S10 & S11 & S12 & S13).
  destruct (Hfit m S1) as (F1 & F2 & F3). destruct (F2 rq m2 S3 S6) as (F4 & F5).
  destruct (Hsrv m2 S7 (no_framework_key q m m2 ip sid rq Ho S8 S9 S11 S13) F5) as (w & m' & s & P1 & P2 & P3 & P4 & P5).
  unfold relayTrip. rewrite S1, (carries_read _ _ _ _ _ _ _ S2 Hsid F1).
  assert (Hh : agentHandler ag (serve g ip2 pt2) sid2 pt rq = HRes (agentResponse (c_ext c) sid pt (ag_addr ag (ag_ep ag k)) m')).
  { unfold agentHandler. rewrite (Hroute m rq S1 S3). cbv zeta. rewrite S6. unfold serve. rewrite (carries_read _ _ _ _ _ _ _ S7 Hsid2 F4), P1, P2, S4.
    rewrite (proj2 Hag). reflexivity. }
  set (p := agentResponse _ _ _ _ _) in Hh.
  assert (Hw : exists w', forall ser, convertToResMessage (c_ext c) (s_asBytes (ag_cfg ag)) ser (fillRes true pt p) = inl w').
  { apply relayed_converts. }
  destruct Hw as [w' Hw].
  pose proof (agent_process c ag ip pt _ m rq p w' sid Hag (ca_hb _ _ _ _ _ _ S2) (ca_id _ _ _ _ _ _ S2) S3 Hh Hw) as HP. rewrite HP.
  rewrite <- P5. apply (relayed_answer c ag sid pt (ag_addr ag (ag_ep ag k)) (concat (getEncodedBytes None w)) m' s reply (qID q) w' None); try assumption; try apply Hw.
  - apply Hag.
  - apply F3, HP.
Qed.

Lemma plain_other c g max : plain_server c g -> plain_server (mkC (c_ext c) max (c_gzip c) (c_etext c) (c_cerr c)) g.
Proof. intros (H1 & H2 & H3 & H4 & H5). repeat (split; [assumption|]). assumption. Qed.

Lemma relay_call c ag k g ip pt sid ip2 pt2 sid2 reply q p :
  plain_server c g -> is_agent c ag -> ordinary q -> args_ok (qArgs q) -> (sid < 2 ^ 64)%N -> (sid2 < 2 ^ 64)%N ->
  relay_fits c ag k g ip pt sid ip2 pt2 sid2 q -> relayed_by c ag ip sid q k ->
  aget bs_eqb (g_table g) (qService q) = Some p -> results_ok (g_impl g (v_id p)) (qArgs q) ->
  let r := spec_method (g_impl g (v_id p)) (firstUpper (g_uni g) (qMethod q)) (qMethod q) (qArgs q) reply (g_etext g (DBuf ErrEOF))
             (s_errText (g_cfg g) CErrSerialize) in
  (forall e, r = Fails e -> json_lossless (c_ext c) e) ->
  relayTrip c ag g ip pt sid ip2 pt2 sid2 reply q = seen reply r.
Proof.
  intros Hps Hag Ho Ha Hsid Hsid2 Hfit Hroute Hp Hr. cbv zeta. intro Hj.
  eapply relay_result; try eassumption. intros m2 C F Z.
  exact (server_answers (mkC (c_ext c) (ag_max ag) (c_gzip c) (c_etext c) (c_cerr c)) g ip2 pt2 m2 sid2 (qService q) (qMethod q) (qArgs q) reply p
    (plain_other c g (ag_max ag) Hps) C Hsid2 F Ha Z Hp Hr Hj).
Qed.

Lemma relay_not_served c ag k g ip pt sid ip2 pt2 sid2 reply q :
  plain_server c g -> is_agent c ag -> ordinary q -> args_ok (qArgs q) -> (sid < 2 ^ 64)%N -> (sid2 < 2 ^ 64)%N ->
  relay_fits c ag k g ip pt sid ip2 pt2 sid2 q -> relayed_by c ag ip sid q k -> aget bs_eqb (g_table g) (qService q) = None ->
  json_lossless (c_ext c) (mkExc 404 (s2b "provider not exist serviceKey=" ++ qService q) 1) ->
  relayTrip c ag g ip pt sid ip2 pt2 sid2 reply q = Error (s2b "provider not exist serviceKey=" ++ qService q).
Proof.
  intros Hps Hag Ho Ha Hsid Hsid2 Hfit Hroute Hp Hj.
  eapply relay_result; try eassumption. intros m2 C F Z.
  exact (server_refuses (mkC (c_ext c) (ag_max ag) (c_gzip c) (c_etext c) (c_cerr c)) g ip2 pt2 m2 sid2 (qService q) (qMethod q) (qArgs q) reply
    (plain_other c g (ag_max ag) Hps) C Hsid2 F Z Hp Hj).
Qed.

(* ------------------------------------------------------------ what the server is given *)

Lemma seen_at_server c ag k g ip sid ip2 sid2 q : plain_server c g -> is_agent c ag -> ordinary q -> args_ok (qArgs q) -> (sid < 2 ^ 64)%N ->
  exists m rq m2 rs, sendRequest c sid q = inl m /\ at_agent ag ip m = inl rq /\ agentMessage ag k sid2 rq = inl m2 /\ at_server g ip2 m2 = inl rs /\
    rqID rs = sid /\ rqService rs = qService q /\ rqMethod rs = qMethod q /\
    rqBody rs = (match qArgs q with [] => None | a => Some (concat (map wire a)) end) /\
    loadOrEmpty (rqAttach rs) (s2b "host") = ip2 /\
    (let asked := sent_value (s2b "M_g") (loadOrEmpty (qAttach q) (s2b "M_g")) in
     asked <> [] \/ uGroup (ag_ref ag k) <> [] ->
     loadOrEmpty (rqAttach rs) (s2b "M_g") =
       sent_value (s2b "M_g") (match uGroup (ag_ep ag k) with [] => match asked with [] => uGroup (ag_ref ag k) | _ => asked end | own => own end)) /\
    (forall key, ~ In key [s2b "host"; s2b "M_rid"; s2b "M_p"; s2b "M_m"; s2b "M_pp"; s2b "M_g"; s2b "M_s"] ->
       loadOrEmpty (rqAttach rs) key = sent_value key (loadOrEmpty (qAttach q) key)).
Proof.
  intros Hps Hag Ho Ha Hsid.
  destruct (agent_side c ag k ip sid sid2 q Ho Ha (proj2 (proj2 (proj2 (proj2 Hps)))) Hag Hsid) as (m & rq & m2 & S1 & S2 & S3 & S4 & S5 & S6 & S7 & S8 & S9 & S10 & S11 & S12 & S13).
  destruct (carries_request _ _ _ _ _ _ false ip2 S7) as (rs & T1 & T2 & T3 & T4 & T5 & T6 & _).
  pose proof (ca_nd _ _ _ _ _ _ S7) as ND2.
  assert (Lr : loadOrEmpty (sent_meta m2) (s2b "M_rid") = fmtZ (toSigned 64 sid)).
  { rewrite load_sent by exact ND2. rewrite S13 by (vm_compute; intuition discriminate). rewrite S11, load_aset, bs_eqb_refl.
    apply one_line_sent; [apply no_newline_lit; reflexivity|discriminate|]. apply UrlProofs.fmtZ_free. reflexivity. }
  assert (Ar : aget bs_eqb (sent_meta m2) (s2b "M_rid") = Some (fmtZ (toSigned 64 sid))).
  { unfold loadOrEmpty in Lr. destruct (aget bs_eqb (sent_meta m2) (s2b "M_rid")) as [v|]; [rewrite Lr; reflexivity|]. exfalso. symmetry in Lr. exact (UrlProofs.fmtZ_ne _ Lr). }
  rewrite Ar in T2, T6. cbv zeta in T6. rewrite parse_fmtZ in T2 by (apply ConvProofs.toSigned_range; exact Hsid). cbn [fst] in T2. rewrite ConvProofs.toUnsigned_toSigned in T2 by exact Hsid.
  destruct Hps as (P1 & P2 & P3 & P4 & P5).
  exists m, rq, m2, rs. split; [exact S1|]. split; [exact S3|]. split; [exact S6|].
  split; [unfold at_server; rewrite P4; exact T1|]. split; [exact T2|]. split; [exact T3|]. split; [exact T4|].
  split; [|split; [|split]].
  - rewrite T5. destruct (qArgs q) as [|v vs]; [reflexivity|]. pose proof (wire_args_nonempty v vs) as Hne. destruct (concat (map wire (v :: vs))); [contradiction|reflexivity].
  - rewrite T6, load_aset, bs_eqb_refl. reflexivity.
  - cbv zeta. intro Some_group. rewrite T6, load_aset. change (bs_eqb (s2b "M_g") (s2b "host")) with false. cbv iota. rewrite load_sent by exact ND2. f_equal. rewrite S12.
    assert (Lg : loadOrEmpty (rqAttach rq) (s2b "M_g") = sent_value (s2b "M_g") (loadOrEmpty (qAttach q) (s2b "M_g"))).
    { rewrite S11, !load_aset. change (bs_eqb (s2b "M_g") (s2b "M_rid")) with false. change (bs_eqb (s2b "M_g") (s2b "host")) with false. cbv iota.
      rewrite load_sent by exact S9. rewrite S8, req_meta_other; [reflexivity|apply Ho|vm_compute; intuition discriminate]. }
    rewrite <- Lg in Some_group |- *.
    assert (Lf : loadOrEmpty (AgentModel.fillDefault false (ag_ref ag k) (rqAttach rq)) (s2b "M_g") =
                 match loadOrEmpty (rqAttach rq) (s2b "M_g") with [] => uGroup (ag_ref ag k) | x => x end).
    { unfold AgentModel.fillDefault, AgentModel.fillGroup, AgentModel.setAtt.
      assert (Ls : loadOrEmpty (AgentModel.fillSource (ag_ref ag k) (rqAttach rq)) (s2b "M_g") = loadOrEmpty (rqAttach rq) (s2b "M_g")).
      { unfold AgentModel.fillSource, AgentModel.setAtt.
        repeat match goal with |- context [match ?t with [] => _ | _ => _ end] => destruct t end; try reflexivity; rewrite load_aset; reflexivity. }
      change (AgentModel.att (AgentModel.fillSource (ag_ref ag k) (rqAttach rq)) AgentModel.MGroup) with (loadOrEmpty (AgentModel.fillSource (ag_ref ag k) (rqAttach rq)) (s2b "M_g")).
      rewrite Ls. destruct (loadOrEmpty (rqAttach rq) (s2b "M_g")) as [|x l] eqn:E.
      - rewrite load_aset. reflexivity.
      - exact Ls. }
    set (f := AgentModel.fillDefault _ _ _) in *.
    assert (Gf : EpModel.getRequestGroup f = loadOrEmpty f (s2b "M_g")).
    { unfold EpModel.getRequestGroup. change (EpModel.attach f EpModel.MGroup) with (loadOrEmpty f (s2b "M_g")). rewrite Lf.
      destruct (loadOrEmpty (rqAttach rq) (s2b "M_g")); [|reflexivity]. destruct (uGroup (ag_ref ag k)); [destruct Some_group as [F|F]; contradiction F; reflexivity|reflexivity]. }
    unfold EpModel.fitGroup. rewrite Gf. destruct (uGroup (ag_ep ag k)) as [|x l] eqn:E.
    + rewrite andb_false_r, Lf. destruct (loadOrEmpty (rqAttach rq) (s2b "M_g")); reflexivity.
    + destruct (bs_eqb (loadOrEmpty f (s2b "M_g")) (x :: l)) eqn:B.
      * cbn [negb andb]. apply bs_eqb_spec in B. exact B.
      * cbn [negb andb bs_eqb]. rewrite load_aset. reflexivity.
  - intros key N. cbn [In] in N. rewrite T6, load_aset.
    assert (E : forall x, In x [s2b "host"; s2b "M_rid"] -> bs_eqb key x = false).
    { intros x J. apply bs_eqb_neq. intros ->. cbn [In] in J. tauto. }
    rewrite E by (left; reflexivity). rewrite load_sent by exact ND2. rewrite S13 by (cbn [In]; tauto). rewrite S11, !load_aset.
    rewrite (E (s2b "M_rid")) by (right; left; reflexivity). rewrite (E (s2b "host")) by (left; reflexivity).
    rewrite load_sent by exact S9. rewrite sent_value_idem, S8, req_meta_other; [reflexivity|apply Ho|cbn [In]; tauto].
Qed.

(* ------------------------------------------------------------ when the agent cannot pass it on *)

Lemma agent_refuses c ag k g ip pt sid ip2 pt2 sid2 reply q w m rq :
  plain_server c g -> is_agent c ag -> ordinary q -> args_ok (qArgs q) -> (sid < 2 ^ 64)%N -> relay_fits c ag k g ip pt sid ip2 pt2 sid2 q ->
  sendRequest c sid q = inl m -> at_agent ag ip m = inl rq ->
  AgentModel.route (ag_map ag) (ag_http ag) (rqService rq) (rqAttach rq) = AgentModel.Refused w ->
  json_lossless (c_ext c) (mkExc 400 (s2b "cluster not found. cluster: " ++ whyText w (rqService rq) (rqAttach rq)) 1) ->
  rqService rq = qService q /\
  relayTrip c ag g ip pt sid ip2 pt2 sid2 reply q = Error (s2b "cluster not found. cluster: " ++ whyText w (rqService rq) (rqAttach rq)).
Proof.
  intros Hps Hag Ho Ha Hsid Hfit Hm Hq Hr Hj.
  destruct (agent_side c ag k ip sid sid2 q Ho Ha (proj2 (proj2 (proj2 (proj2 Hps)))) Hag Hsid) as (m0 & rq0 & m2 & S1 & S2 & S3 & S4 & S5 & _).
  rewrite Hm in S1. injection S1 as <-. rewrite Hq in S3. injection S3 as <-. split; [exact S5|].
  destruct (Hfit m Hm) as (F1 & F2 & F3). unfold relayTrip. rewrite Hm, (carries_read _ _ _ _ _ _ _ S2 Hsid F1).
  assert (Hh : agentHandler ag (serve g ip2 pt2) sid2 pt rq = HRes (exc400 (rqID rq) (s2b "cluster not found. cluster: " ++ whyText w (rqService rq) (rqAttach rq)))).
  { unfold agentHandler. rewrite Hr. reflexivity. }
  destruct (exception_converts (c_ext c) (s_asBytes (ag_cfg ag)) pt
    (exc400 (rqID rq) (s2b "cluster not found. cluster: " ++ whyText w (rqService rq) (rqAttach rq))) _ eq_refl eq_refl eq_refl) as (w0 & Hw).
  pose proof (agent_process c ag ip pt _ m rq _ w0 sid Hag (ca_hb _ _ _ _ _ _ S2) (ca_id _ _ _ _ _ _ S2) Hq Hh Hw) as HP. rewrite HP.
  eapply (agent_exception c ag reply (qID q) sid _ (mkExc 400 (s2b "cluster not found. cluster: " ++ whyText w (rqService rq) (rqAttach rq)) 1) pt w0 Hag); try exact Hw; try reflexivity; try assumption.
  - apply Hps.
  - constructor.
  - apply F3, HP.
Qed.

Lemma agent_loses c ag k g ip pt sid ip2 pt2 sid2 reply q m rq m2 :
  plain_server c g -> is_agent c ag -> ordinary q -> args_ok (qArgs q) -> (sid < 2 ^ 64)%N -> relay_fits c ag k g ip pt sid ip2 pt2 sid2 q ->
  relayed_by c ag ip sid q k -> sendRequest c sid q = inl m -> at_agent ag ip m = inl rq -> agentMessage ag k sid2 rq = inl m2 ->
  serve g ip2 pt2 (concat (getEncodedBytes None m2)) = None -> json_lossless (c_ext c) (mkExc 400 (s2b "channel call error:" ++ ag_chan ag) 1) ->
  relayTrip c ag g ip pt sid ip2 pt2 sid2 reply q = Error (s2b "channel call error:" ++ ag_chan ag).
Proof.
  intros Hps Hag Ho Ha Hsid Hfit Hr Hm Hq Hm2 Hs Hj.
  destruct (agent_side c ag k ip sid sid2 q Ho Ha (proj2 (proj2 (proj2 (proj2 Hps)))) Hag Hsid) as (m0 & rq0 & m3 & S1 & S2 & S3 & S4 & S5 & _).
  rewrite Hm in S1. injection S1 as <-. rewrite Hq in S3. injection S3 as <-.
  destruct (Hfit m Hm) as (F1 & F2 & F3). unfold relayTrip. rewrite Hm, (carries_read _ _ _ _ _ _ _ S2 Hsid F1).
  set (p := mkRes value (rqID rq) None (Some (mkExc 400 (s2b "channel call error:" ++ ag_chan ag) 1)) (stored pt (ag_addr ag (ag_ep ag k)) []) ctx0).
  assert (Hh : agentHandler ag (serve g ip2 pt2) sid2 pt rq = HRes p).
  { unfold agentHandler. rewrite (Hr m rq Hm Hq), Hm2, Hs. reflexivity. }
  destruct (exception_converts (c_ext c) (s_asBytes (ag_cfg ag)) pt p _ eq_refl eq_refl eq_refl) as (w0 & Hw).
  pose proof (agent_process c ag ip pt _ m rq _ w0 sid Hag (ca_hb _ _ _ _ _ _ S2) (ca_id _ _ _ _ _ _ S2) Hq Hh Hw) as HP. rewrite HP.
  eapply (agent_exception c ag reply (qID q) sid p (mkExc 400 (s2b "channel call error:" ++ ag_chan ag) 1) pt w0 Hag); try exact Hw; try reflexivity; try assumption.
  - apply Hps.
  - unfold p, stored. cbn [pAttach]. cbv zeta. repeat match goal with |- context [if ?b then _ else _] => destruct b end; repeat (apply NoDup_aset; [exact bs_eqb_spec|]); constructor.
  - apply F3, HP.
Qed.

(* ------------------------------------------------------------ the attachments of the answer *)

Lemma relayed_meta X asB rid pt addr r s (ser : option (serialization value)) : convertToResponse X true r = inl s ->
  exists w, (forall ser : option (serialization value), convertToResMessage X asB ser (fillRes true pt (agentResponse X rid pt addr r)) = inl w) /\
    mMeta w = stored pt addr (mMeta r) /\ GetStatus (mHeader w) = GetStatus (mHeader r).
Proof.
  intro Hs. unfold agentResponse. cbv zeta. set (m := withID (mkMsg (SetProxy true (mHeader r)) (mMeta r) (mBody r)) rid).
  pose proof (view_setproxy true (mHeader r)) as W.
  assert (M1 : GetStatus (mHeader m) = GetStatus (mHeader r)) by exact (f_equal v_st W).
  assert (M2 : IsGzip (mHeader m) = IsGzip (mHeader r)) by exact (f_equal v_gz W).
  assert (M4 : IsProxy (mHeader m) = true) by exact (f_equal v_px W).
  assert (Cm : exists s', convertToResponse X true m = inl s').
  { revert Hs. unfold convertToResponse. cbv zeta. rewrite M1, M2. change (mMeta m) with (mMeta r). change (mBody m) with (mBody r). rewrite M4. cbn [negb andb].
    rewrite andb_false_r.
    destruct (N.eqb (GetStatus (mHeader r)) 0 && (0 <? length (mBody r)));
    (destruct (N.eqb (GetStatus (mHeader r)) 1); [destruct (bs_empty _); [|destruct (x_ofJSON _ _); [|discriminate]]|]; intro E; injection E as <-; eexists; reflexivity). }
  destruct Cm as (s' & Cm). rewrite Cm. unfold convertToResMessage, fillRes. cbv zeta. cbn [pCtx cProxy cOriginal].
  eexists. split; [intros _; reflexivity|]. cbn [mMeta mHeader].
  assert (Ho : GetStatus (mHeader (afterConversion X m)) = GetStatus (mHeader r) /\ mMeta (afterConversion X m) = mMeta r).
  { unfold afterConversion. destruct (_ && _ && _); cbn [mHeader mMeta]; [|auto].
    pose proof (f_equal v_st (view_setgzip false (mHeader m))) as W4. cbn [v_st view spec_hop] in W4. rewrite W4. auto. }
  destruct Ho as [O1 O2]. split; [rewrite O2; reflexivity|].
  etransitivity; [exact (f_equal v_st (view_setproxy true (mHeader (afterConversion X m))))|exact O1].
Qed.

Lemma answer_kept c ag k g ip pt sid ip2 pt2 sid2 q m rq m2 b r2 rest s : gzip_lossless (c_ext c) -> is_agent c ag -> ordinary q -> args_ok (qArgs q) -> (sid < 2 ^ 64)%N ->
  sendRequest c sid q = inl m -> at_agent ag ip m = inl rq -> AgentModel.route (ag_map ag) (ag_http ag) (rqService rq) (rqAttach rq) = AgentModel.ToCluster k ->
  agentMessage ag k sid2 rq = inl m2 -> serve g ip2 pt2 (concat (getEncodedBytes None m2)) = Some b -> decodeMsg (ag_max ag) b = DecOk r2 rest ->
  convertToResponse (c_ext c) true r2 = inl s ->
  let addr := ag_addr ag (ag_ep ag k) in
  exists w, processV2 (ag_cfg ag) ip pt (agentHandler ag (serve g ip2 pt2) sid2 pt) (received m) = Write w /\
    hReqID (mHeader w) = sid /\ GetStatus (mHeader w) = GetStatus (mHeader r2) /\
    (addr <> [] -> loadOrEmpty (mMeta w) (s2b "x-forwarded-for") = addr) /\
    loadOrEmpty (mMeta w) (s2b "M_pt") = (match loadOrEmpty (mMeta r2) (s2b "M_pt") with [] => fmtZ pt | t => t end) /\
    (forall key, key <> s2b "x-forwarded-for" -> key <> s2b "M_pt" -> loadOrEmpty (mMeta w) key = loadOrEmpty (mMeta r2) key).
Proof.
  intros Hg Hag Ho Ha Hsid Hm Hq Hr Hm2 Hsv Hd Hcv. cbv zeta. set (addr := ag_addr ag (ag_ep ag k)).
  destruct (agent_side c ag k ip sid sid2 q Ho Ha Hg Hag Hsid) as (m0 & rq0 & m3 & S1 & S2 & S3 & S4 & S5 & _).
  rewrite Hm in S1. injection S1 as <-. rewrite Hq in S3. injection S3 as <-.
  destruct (relayed_meta (c_ext c) (s_asBytes (ag_cfg ag)) sid pt addr r2 s None Hcv) as (w & W1 & W2 & W3).
  assert (Hh : agentHandler ag (serve g ip2 pt2) sid2 pt rq = HRes (agentResponse (c_ext c) sid pt addr r2)).
  { unfold agentHandler. rewrite Hr, Hm2, Hsv, Hd, S4, (proj2 Hag). reflexivity. }
  pose proof (agent_process c ag ip pt _ m rq _ w sid Hag (ca_hb _ _ _ _ _ _ S2) (ca_id _ _ _ _ _ _ S2) Hq Hh W1) as HP.
  exists (withID w sid). split; [exact HP|]. split; [reflexivity|]. split; [exact W3|].
  change (mMeta (withID w sid)) with (mMeta w). rewrite W2. unfold stored. cbv zeta. change MProcessTime with (s2b "M_pt").
  assert (Lp : loadOrEmpty (if bs_empty addr then mMeta r2 else aset bs_eqb (mMeta r2) (s2b "x-forwarded-for") addr) (s2b "M_pt") = loadOrEmpty (mMeta r2) (s2b "M_pt")).
  { destruct (bs_empty addr); [reflexivity|]. rewrite load_aset. reflexivity. }
  rewrite Lp. split; [|split].
  - intro Hne. destruct addr as [|a0 addr']; [contradiction Hne; reflexivity|]. cbn [bs_empty].
    destruct (bs_empty (loadOrEmpty (mMeta r2) (s2b "M_pt"))); rewrite !load_aset; reflexivity.
  - destruct (loadOrEmpty (mMeta r2) (s2b "M_pt")) as [|t0 t] eqn:E; cbn [bs_empty]; [rewrite load_aset; reflexivity|rewrite Lp; exact eq_refl].
  - intros key N1 N2. assert (Lk : loadOrEmpty (if bs_empty addr then mMeta r2 else aset bs_eqb (mMeta r2) (s2b "x-forwarded-for") addr) key = loadOrEmpty (mMeta r2) key).
    { destruct (bs_empty addr); [reflexivity|]. rewrite load_aset. rewrite (proj2 (bs_eqb_neq _ _) N1). reflexivity. }
    destruct (bs_empty (loadOrEmpty (mMeta r2) (s2b "M_pt"))); [|exact Lk]. rewrite load_aset. rewrite (proj2 (bs_eqb_neq _ _) N2). exact Lk.
Qed.

Lemma agent_http c ag g ip pt ip2 pt2 sid2 m rq h : is_agent c ag -> at_agent ag ip m = inl rq ->
  AgentModel.route (ag_map ag) (ag_http ag) (rqService rq) (rqAttach rq) = AgentModel.ToHttp h ->
  processV2 (ag_cfg ag) ip pt (agentHandler ag (serve g ip2 pt2) sid2 pt) (received m) = processV2 (ag_cfg ag) ip pt (ag_httpCall ag h) (received m).
Proof.
  intros (Hp & Hx) Hq Hr. unfold processV2. cbv zeta. cbn [mHeader mMeta mBody received]. rewrite Hp.
  change HostKey with (s2b "host"). rewrite convReq_proxy by exact (f_equal v_px (view_setproxy true (mHeader m))).
  unfold at_agent in Hq. cbn [mHeader mMeta mBody received] in Hq. rewrite Hq.
  assert (E : agentHandler ag (serve g ip2 pt2) sid2 pt rq = ag_httpCall ag h rq) by (unfold agentHandler; rewrite Hr; reflexivity). rewrite E. reflexivity.
Qed.
