(* HrProofs.v: proofs about http requests sent as RPCs. *)
From Verif Require Import Base BytesModel BytesSpec BytesProofs Strconv GoStrings GoStrings2 ProtoModel ProtoSpec ProtoProofs
  ConvModel ConvSpec ConvProofs SimpleModel SimpleSpec SimpleProofs UrlModel V1Model V1Spec ServerModel ServerSpec ServerProofs ProvModel ProvSpec ProvProofs
  RelaySpec RelayProofs HttpModel HttpSpec HrModel HrSpec.
From Verif Require EpModel WebModel HprovModel.
Ltac Zify.zify_post_hook ::= idtac.

Lemma convReq_id_any {A} X asBytes (ser : option (serialization A)) q m rid : cOriginal (qCtx q) = None ->
  convertToReqMessage X asBytes ser q = inl m -> convertToReqMessage X asBytes ser (qWithID q rid) = inl (withID m rid).
Proof.
  intros Ho. unfold convertToReqMessage. cbv zeta. cbn [qWithID qCtx qService qMethod qDesc qArgs qAttach qID].
  assert (E : (if cProxy (qCtx q) then cOriginal (qCtx q) else None) = None) by (rewrite Ho; destruct (cProxy (qCtx q)); reflexivity).
  rewrite E. set (hd := if cSerialized (qCtx q) then Some (cSerNum (qCtx q)) else _). destruct hd as [num|]; [|discriminate].
  destruct (match qArgs q with [] => _ | _ => _ end) as [b|e]; [|discriminate]. intro H. injection H as <-. f_equal.
  unfold encodeMessageGzip. cbn [mHeader mMeta mBody].
  change (IsGzip (BuildHeader true false num rid 0)) with (IsGzip (BuildHeader true false num (qID q) 0)).
  destruct (_ && _ && _); [destruct (x_gz X b)|]; cbn [mHeader mMeta mBody withID]; destruct (cOneway (qCtx q)); destruct (cProxy (qCtx q)); reflexivity.
Qed.

Definition grp (a : hagent) : list (bs * bs) := if bs_empty (uGroup (ha_ep a)) then [] else [(s2b "M_g", uGroup (ha_ep a))].
Definition app (a : hagent) : bs := getParam (ha_cluster a) (s2b "application") [].

Lemma proxy_att a service path header body :
  qAttach (proxyRequest a service path header body) =
  [(s2b "HTTP_PROXY", s2b "true"); (s2b "M_p", service); (s2b "M_s", app a)] ++ grp a.
Proof.
  unfold proxyRequest, grp. cbv zeta. cbn [qAttach]. fold (app a). unfold EpModel.fitGroup.
  destruct (uGroup (ha_ep a)); reflexivity.
Qed.

Definition metaOf (a : hagent) (service path : bs) : list (bs * bs) :=
  [(s2b "HTTP_PROXY", s2b "true"); (s2b "M_p", service); (s2b "M_s", app a)] ++ grp a ++ [(s2b "M_m", path); (s2b "M_pp", s2b "motan2")].
Lemma proxy_meta a service path header body : req_meta (proxyRequest a service path header body) = metaOf a service path.
Proof.
  unfold req_meta. cbv zeta. rewrite proxy_att. change (qDesc (proxyRequest a service path header body)) with (@nil byte).
  change (qService (proxyRequest a service path header body)) with service. change (qMethod (proxyRequest a service path header body)) with path.
  unfold metaOf, grp. destruct (uGroup (ha_ep a)); reflexivity.
Qed.
Lemma meta_nodup a service path : NoDup (akeys (metaOf a service path)).
Proof.
  unfold metaOf, grp. destruct (uGroup (ha_ep a)); cbn [bs_empty]; cbn [List.app]; unfold akeys; cbn [map fst];
    repeat constructor; cbn [In]; intro H; repeat (destruct H as [H|H]; [vm_compute in H; discriminate H|]); exact H.
Qed.

Lemma message_carries a sid service path header body : one_line service -> one_line path -> gzip_lossless (ha_ext a) ->
  args_ok [VBytes header; VBytes body] ->
  exists m, proxyMessage a sid (proxyRequest a service path header body) = inl m /\
    carries (ha_ext a) m sid service path (concat (map wire [VBytes header; VBytes body])) /\ mMeta m = metaOf a service path.
Proof.
  intros O3 O4 Hg Ha. unfold proxyMessage. set (q := proxyRequest a service path header body). set (asB := fun v : value => _).
  assert (Hm : exists m0, convertToReqMessage (ha_ext a) asB (Some simpleSer) q = inl m0).
  { unfold convertToReqMessage. cbv zeta. change (qCtx q) with (mkCtx false true (ha_gzip a) false 0 None). cbn [cProxy cOriginal cSerialized cSerNum].
    change (qArgs q) with [VBytes header; VBytes body]. cbn [simpleSer s_num s_multi]. rewrite (serializeMulti_args _ Ha). eexists; reflexivity. }
  destruct Hm as [m0 Hm]. rewrite Hm.
  pose proof (convReq_id_any _ _ _ q m0 sid eq_refl Hm) as Hc. set (q2 := qWithID q sid) in Hc. set (m := withID m0 sid) in *.
  exists m. split; [reflexivity|].
  destruct (convertToReqMessage_inv (ha_ext a) asB (Some simpleSer) q2 m Hg ltac:(reflexivity) Hc) as (b & n & HA & HN & HM & HI & HB).
  assert (En : n = 6%Z).
  { destruct HN as [(B & _)|(_ & s & B & ->)]; [discriminate B|injection B as <-; reflexivity]. }
  subst n. assert (Hr : (0 <= 6 <= 31)%Z) by lia.
  assert (Eb : b = concat (map wire [VBytes header; VBytes body])).
  { destruct HA as [(A1 & ->)|[(A1 & _ & s & A2 & A3)|(A1 & _)]].
    - discriminate A1.
    - injection A2 as <-. cbn [simpleSer s_multi] in A3. change (qArgs q2) with [VBytes header; VBytes body] in A3. rewrite (serializeMulti_args _ Ha) in A3.
      injection A3 as <-. reflexivity.
    - discriminate A1. }
  assert (HM' : mMeta m = metaOf a service path) by (rewrite HM; exact (proxy_meta a service path header body)).
  assert (HV : exists gz, view (mHeader m) = mkView false gz false true true 1 0 6 sid /\ zbody (ha_ext a) m b).
  { destruct HB as [(B & V)|(B1 & B2 & B3 & V)]; rewrite (V Hr); [exists false|exists true]; (split; [reflexivity|]); pose proof (f_equal v_gz (V Hr)) as G; cbn in G; [left|right]; auto. }
  destruct HV as (gz & HV & ZB).
  assert (ND : NoDup (akeys (mMeta m))) by (rewrite HM'; apply meta_nodup).
  split; [|exact HM']. constructor.
  - exact (f_equal v_hb HV).
  - exact (f_equal v_ver HV).
  - exact (f_equal v_ser HV).
  - exact HI.
  - exact ND.
  - rewrite <- Eb. exact ZB.
  - rewrite load_sent by exact ND. rewrite HM'.
    assert (E : loadOrEmpty (metaOf a service path) (s2b "M_p") = service) by reflexivity.
    rewrite E. apply one_line_sent; [apply no_newline_lit; reflexivity|discriminate|exact O3].
  - rewrite load_sent by exact ND. rewrite HM'.
    assert (E : loadOrEmpty (metaOf a service path) (s2b "M_m") = path) by (unfold metaOf, grp; destruct (uGroup (ha_ep a)); reflexivity).
    rewrite E. apply one_line_sent; [apply no_newline_lit; reflexivity|discriminate|exact O4].
Qed.

(* ------------------------------------------------------------ the request at the server *)

Lemma In_aset (l : list (bs * bs)) k v k' v' : k' <> k -> In (k', v') (aset bs_eqb l k v) <-> In (k', v') l.
Proof.
  intro N. induction l as [|[x y] l IH]; cbn [aset].
  - cbn. split; [intros [E|[]]; injection E as <- <-; contradiction|intros []].
  - destruct (bs_eqb k x) eqn:E; cbn [In].
    + apply bs_eqb_spec in E. subst x. split; (intros [J|J]; [injection J as <- <-; contradiction|right; exact J]).
    + rewrite IH. reflexivity.
Qed.

Lemma encodable_lit k v : forallb (fun c => negb (byte_eqb c newline)) k = true -> k <> [] -> one_line v -> encodable (k, v) = negb (bs_empty v).
Proof.
  intros H1 H2 H3. unfold encodable. cbn [fst snd]. rewrite (proj2 (bs_has_false newline k) (no_newline_lit k H1)), (proj2 (bs_has_false newline v) H3).
  destruct k; [contradiction|]. destruct v; reflexivity.
Qed.

Definition callsOf (att : list (bs * bs)) : list hcall :=
  flat_map (fun kv => match aget bs_eqb innerNames (fst kv) with Some k => [HSet k (snd kv)] | None => [] end) att.

Lemma calls_are a service path ip m : one_line service -> one_line path -> one_line (app a) -> one_line (uGroup (ha_ep a)) ->
  mMeta m = metaOf a service path ->
  motan_headers (callsOf (aset bs_eqb (sent_meta m) (s2b "host") ip)) service path (app a) (uGroup (ha_ep a)).
Proof.
  intros L1 L2 L3 L4 HM c. unfold callsOf. rewrite in_flat_map.
  assert (IN : forall k v, k <> s2b "host" -> In (k, v) (aset bs_eqb (sent_meta m) (s2b "host") ip) <-> In (k, v) (metaOf a service path) /\ encodable (k, v) = true).
  { intros k v N. rewrite In_aset by exact N. unfold sent_meta. rewrite filter_In, HM. reflexivity. }
  assert (GI : forall v, In (s2b "M_g", v) (grp a) <-> v = uGroup (ha_ep a) /\ v <> []).
  { intro v. unfold grp. destruct (uGroup (ha_ep a)) as [|x r]; cbn [bs_empty In].
    - split; [intros []|intros (-> & N); contradiction].
    - split; [intros [E|[]]; injection E as <-; split; [reflexivity|discriminate]|intros (-> & _); left; reflexivity]. }
  assert (AD : forall k v k', k <> s2b "host" -> aget bs_eqb innerNames k = Some k' -> forallb (fun c => negb (byte_eqb c newline)) k = true -> k <> [] ->
     one_line v -> v <> [] -> In (k, v) (metaOf a service path) ->
     exists x, In x (aset bs_eqb (sent_meta m) (s2b "host") ip) /\ In (HSet k' v) (match aget bs_eqb innerNames (fst x) with Some k => [HSet k (snd x)] | None => [] end)).
  { intros k v k' N A F K O V J. exists (k, v). split.
    - apply IN; [exact N|]. split; [exact J|]. rewrite encodable_lit by assumption. destruct v; [contradiction|reflexivity].
    - cbn [fst snd]. rewrite A. left. reflexivity. }
  split.
  - intros ((k & v) & J & Jc). cbn [fst snd] in Jc. destruct (aget bs_eqb innerNames k) as [k'|] eqn:A; [|contradiction].
    destruct Jc as [<-|[]]. exists k', v. split; [reflexivity|].
    assert (N : k <> s2b "host") by (intros ->; vm_compute in A; discriminate A).
    apply IN in J; [|exact N]. destruct J as (J & E).
    assert (V : v <> []) by (intros ->; unfold encodable in E; cbn [fst snd bs_empty negb] in E; rewrite andb_false_r in E; discriminate E).
    split; [exact V|]. unfold metaOf in J. rewrite in_app_iff in J. cbn [In] in J.
    assert (A' : forall x y, aget bs_eqb innerNames x = Some y -> x = k -> y = k') by (intros x y X <-; rewrite A in X; injection X as <-; reflexivity).
    destruct J as [[J|[J|[J|[]]]]|J].
    + injection J as <- <-. vm_compute in A. discriminate A.
    + injection J as <- <-. rewrite <- (A' (s2b "M_p") (s2b "MOTAN-p") eq_refl eq_refl). left. reflexivity.
    + injection J as <- <-. rewrite <- (A' (s2b "M_s") (s2b "MOTAN-s") eq_refl eq_refl). right. right. right. left. reflexivity.
    + rewrite in_app_iff in J. destruct J as [J|J].
      * assert (K : k = s2b "M_g") by (unfold grp in J; destruct (bs_empty _); [destruct J|destruct J as [J|[]]; injection J as <- _; reflexivity]).
        subst k. apply GI in J. destruct J as (-> & _). rewrite <- (A' (s2b "M_g") (s2b "MOTAN-g") eq_refl eq_refl). right. right. right. right. left. reflexivity.
      * destruct J as [J|[J|[]]]; injection J as <- <-.
        -- rewrite <- (A' (s2b "M_m") (s2b "MOTAN-m") eq_refl eq_refl). right. left. reflexivity.
        -- rewrite <- (A' (s2b "M_pp") (s2b "MOTAN-pp") eq_refl eq_refl). right. right. left. reflexivity.
  - intros (k & v & -> & V & J). destruct J as [J|[J|[J|[J|[J|[]]]]]]; injection J as <- <-.
    + apply (AD (s2b "M_p")); try reflexivity; try assumption; try discriminate. right. left. reflexivity.
    + apply (AD (s2b "M_m")); try reflexivity; try assumption; try discriminate. unfold metaOf. rewrite !in_app_iff. right. right. left. reflexivity.
    + apply (AD (s2b "M_pp")); try reflexivity; try assumption; try discriminate; [apply no_newline_lit; reflexivity|]. unfold metaOf. rewrite !in_app_iff. right. right. right. left. reflexivity.
    + apply (AD (s2b "M_s")); try reflexivity; try assumption; try discriminate. right. right. left. reflexivity.
    + apply (AD (s2b "M_g")); try reflexivity; try assumption; try discriminate. unfold metaOf. rewrite !in_app_iff. right. left. apply GI. split; [reflexivity|exact V].
Qed.

Lemma sent_get a service path ip m k : mMeta m = metaOf a service path -> k <> s2b "host" ->
  aget bs_eqb (aset bs_eqb (sent_meta m) (s2b "host") ip) k =
  match aget bs_eqb (metaOf a service path) k with Some v => if encodable (k, v) then Some v else None | None => None end.
Proof.
  intros HM N. rewrite (aget_aset bs_eqb bs_eqb_spec), (proj2 (bs_eqb_neq _ _) N). rewrite sent_meta_get by (rewrite HM; apply meta_nodup).
  rewrite HM. reflexivity.
Qed.

Lemma meta_none a service path k : ~ In k [s2b "HTTP_PROXY"; s2b "M_p"; s2b "M_s"; s2b "M_g"; s2b "M_m"; s2b "M_pp"] -> aget bs_eqb (metaOf a service path) k = None.
Proof.
  intro N. assert (E : forall x, In x [s2b "HTTP_PROXY"; s2b "M_p"; s2b "M_s"; s2b "M_g"; s2b "M_m"; s2b "M_pp"] -> bs_eqb k x = false).
  { intros x J. apply bs_eqb_neq. intros ->. contradiction. }
  unfold metaOf, grp. destruct (bs_empty _); cbn [List.app aget]; rewrite !E by (cbn; auto 10); reflexivity.
Qed.

(* what the server's handler is given *)
Lemma handed a g ip sid service path header body m : serves a g ->
  carries (ha_ext a) m sid service path (concat (map wire [VBytes header; VBytes body])) -> mMeta m = metaOf a service path ->
  exists rq, hRequest g ip (received m) = inl rq /\ rqID rq = sid /\ rqService rq = service /\ rqMethod rq = path /\
    rqBody rq = Some (concat (map wire [VBytes header; VBytes body])) /\ rqAttach rq = aset bs_eqb (sent_meta m) (s2b "host") ip.
Proof.
  intros (S1 & S2 & S3 & S4) Hc HM. unfold hRequest. cbn [received mHeader mMeta mBody]. rewrite (ca_ser _ _ _ _ _ _ Hc), S1, S2, S3.
  destruct (carries_request _ _ _ _ _ _ false ip Hc) as (rq & T1 & T2 & T3 & T4 & T5 & T6 & _). exists rq.
  cbn [received mHeader mMeta mBody] in T1. split; [exact T1|].
  assert (R : aget bs_eqb (sent_meta m) (s2b "M_rid") = None).
  { rewrite sent_meta_get by (rewrite HM; apply meta_nodup). rewrite HM, meta_none; [reflexivity|].
    intro J. repeat (destruct J as [J|J]; [vm_compute in J; discriminate J|]). exact J. }
  rewrite R in T2, T6. split; [exact T2|]. split; [exact T3|]. split; [exact T4|]. split; [|exact T6].
  rewrite T5. pose proof (wire_args_nonempty (VBytes header) [VBytes body]) as Hne. destruct (concat _); [contradiction|reflexivity].
Qed.

(* ------------------------------------------------------------ the provider *)

(* the exception or value of a response *)
Definition holdsT (ty : Z) (p : mresponse value) (r : upres) : Prop :=
  NoDup (akeys (pAttach p)) /\ cSerialized (pCtx p) = false /\ cSerNum (pCtx p) = 0%Z /\
  match r with
  | UExc code msg => pExc p = Some (mkExc code msg ty) /\ pValue p = None
  | UAnswer h b => pExc p = None /\ pValue p = Some (VArr [VBytes h; VBytes b])
  end.
Notation holds := (holdsT 2).
Definition carriedT (X : ConvModel.ext) (ty : Z) (r : upres) : Prop :=
  match r with
  | UExc code msg => json_lossless X (mkExc code msg ty)
  | UAnswer h b => (N.of_nat (length h + length b + 15) < 2 ^ 32)%N
  end.

Lemma pair_arrives etext rq header body : args_ok [VBytes header; VBytes body] ->
  rqBody rq = Some (concat (map wire [VBytes header; VBytes body])) -> pairOf etext rq = Some (HprovModel.DOk (header, body)).
Proof.
  intros Ha Hb. unfold pairOf. rewrite Hb. rewrite (deser_enough [VBytes header; VBytes body] [TPBytes; TPBytes] Ha) by (cbn; lia). reflexivity.
Qed.

Lemma provider_transparent g k rq a service path header body ip m : args_ok [VBytes header; VBytes body] ->
  mMeta m = metaOf a service path -> rqMethod rq = path -> rqBody rq = Some (concat (map wire [VBytes header; VBytes body])) ->
  rqAttach rq = aset bs_eqb (sent_meta m) (s2b "host") ip ->
  let calls := callsOf (rqAttach rq) in
  exists p, snd (providerCall g k rq) = HRes p /\
    match upstream_path (hs_world g) (hs_prov g k) path header with
    | None => fst (providerCall g k rq) = [] /\ holds p (UExc 404 (s2b "service not found"))
    | Some path' => let s := upstream_request (hs_world g) (hs_prov g k) path' header body ip calls in
                    fst (providerCall g k rq) = [s] /\ holds p (upstream_result (hs_world g) (hs_prov g k) s)
    end.
Proof.
  intros Ha HM Hme Hb Hat. cbv zeta. unfold providerCall. cbv zeta. rewrite (pair_arrives _ _ _ _ Ha Hb).
  unfold HprovModel.httpCall. cbv zeta. cbn [HprovModel.q_att].
  assert (T : HprovModel.boolOr (pgetD (@Some HprovModel.strmap (rqAttach rq)) (s2b "HTTP_PROXY")) false = true).
  { unfold pgetD, pget. rewrite Hat, (sent_get a service path) by (exact HM || discriminate).
    change (aget bs_eqb (metaOf a service path) (s2b "HTTP_PROXY")) with (Some (s2b "true")). reflexivity. }
  rewrite T.
  assert (C : HprovModel.clientIp (rqAttach rq) = ip).
  { unfold HprovModel.clientIp. rewrite Hat, (sent_get a service path) by (exact HM || discriminate). rewrite meta_none.
    - unfold pgetD, pget. rewrite (aget_aset bs_eqb bs_eqb_spec), bs_eqb_refl. reflexivity.
    - intro J. repeat (destruct J as [J|J]; [vm_compute in J; discriminate J|]). exact J. }
  rewrite C. unfold HprovModel.doTransparent. cbn [HprovModel.q_pair HprovModel.q_att].
  unfold HprovModel.rewritePath, upstream_path. cbv zeta. cbn [HprovModel.q_method]. rewrite Hme.
  assert (F : forall (code : Z) (msg : bs), holds (withGzip (hs_gzip g k) (asResponse (HprovModel.fails (HprovModel.mkMreq (rqID rq) path (rqAttach rq) (hs_args g rq) (HprovModel.DOk (header, body))) code msg))) (UExc code msg)).
  { intros code msg. split; [constructor|]. repeat (split; [reflexivity|]). reflexivity. }
  match goal with |- context [match ?t with Some path => _ | None => ([], Some (HprovModel.fails _ 404 _)) end] => set (pth := t) end.
  change (if HprovModel.p_rewrite (hs_prov g k) then _ else Some path) with pth.
  destruct pth as [path'|].
  - fold (callsOf (rqAttach rq)). change (HprovModel.STransparent header _ _ _ _ body) with (upstream_request (hs_world g) (hs_prov g k) path' header body ip (callsOf (rqAttach rq))).
    set (s := upstream_request _ _ _ _ _ _ _). eexists. split; [reflexivity|]. split; [reflexivity|].
    unfold upstream_result. destruct (w_do (hs_world g) s) as [e|st h b re]; [apply F|]. destruct (_ && _); [apply F|].
    split; [constructor; [intros []|constructor]|]. repeat (split; [reflexivity|]). reflexivity.
  - eexists. split; [reflexivity|]. split; [reflexivity|]. apply F.
Qed.

(* ------------------------------------------------------------ the answer *)

Lemma reply_ext X m rid : convertToResponse X true (withID (mkMsg (SetProxy true (mHeader m)) (mMeta m) (mBody m)) rid) =
  match convertToResponse X true m with
  | inl s => inl (mkRRes rid (rpBody s) (rpExc s) (rpTime s) (rpAttach s) true)
  | inr e => inr e
  end.
Proof.
  unfold convertToResponse. cbn [withID mHeader mMeta mBody].
  pose proof (view_setproxy true (mHeader m)) as W. pose proof (f_equal v_gz W) as W1. pose proof (f_equal v_st W) as W2. pose proof (f_equal v_px W) as W3.
  cbn [v_gz v_st v_px view spec_hop] in W1, W2, W3.
  set (h := mkHdr _ _ _ rid).
  change (GetStatus h) with (GetStatus (SetProxy true (mHeader m))). change (IsGzip h) with (IsGzip (SetProxy true (mHeader m))).
  change (IsProxy h) with (IsProxy (SetProxy true (mHeader m))). rewrite W1, W2, W3. cbn [negb andb]. rewrite !andb_false_r.
  destruct (N.eqb (GetStatus (mHeader m)) 0 && (0 <? length (mBody m)));
  (destruct (N.eqb (GetStatus (mHeader m)) 1); [|reflexivity]; destruct (bs_empty _); [reflexivity|]; destruct (x_ofJSON _ _); reflexivity).
Qed.

Lemma pair_value h b : (N.of_nat (length h + length b + 15) < 2 ^ 32)%N ->
  good (VArr [VBytes h; VBytes b]) /\ supported (VArr [VBytes h; VBytes b]) = true /\ fits (VArr [VBytes h; VBytes b]).
Proof.
  intro H. split; [cbn; auto|]. split; [reflexivity|]. unfold fits.
  assert (L : length (wire (VArr [VBytes h; VBytes b])) = length h + length b + 15).
  { cbn. repeat (rewrite ?app_length; cbn [length]). cbn. lia. }
  rewrite L. exact H.
Qed.

Lemma answer_back ty a g ip pt m sid service path b rq p r : serves a g -> carries (ha_ext a) m sid service path b -> (sid < 2 ^ 64)%N ->
  hRequest g ip (received m) = inl rq -> hHandler g rq = HRes p -> holdsT ty p r -> carriedT (ha_ext a) ty r ->
  (forall w, processV2 (hs_cfg g) ip pt (hHandler g) (received m) = Write w -> sizes_ok (ha_max a) w) ->
  exists w, processV2 (hs_cfg g) ip pt (hHandler g) (received m) = Write w /\
    readReply a (concat (getEncodedBytes None w)) =
      match r with UExc code msg => WebModel.CExc code msg | UAnswer h b => WebModel.CReply [WebModel.PBytes h; WebModel.PBytes b] end.
Proof.
  intros (S1 & S2 & S3 & S4) Hc Hsid Hq Hh (N1 & N2 & N3 & Hr) Hcar Hsz.
  assert (P : processV2 (hs_cfg g) ip pt (hHandler g) (received m) =
    match convertToResMessage (ha_ext a) (s_asBytes (hs_cfg g)) (Some simpleSer) (fillRes false pt p) with
    | inl r => Write (withID r sid)
    | inr e => Write (withID (exc500 (hs_cfg g) sid (s2b "convert to response fail. err:" ++ s_errText (hs_cfg g) e)) sid)
    end).
  { unfold processV2. cbv zeta. unfold hRequest in Hq. cbn [mHeader mMeta mBody received] in *. rewrite S1 in *.
    destruct (setproxy_fields false (mHeader m)) as (F1 & F2 & F3). rewrite F1, F2, F3, (ca_hb _ _ _ _ _ _ Hc), (ca_id _ _ _ _ _ _ Hc).
    rewrite (ca_ser _ _ _ _ _ _ Hc) in *. rewrite S2 in *. change HostKey with (s2b "host"). rewrite Hq, Hh, S3.
    destruct (convertToResMessage _ _ _ _); reflexivity. }
  set (p1 := pWithID (fillRes false pt p) sid).
  assert (Hp1 : NoDup (akeys (pAttach p1))).
  { cbn. destruct (bs_empty _); [|exact N1]. apply NoDup_aset; [exact bs_eqb_spec|exact N1]. }
  assert (Ec : exists w0, convertToResMessage (ha_ext a) (s_asBytes (hs_cfg g)) (Some simpleSer) (fillRes false pt p) = inl w0).
  { unfold convertToResMessage. cbv zeta. cbn [fillRes pCtx pExc pValue cProxy cOriginal cSerialized cSerNum]. rewrite N2.
    destruct r as [code msg|h hb]; destruct Hr as (-> & ->).
    - cbn [orb simpleSer]. eexists. reflexivity.
    - destruct (pair_value _ _ Hcar) as (G1 & G2 & G3). cbn [orb simpleSer s_num s_one]. rewrite (serialize_result _ G1 G3), G2. eexists. reflexivity. }
  destruct Ec as (w0 & Ec). rewrite Ec in P. exists (withID w0 sid). split; [exact P|]. specialize (Hsz _ P).
  pose proof (convRes_id (ha_ext a) (s_asBytes (hs_cfg g)) (Some simpleSer) (fillRes false pt p) sid (or_intror eq_refl) Ec) as Ec'. fold p1 in Ec'.
  destruct (response_over_wire (ha_ext a) (s_asBytes (hs_cfg g)) (Some simpleSer) p1 (withID w0 sid) (ha_max a) None [] S4) as (m' & s & D & R1 & R2 & R3 & _ & _ & R4 & _); try assumption.
  - intros e E. change (pExc p1) with (pExc p) in E. destruct r as [code msg|h hb]; destruct Hr as (H1 & H2); rewrite H1 in E; [injection E as <-; exact Hcar|discriminate E].
  - discriminate.
  - intros x E. injection E as <-. cbn. lia.
  - cbn. rewrite N3. lia.
  - exact I.
  - rewrite app_nil_r in D. rewrite (encoded_frame Hsz). destruct Hsz as (Z1 & Z2 & Z3). destruct (encode_frame None (withID w0 sid) I ltac:(lia) ltac:(lia)) as [E1 _].
    rewrite E1 in D. unfold readReply. rewrite D, reply_ext, R1. cbn [rpExc rpBody]. rewrite R3. change (pExc p1) with (pExc p).
    destruct r as [code msg|h hb]; destruct Hr as (H1 & H2); rewrite H1; [reflexivity|].
    change (pExc p1) with (pExc p) in R4. change (pValue p1) with (pValue p) in R4. specialize (R4 H1). rewrite H2 in R4. destruct R4 as (bb & B1 & ->).
    destruct B1 as [(B & _)|(_ & s' & B1 & B2)]; [cbn in B; rewrite N2 in B; discriminate B|]. injection B1 as <-. cbn [simpleSer s_one] in B2.
    destruct (pair_value _ _ Hcar) as (G1 & G2 & G3). rewrite (serialize_result _ G1 G3), G2 in B2.
    assert (Eb : wire (VArr [VBytes h; VBytes hb]) = bb) by (apply (f_equal (fun o => match o with Some x => x | None => [] end)) in B2; exact B2). subst bb. clear B2.
    destruct (wire (VArr [VBytes h; VBytes hb])) as [|x y] eqn:Ew; [pose proof (wire_pos (VArr [VBytes h; VBytes hb])) as Hw; rewrite Ew in Hw; cbn in Hw; lia|].
    destruct (roundtrip (VArr [VBytes h; VBytes hb]) TPArr [] G1 G2 G3) as (_ & b' & DD & _). rewrite app_nil_r, Ew in DD. cbv iota. rewrite DD. reflexivity.
Qed.

Lemma args_of header body : (N.of_nat (length header + length body + 10) < 2 ^ 32)%N -> args_ok [VBytes header; VBytes body].
Proof.
  intro H. split; [repeat constructor|]. split; [reflexivity|].
  assert (L : length (concat (map wire [VBytes header; VBytes body])) = length header + length body + 10).
  { cbn. repeat (rewrite ?app_length; cbn [length]). cbn. lia. }
  rewrite L. exact H.
Qed.

(* ------------------------------------------------------------ the whole way *)

Lemma over_rpc a g ip pt sid service path header body p : serves a g -> (sid < 2 ^ 64)%N ->
  one_line service -> one_line path -> one_line (app a) -> one_line (uGroup (ha_ep a)) ->
  hr_fits a g ip pt sid service path header body ->
  aget bs_eqb (hs_table g) service = Some p ->
  exists calls, motan_headers calls service path (app a) (uGroup (ha_ep a)) /\
    match upstream_path (hs_world g) (hs_prov g (v_id p)) path header with
    | None => json_lossless (ha_ext a) (mkExc 404 (s2b "service not found") 2) ->
              httpOverRpc a g ip pt sid service path header body = ([], WebModel.WGateway (s2b "err_msg: service not found"))
    | Some path' => let s := upstream_request (hs_world g) (hs_prov g (v_id p)) path' header body ip calls in
                    let r := upstream_result (hs_world g) (hs_prov g (v_id p)) s in
                    carried (ha_ext a) r -> httpOverRpc a g ip pt sid service path header body = ([s], web_answer r)
    end.
Proof.
  intros Hs Hsid L1 L2 L3 L4 (F1 & F2) Hp. pose proof (args_of _ _ F1) as Ha.
  destruct (message_carries a sid service path header body L1 L2 (proj2 (proj2 (proj2 Hs))) Ha) as (m & M1 & Hc & HM).
  destruct (F2 m M1) as (Z1 & Z2).
  destruct (handed a g ip sid service path header body m Hs Hc HM) as (rq & T1 & T2 & T3 & T4 & T5 & T6).
  exists (callsOf (rqAttach rq)). split; [rewrite T6; apply calls_are; assumption|].
  destruct (provider_transparent g (v_id p) rq a service path header body ip m Ha HM T4 T5 T6) as (res & P1 & P2). cbv zeta in P2.
  assert (Tf : ~ wants_framework (mkDreq (rqID rq) (rqService rq) (rqAttach rq))).
  { intros (v & W1 & W2). cbn [d_attach] in W1. rewrite T6, (sent_get a service path) in W1 by (exact HM || discriminate). rewrite meta_none in W1; [discriminate W1|].
    intro J. repeat (destruct J as [J|J]; [vm_compute in J; discriminate J|]). exact J. }
  destruct (@dispatch_found (mresponse value) [MetaServiceName] (hs_table g) (rqService rq) p (mkDreq (rqID rq) (rqService rq) (rqAttach rq)) (hRun g rq) Tf) as [D1 D2]; [rewrite T3; exact Hp|].
  cbn [hRun] in D2. rewrite P1 in D2.
  assert (Hh : hHandler g rq = HRes res).
  { unfold hHandler, hAnswer, handlerCall. cbn [d_service]. rewrite D2. reflexivity. }
  assert (Hse : hSentFor g ip (received m) = fst (providerCall g (v_id p) rq)).
  { unfold hSentFor. cbn [received mHeader]. rewrite (ca_hb _ _ _ _ _ _ Hc). change (mkMsg _ _ _) with (received m). rewrite T1.
    unfold hSent, hAnswer, handlerCall. cbn [d_service]. rewrite D1. cbn [flat_map]. apply app_nil_r. }
  assert (W : forall r, holds res r -> carried (ha_ext a) r -> httpOverRpc a g ip pt sid service path header body = (fst (providerCall g (v_id p) rq), web_answer r)).
  { intros r H1 H2. unfold httpOverRpc. cbv zeta. rewrite M1, (carries_read _ _ _ _ _ _ _ Hc Hsid Z1), Hse. f_equal.
    destruct (answer_back 2 a g ip pt m sid service path _ rq res r Hs Hc Hsid T1 Hh H1 H2 Z2) as (w & W1 & W2). rewrite W1, W2.
    destruct r; reflexivity. }
  destruct (upstream_path _ _ path header) as [path'|]; destruct P2 as (Q1 & Q2).
  - cbv zeta. intro Hcar. rewrite (W _ Q2 Hcar), Q1. reflexivity.
  - intro Hj. rewrite (W _ Q2 Hj), Q1. reflexivity.
Qed.

Lemma over_rpc_unknown a g ip pt sid service path header body : serves a g -> (sid < 2 ^ 64)%N ->
  one_line service -> one_line path -> hr_fits a g ip pt sid service path header body ->
  aget bs_eqb (hs_table g) service = None ->
  json_lossless (ha_ext a) (mkExc 404 (s2b "provider not exist serviceKey=" ++ service) 1) ->
  httpOverRpc a g ip pt sid service path header body = ([], WebModel.WGateway (s2b "err_msg: provider not exist serviceKey=" ++ service)).
Proof.
  intros Hs Hsid L1 L2 (F1 & F2) Hp Hj. pose proof (args_of _ _ F1) as Ha.
  destruct (message_carries a sid service path header body L1 L2 (proj2 (proj2 (proj2 Hs))) Ha) as (m & M1 & Hc & HM).
  destruct (F2 m M1) as (Z1 & Z2).
  destruct (handed a g ip sid service path header body m Hs Hc HM) as (rq & T1 & T2 & T3 & T4 & T5 & T6).
  assert (Tf : ~ wants_framework (mkDreq (rqID rq) (rqService rq) (rqAttach rq))).
  { intros (v & W1 & W2). cbn [d_attach] in W1. rewrite T6, (sent_get a service path) in W1 by (exact HM || discriminate). rewrite meta_none in W1; [discriminate W1|].
    intro J. repeat (destruct J as [J|J]; [vm_compute in J; discriminate J|]). exact J. }
  pose proof (@dispatch_none (mresponse value) [MetaServiceName] (hs_table g) (rqService rq) (mkDreq (rqID rq) (rqService rq) (rqAttach rq)) (hRun g rq) Tf) as D.
  rewrite T3 in D at 1. specialize (D Hp).
  assert (Hh : hHandler g rq = HRes (excResponse (rqID rq) (mkExc 404 (s2b "provider not exist serviceKey=" ++ service) 1))).
  { unfold hHandler, hAnswer, handlerCall. cbn [d_service]. rewrite D, T3. reflexivity. }
  assert (Hse : hSentFor g ip (received m) = []).
  { unfold hSentFor. cbn [received mHeader]. rewrite (ca_hb _ _ _ _ _ _ Hc). change (mkMsg _ _ _) with (received m). rewrite T1.
    unfold hSent, hAnswer, handlerCall. cbn [d_service]. rewrite D. reflexivity. }
  unfold httpOverRpc. cbv zeta. rewrite M1, (carries_read _ _ _ _ _ _ _ Hc Hsid Z1), Hse. f_equal.
  destruct (answer_back 1 a g ip pt m sid service path _ rq _ (UExc 404 (s2b "provider not exist serviceKey=" ++ service)) Hs Hc Hsid T1 Hh) as (w & W1 & W2).
  - split; [constructor|]. repeat (split; [reflexivity|]). reflexivity.
  - exact Hj.
  - exact Z2.
  - rewrite W1, W2. reflexivity.
Qed.
