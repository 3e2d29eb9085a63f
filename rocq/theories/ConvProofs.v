(* ConvProofs.v: proofs about request and response conversion. *)
From Verif Require Import Base BytesModel BytesSpec BytesProofs Strconv ProtoModel ProtoSpec ProtoProofs ConvModel ConvSpec.

Ltac Zify.zify_post_hook ::= idtac.

Lemma aget_filter (p : bs * bs -> bool) l k :
  NoDup (akeys l) ->
  aget bs_eqb (filter p l) k = match aget bs_eqb l k with Some v => if p (k, v) then Some v else None | None => None end.
Proof.
  induction l as [|[k0 v0] l IH]; intro Hn; [reflexivity|]. inversion Hn as [|? ? Hk Hn']; subst.
  cbn [filter aget]. destruct (bs_eqb k k0) eqn:E.
  - apply bs_eqb_spec in E. subst k0. destruct (p (k, v0)) eqn:P.
    + cbn [aget]. rewrite bs_eqb_refl. reflexivity.
    + rewrite IH by exact Hn'.
      assert (N : aget bs_eqb l k = None) by (apply (aget_None bs_eqb bs_eqb_spec); exact Hk).
      rewrite N. reflexivity.
  - destruct (p (k0, v0)); cbn [aget]; rewrite ?E; apply IH, Hn'.
Qed.

Definition cleankey (k : bs) : Prop := bs_empty k = false /\ bs_has newline k = false.

Lemma encodable_cleankey k v : cleankey k -> one_line v -> encodable (k, v) = negb (bs_empty v).
Proof.
  intros [K1 K2] Hv. unfold encodable. cbn [fst snd]. rewrite K1, K2.
  apply bs_has_false in Hv. rewrite Hv. cbn. rewrite !andb_true_r. reflexivity.
Qed.

Lemma loadOrEmpty_sent l k v : NoDup (akeys l) -> cleankey k -> one_line v -> aget bs_eqb l k = Some v ->
  loadOrEmpty (filter encodable l) k = v.
Proof.
  intros Hn Hk Hv H. unfold loadOrEmpty. rewrite aget_filter, H, encodable_cleankey by assumption.
  destruct v; reflexivity.
Qed.
Lemma loadOrEmpty_absent l k : NoDup (akeys l) -> aget bs_eqb l k = None -> loadOrEmpty (filter encodable l) k = [].
Proof. intros Hn H. unfold loadOrEmpty. rewrite aget_filter, H by assumption. reflexivity. Qed.

Lemma view_setgzip x h : view (SetGzip x h) = spec_hop (view h) (OpGzip x).
Proof. apply (hop_refines h (OpGzip x)). exact I. Qed.
Lemma view_setproxy x h : view (SetProxy x h) = spec_hop (view h) (OpProxy x).
Proof. apply (hop_refines h (OpProxy x)). exact I. Qed.
Lemma view_setoneway x h : view (SetOneWay x h) = spec_hop (view h) (OpOneWay x).
Proof. apply (hop_refines h (OpOneWay x)). exact I. Qed.

(* gzip on the way out, gunzip on the way in *)
Lemma gzip_cases X m g :
  gzip_lossless X -> IsGzip (mHeader m) = false ->
  let m1 := encodeMessageGzip X m g in
  mMeta m1 = mMeta m /\
  ((m1 = m) \/ (view (mHeader m1) = spec_hop (view (mHeader m)) (OpGzip true) /\ mBody m <> [] /\ mBody m1 <> [] /\
                x_ungz X (mBody m1) = Some (mBody m))).
Proof.
  intros HX Hg. cbn zeta. unfold encodeMessageGzip.
  destruct ((0 <? g)%Z && (g <? Z.of_nat (length (mBody m)))%Z && negb (IsGzip (mHeader m))) eqn:C; [|auto].
  destruct (x_gz X (mBody m)) as [z|] eqn:E; [|auto]. destruct (HX _ _ E) as [Hz Hu].
  cbn [mMeta mHeader mBody]. split; [reflexivity|]. right. rewrite view_setgzip. repeat split; auto.
  intro H. rewrite H in C. cbn in C. destruct (Z.ltb_spec 0 g), (Z.ltb_spec g 0); cbn in C; try discriminate; lia.
Qed.

Lemma decodeGzipBody_ok X z b : z <> [] -> x_ungz X z = Some b -> decodeGzipBody X z = b.
Proof. intros Hz H. unfold decodeGzipBody. destruct z; [contradiction|]. rewrite H. reflexivity. Qed.

Lemma bs_eqb_spec' : forall a b : bs, bs_eqb a b = true <-> a = b.
Proof. exact bs_eqb_spec. Qed.

Definition req_meta {A} (q : mrequest A) : list (bs * bs) :=
  let a1 := aset bs_eqb (qAttach q) MPath (qService q) in
  let a2 := aset bs_eqb a1 MMethod (qMethod q) in
  let a3 := if bs_empty (loadOrEmpty a2 MProxyProtocol) then aset bs_eqb a2 MProxyProtocol defaultProtocol else a2 in
  if bs_empty (qDesc q) then a3 else aset bs_eqb a3 MMethodDesc (qDesc q).

Lemma req_meta_nodup {A} (q : mrequest A) : NoDup (akeys (qAttach q)) -> NoDup (akeys (req_meta q)).
Proof.
  intro H. unfold req_meta.
  repeat match goal with |- context [if ?b then _ else _] => destruct b end;
    repeat apply (NoDup_aset _ bs_eqb_spec); exact H.
Qed.

Ltac akey := rewrite ?(aget_aset bs_eqb bs_eqb_spec);
  repeat match goal with |- context [bs_eqb ?a ?b] =>
    first [ change (bs_eqb a b) with true | change (bs_eqb a b) with false ] end; cbn iota.

Lemma req_meta_get {A} (q : mrequest A) :
  aget bs_eqb (req_meta q) MPath = Some (qService q) /\
  aget bs_eqb (req_meta q) MMethod = Some (qMethod q) /\
  aget bs_eqb (req_meta q) MMethodDesc = (if bs_empty (qDesc q) then aget bs_eqb (qAttach q) MMethodDesc else Some (qDesc q)) /\
  (forall k, ~ In k req_reserved -> aget bs_eqb (req_meta q) k = aget bs_eqb (qAttach q) k).
Proof.
  unfold req_meta. split; [|split; [|split]].
  1-3: repeat match goal with |- context [if ?b then aset _ _ _ _ else _] => destruct b end; akey; reflexivity.
  intros k Hk.
  assert (K : bs_eqb k MPath = false /\ bs_eqb k MMethod = false /\ bs_eqb k MProxyProtocol = false /\ bs_eqb k MMethodDesc = false).
  { repeat split; apply bs_eqb_neq; intros ->; apply Hk; cbn; auto. }
  destruct K as (K1 & K2 & K3 & K4).
  repeat match goal with |- context [if ?b then aset _ _ _ _ else _] => destruct b end;
    rewrite ?(aget_aset bs_eqb bs_eqb_spec), ?K1, ?K2, ?K3, ?K4; reflexivity.
Qed.

Lemma convertToReqMessage_inv {A} X asBytes ser (q : mrequest A) m :
  gzip_lossless X -> (cProxy (qCtx q) = true -> cOriginal (qCtx q) = None) ->
  convertToReqMessage X asBytes ser q = inl m ->
  exists b n, args_bytes asBytes ser q b /\ num_sent ser (qCtx q) n /\ mMeta m = req_meta q /\
   hReqID (mHeader m) = qID q /\
   ((mBody m = b /\ ((0 <= n <= 31)%Z -> view (mHeader m) =
       mkView false false (cOneway (qCtx q)) (cProxy (qCtx q)) true 1 0 (Z.to_N n) (qID q))) \/
    (b <> [] /\ mBody m <> [] /\ x_ungz X (mBody m) = Some b /\ ((0 <= n <= 31)%Z -> view (mHeader m) =
       mkView false true (cOneway (qCtx q)) (cProxy (qCtx q)) true 1 0 (Z.to_N n) (qID q)))).
Proof.
  intros HX Ho H. unfold convertToReqMessage in H.
  assert (E : (if cProxy (qCtx q) then cOriginal (qCtx q) else None) = None) by (destruct (cProxy (qCtx q)); auto).
  rewrite E in H. clear E.
  destruct (if cSerialized (qCtx q) then Some (cSerNum (qCtx q)) else match ser with Some s => Some (s_num s) | None => None end)
    as [n|] eqn:En; [|discriminate].
  match type of H with match ?B with inl _ => _ | inr _ => _ end = _ => destruct B as [b|e] eqn:Eb; [|discriminate] end.
  exists b, n.
  assert (HA : args_bytes asBytes ser q b).
  { unfold args_bytes. destruct (qArgs q) as [|a args] eqn:Ea.
    - left. split; congruence.
    - right. destruct (cSerialized (qCtx q)) eqn:Es.
      + right. split; [reflexivity|]. destruct args; [|discriminate]. exists a. split; [reflexivity|].
        destruct (asBytes a); [congruence|discriminate].
      + left. split; [discriminate|]. split; [reflexivity|]. destruct ser as [s|]; [|discriminate]. exists s. split; [reflexivity|].
        destruct (s_multi s (a :: args)); [congruence|discriminate]. }
  assert (HN : num_sent ser (qCtx q) n).
  { unfold num_sent. destruct (cSerialized (qCtx q)); [left; split; congruence|right].
    split; [reflexivity|]. destruct ser as [s|]; [|discriminate]. exists s. split; congruence. }
  split; [exact HA|]. split; [exact HN|].
  set (h := BuildHeader true false n (qID q) 0) in *.
  assert (Hg : IsGzip h = false) by (unfold h; reflexivity).
  destruct (gzip_cases X (mkMsg h (qAttach q) b) (cGzipSize (qCtx q)) HX Hg) as [HM HC]. cbn zeta in *.
  set (m1 := encodeMessageGzip X (mkMsg h (qAttach q) b) (cGzipSize (qCtx q))) in *. clearbody m1.
  cbn [mMeta mHeader mBody] in *.
  set (h1 := if cOneway (qCtx q) then SetOneWay true (mHeader m1) else mHeader m1) in *.
  set (h2 := if cProxy (qCtx q) then SetProxy true h1 else h1) in *.
  injection H as <-. cbn [mMeta mHeader mBody]. rewrite HM. split; [reflexivity|].
  assert (HR : hReqID h2 = hReqID (mHeader m1)).
  { unfold h2, h1, SetProxy, SetOneWay, setType. destruct (cProxy (qCtx q)), (cOneway (qCtx q)); reflexivity. }
  assert (HV : forall gz, view (mHeader m1) = mkView false gz false false true 1 0 (Z.to_N n) (qID q) ->
     view h2 = mkView false gz (cOneway (qCtx q)) (cProxy (qCtx q)) true 1 0 (Z.to_N n) (qID q)).
  { intros gz Hv. unfold h2, h1. destruct (cProxy (qCtx q)), (cOneway (qCtx q));
      rewrite ?view_setproxy, ?view_setoneway, Hv; reflexivity. }
  assert (H0 : (0 <= n <= 31)%Z -> view h = mkView false false false false true 1 0 (Z.to_N n) (qID q)).
  { intro Hn. unfold h. rewrite buildHeader_view by lia. reflexivity. }
  destruct HC as [->|(Hv & Hb & Hz & Hu)].
  - cbn [mHeader mBody] in *. split; [rewrite HR; reflexivity|]. left. split; [reflexivity|]. intro Hn. apply HV, H0, Hn.
  - split.
    + rewrite HR. assert (E : v_rid (view (mHeader m1)) = v_rid (spec_hop (view h) (OpGzip true))) by (rewrite Hv; reflexivity).
      exact E.
    + right. repeat split; auto. intro Hn. apply HV. rewrite Hv, (H0 Hn). reflexivity.
Qed.

Lemma sent_meta_get m k : NoDup (akeys (mMeta m)) ->
  aget bs_eqb (sent_meta m) k = match aget bs_eqb (mMeta m) k with Some v => if encodable (k, v) then Some v else None | None => None end.
Proof. apply aget_filter. Qed.

Lemma convert_request_roundtrip {A} X asBytes ser (q : mrequest A) m :
  gzip_lossless X -> (cProxy (qCtx q) = true -> cOriginal (qCtx q) = None) ->
  NoDup (akeys (qAttach q)) ->
  one_line (qService q) -> one_line (qMethod q) -> one_line (qDesc q) ->
  (qDesc q = [] -> aget bs_eqb (qAttach q) MMethodDesc = None) ->
  (forall n, num_sent ser (qCtx q) n -> (0 <= n <= 31)%Z) ->
  convertToReqMessage X asBytes ser q = inl m ->
  exists r b, convertToRequest X true (received m) = inl r /\ args_bytes asBytes ser q b /\
    (aget bs_eqb (qAttach q) MRequestID = None -> rqID r = qID q) /\
    (forall s, aget bs_eqb (qAttach q) MRequestID = Some s -> encodable (MRequestID, s) = true ->
       rqID r = toUnsigned 64 (fst (parseInt64 s))) /\
    rqService r = qService q /\ rqMethod r = qMethod q /\ rqDesc r = qDesc q /\
    rqBody r = match b with [] => None | _ => Some b end /\
    rqProxy r = cProxy (qCtx q) /\ IsOneWay (mHeader (rqOriginal r)) = cOneway (qCtx q) /\
    (forall k v, In (k, v) (qAttach q) -> encodable (k, v) = true -> ~ In k req_reserved ->
       aget bs_eqb (rqAttach r) k = Some v) /\
    (forall k, aget bs_eqb (rqAttach r) k <> None ->
       In k (akeys (qAttach q)) \/ In k (MRequestID :: req_reserved)).
Proof.
  intros HX Ho Hnd Hs Hm Hd Hdesc Hnum H.
  destruct (convertToReqMessage_inv X asBytes ser q m HX Ho H) as (b & n & HA & HN & HM & HR & HB).
  specialize (Hnum n HN).
  pose proof (req_meta_nodup q Hnd) as Hnd'. rewrite <- HM in Hnd'.
  destruct (req_meta_get q) as (G1 & G2 & G3 & G4). rewrite <- HM in G1, G2, G3, G4.
  assert (KR : cleankey MRequestID) by (split; reflexivity).
  assert (KP : cleankey MPath) by (split; reflexivity).
  assert (KM : cleankey MMethod) by (split; reflexivity).
  assert (KD : cleankey MMethodDesc) by (split; reflexivity).
  set (c := qCtx q) in *.
  assert (HV : exists gz, view (mHeader m) = mkView false gz (cOneway c) (cProxy c) true 1 0 (Z.to_N n) (qID q)
      /\ (gz = false -> mBody m = b) /\ (gz = true -> b <> [] /\ mBody m <> [] /\ x_ungz X (mBody m) = Some b)).
  { destruct HB as [(E & V)|(E1 & E2 & E3 & V)]; [exists false|exists true]; repeat split; auto; try discriminate; congruence. }
  destruct HV as (gz & HV & Hgf & Hgt). clear HB.
  assert (Fgz : IsGzip (mHeader m) = gz) by (change (IsGzip (mHeader m)) with (v_gz (view (mHeader m))); rewrite HV; reflexivity).
  assert (Fpx : IsProxy (mHeader m) = cProxy c) by (change (IsProxy (mHeader m)) with (v_px (view (mHeader m))); rewrite HV; reflexivity).
  assert (Fow : IsOneWay (mHeader m) = cOneway c) by (change (IsOneWay (mHeader m)) with (v_ow (view (mHeader m))); rewrite HV; reflexivity).
  assert (Fow' : IsOneWay (SetGzip false (mHeader m)) = cOneway c).
  { change (IsOneWay (SetGzip false (mHeader m))) with (v_ow (view (SetGzip false (mHeader m)))). rewrite view_setgzip, HV. reflexivity. }
  unfold convertToRequest, received. cbn [mHeader mMeta mBody].
  (* metadata after the id handling *)
  set (im := match aget bs_eqb (sent_meta m) MRequestID with
    | Some s => (toUnsigned 64 (fst (parseInt64 s)), sent_meta m)
    | None => (hReqID (mHeader m), if IsProxy (mHeader m) then aset bs_eqb (sent_meta m) MRequestID (fmtZ (toSigned 64 (hReqID (mHeader m)))) else sent_meta m)
    end).
  assert (HI : exists rid meta, im = (rid, meta) /\
     (aget bs_eqb (qAttach q) MRequestID = None -> rid = qID q) /\
     (forall s, aget bs_eqb (qAttach q) MRequestID = Some s -> encodable (MRequestID, s) = true -> rid = toUnsigned 64 (fst (parseInt64 s))) /\
     (forall k v, aget bs_eqb (sent_meta m) k = Some v -> aget bs_eqb meta k = Some v) /\
     (forall k, k <> MRequestID -> aget bs_eqb meta k = aget bs_eqb (sent_meta m) k)).
  { unfold im. rewrite sent_meta_get by exact Hnd'. rewrite G4 by (cbn; intros [?|[?|[?|[?|[]]]]]; discriminate).
    destruct (aget bs_eqb (qAttach q) MRequestID) as [s|] eqn:Er.
    - destruct (encodable (MRequestID, s)) eqn:Ee.
      + eexists _, _. split; [reflexivity|]. repeat split; auto; try congruence.
      + eexists _, _. split; [reflexivity|]. repeat split; auto; try congruence.
        * intros k v Hk. destruct (IsProxy (mHeader m)); [|exact Hk]. rewrite (aget_aset bs_eqb bs_eqb_spec).
          destruct (bs_eqb k MRequestID) eqn:Ek; [|exact Hk]. apply bs_eqb_spec in Ek. subst k.
          rewrite sent_meta_get in Hk by exact Hnd'. rewrite G4, Er, Ee in Hk by (cbn; intros [?|[?|[?|[?|[]]]]]; discriminate). discriminate.
        * intros k Hk. destruct (IsProxy (mHeader m)); [|reflexivity]. rewrite (aget_aset bs_eqb bs_eqb_spec).
          apply bs_eqb_neq in Hk. rewrite Hk. reflexivity.
    - eexists _, _. split; [reflexivity|]. repeat split; auto; try congruence.
      + intros k v Hk. destruct (IsProxy (mHeader m)); [|exact Hk]. rewrite (aget_aset bs_eqb bs_eqb_spec).
        destruct (bs_eqb k MRequestID) eqn:Ek; [|exact Hk]. apply bs_eqb_spec in Ek. subst k.
        rewrite sent_meta_get in Hk by exact Hnd'. rewrite G4, Er in Hk by (cbn; intros [?|[?|[?|[?|[]]]]]; discriminate). discriminate.
      + intros k Hk. destruct (IsProxy (mHeader m)); [|reflexivity]. rewrite (aget_aset bs_eqb bs_eqb_spec).
        apply bs_eqb_neq in Hk. rewrite Hk. reflexivity. }
  destruct HI as (rid & meta & -> & I1 & I2 & I3 & I4).
  assert (LD : forall k, k <> MRequestID -> loadOrEmpty meta k = loadOrEmpty (sent_meta m) k).
  { intros k Hk. unfold loadOrEmpty. rewrite I4 by exact Hk. reflexivity. }
  rewrite Fgz, Fpx.
  assert (SV : loadOrEmpty meta MPath = qService q).
  { rewrite LD by discriminate. apply loadOrEmpty_sent; auto. }
  assert (MV : loadOrEmpty meta MMethod = qMethod q).
  { rewrite LD by discriminate. apply loadOrEmpty_sent; auto. }
  assert (DV : loadOrEmpty meta MMethodDesc = qDesc q).
  { rewrite LD by discriminate. destruct (qDesc q) as [|c0 d] eqn:Ed.
    - cbn [bs_empty] in G3. rewrite Hdesc in G3 by reflexivity. apply loadOrEmpty_absent; assumption.
    - cbn [bs_empty] in G3. apply loadOrEmpty_sent; auto. }
  assert (AT : forall k v, In (k, v) (qAttach q) -> encodable (k, v) = true -> ~ In k req_reserved -> aget bs_eqb meta k = Some v).
  { intros k v Hin He Hk. apply I3. rewrite sent_meta_get by exact Hnd'. rewrite G4 by exact Hk.
    rewrite (In_aget bs_eqb bs_eqb_spec _ _ _ Hnd Hin), He. reflexivity. }
  assert (NX : forall k, aget bs_eqb meta k <> None -> In k (akeys (qAttach q)) \/ In k (MRequestID :: req_reserved)).
  { intros k Hk. destruct (bs_eq_dec k MRequestID) as [->|Hne]; [right; left; reflexivity|].
    rewrite I4 in Hk by exact Hne. rewrite sent_meta_get in Hk by exact Hnd'.
    destruct (in_dec bs_eq_dec k req_reserved) as [Hr|Hr]; [right; right; exact Hr|].
    rewrite G4 in Hk by exact Hr. left.
    destruct (in_dec bs_eq_dec k (akeys (qAttach q))) as [Hin|Hin]; [exact Hin|].
    apply (aget_None bs_eqb bs_eqb_spec) in Hin. rewrite Hin in Hk. contradiction. }
  destruct gz.
  - destruct (Hgt eq_refl) as (Hb & Hmb & Hu).
    destruct (Nat.ltb_spec 0 (length (mBody m))) as [_|Hl]; [|destruct (mBody m); [contradiction|cbn in Hl; lia]].
    cbn [negb]. rewrite andb_false_r. eexists _, b. split; [reflexivity|]. cbn [rqID rqService rqMethod rqDesc rqBody rqAttach rqProxy rqOriginal mHeader].
    rewrite (decodeGzipBody_ok _ _ _ Hmb Hu).
    repeat split; auto. destruct b; [contradiction|reflexivity].
  - specialize (Hgf eq_refl). rewrite Hgf.
    destruct (Nat.ltb_spec 0 (length b)) as [Hl|Hl].
    + cbn [negb]. rewrite andb_false_r. eexists _, b. split; [reflexivity|]. cbn [rqID rqService rqMethod rqDesc rqBody rqAttach rqProxy rqOriginal mHeader].
      repeat split; auto. destruct b; [cbn in Hl; lia|reflexivity].
    + eexists _, b. split; [reflexivity|]. cbn [rqID rqService rqMethod rqDesc rqBody rqAttach rqProxy rqOriginal mHeader].
      repeat split; auto. destruct b; [reflexivity|cbn in Hl; lia].
Qed.

(* ------------------------------------------------------------ responses *)

Definition res_meta {A} (X : ext) (p : mresponse A) : list (bs * bs) :=
  match pExc p with Some e => aset bs_eqb (pAttach p) MException (x_toJSON X e) | None => pAttach p end.

Lemma convert_response_roundtrip {A} X asBytes ser (p : mresponse A) m :
  gzip_lossless X -> (forall e, pExc p = Some e -> json_lossless X e) -> (cProxy (pCtx p) = true -> cOriginal (pCtx p) = None) ->
  NoDup (akeys (pAttach p)) ->
  (forall s, ser = Some s -> (0 <= s_num s <= 31)%Z) -> (0 <= cSerNum (pCtx p) <= 31)%Z ->
  convertToResMessage X asBytes ser p = inl m ->
  exists r, convertToResponse X true (received m) = inl r /\
    rpID r = pID p /\ rpExc r = pExc p /\ rpProxy r = cProxy (pCtx p) /\ isRequest (mHeader m) = false /\
    GetVersion (mHeader m) = 1%N /\ hReqID (mHeader m) = pID p /\ NoDup (akeys (mMeta m)) /\
    (pExc p = None -> match pValue p with
                      | None => rpBody r = None
                      | Some v => exists b, res_bytes asBytes ser (pCtx p) v b /\ rpBody r = match b with [] => None | _ => Some b end
                      end) /\
    (forall k v, In (k, v) (pAttach p) -> encodable (k, v) = true -> (k <> MException \/ pExc p = None) ->
       aget bs_eqb (rpAttach r) k = Some v) /\
    (forall k, aget bs_eqb (rpAttach r) k <> None -> In k (akeys (pAttach p)) \/ k = MException).
Proof.
  intros HX HJ Ho Hnd Hsn Hcn H. unfold convertToResMessage in H.
  assert (E : (if cProxy (pCtx p) then cOriginal (pCtx p) else None) = None) by (destruct (cProxy (pCtx p)); auto).
  rewrite E in H. clear E. fold (res_meta X p) in H.
  set (c := pCtx p) in *. set (st := match pExc p with Some _ => 1%Z | None => 0%Z end) in *.
  set (sd := match pExc p with Some _ => cSerialized c || cProxy c | None => cSerialized c end) in *.
  destruct (if sd then Some (cSerNum c) else match ser with Some s => Some (s_num s) | None => None end) as [n|] eqn:En; [|discriminate].
  assert (Hn : (0 <= n <= 31)%Z).
  { destruct sd; [injection En as <-; exact Hcn|]. destruct ser as [s|]; [|discriminate]. injection En as <-. apply Hsn. reflexivity. }
  match type of H with match ?B with inl _ => _ | inr _ => _ end = _ => destruct B as [b|e] eqn:Eb; [|discriminate] end.
  set (h := BuildHeader false false n (pID p) st) in *.
  assert (Hst : (0 <= st <= 7)%Z) by (unfold st; destruct (pExc p); lia).
  assert (Vh : view h = mkView false false false false false 1 (Z.to_N st) (Z.to_N n) (pID p)) by (apply buildHeader_view; lia).
  assert (Hg : IsGzip h = false) by (change (IsGzip h) with (v_gz (view h)); rewrite Vh; reflexivity).
  destruct (gzip_cases X (mkMsg h (res_meta X p) b) (cGzipSize c) HX Hg) as [HM HC]. cbn zeta in *.
  set (m1 := encodeMessageGzip X (mkMsg h (res_meta X p) b) (cGzipSize c)) in *. clearbody m1.
  cbn [mMeta mHeader mBody] in *.
  set (h2 := if cProxy c then SetProxy true (mHeader m1) else mHeader m1) in *.
  injection H as <-. cbn [mMeta mHeader mBody].
  assert (HV : exists gz, view h2 = mkView false gz false (cProxy c) false 1 (Z.to_N st) (Z.to_N n) (pID p)
      /\ (gz = false -> mBody m1 = b) /\ (gz = true -> b <> [] /\ mBody m1 <> [] /\ x_ungz X (mBody m1) = Some b)).
  { destruct HC as [->|(Hv & Hb & Hz & Hu)]; [exists false|exists true].
    - split; [|split; [reflexivity|discriminate]]. unfold h2. cbn [mHeader]. destruct (cProxy c); rewrite ?view_setproxy, Vh; reflexivity.
    - split; [|split; [discriminate|auto]]. unfold h2. destruct (cProxy c); rewrite ?view_setproxy, Hv, Vh; reflexivity. }
  destruct HV as (gz & HV & Hgf & Hgt). clearbody h2.
  assert (Fgz : IsGzip h2 = gz) by (change (IsGzip h2) with (v_gz (view h2)); rewrite HV; reflexivity).
  assert (Fpx : IsProxy h2 = cProxy c) by (change (IsProxy h2) with (v_px (view h2)); rewrite HV; reflexivity).
  assert (Frq : isRequest h2 = false) by (change (isRequest h2) with (v_rq (view h2)); rewrite HV; reflexivity).
  assert (Fst : GetStatus h2 = Z.to_N st) by (change (GetStatus h2) with (v_st (view h2)); rewrite HV; reflexivity).
  assert (Fid : hReqID h2 = pID p) by (change (hReqID h2) with (v_rid (view h2)); rewrite HV; reflexivity).
  assert (Fve : GetVersion h2 = 1%N) by (change (GetVersion h2) with (v_ver (view h2)); rewrite HV; reflexivity).
  assert (Hnd' : NoDup (akeys (res_meta X p))).
  { unfold res_meta. destruct (pExc p); [apply (NoDup_aset _ bs_eqb_spec)|]; exact Hnd. }
  set (mm := mkMsg h2 (mMeta m1) (mBody m1)).
  assert (SM : sent_meta mm = filter encodable (res_meta X p)) by (unfold mm, sent_meta; cbn [mMeta]; rewrite HM; reflexivity).
  unfold convertToResponse, received. fold mm. rewrite SM. cbn [mHeader mMeta mBody mm].
  rewrite Fst, Fpx, Fgz, Fid. rewrite andb_false_r.
  set (pt := match aget bs_eqb _ MProcessTime with Some _ => _ | None => _ end). clearbody pt.
  assert (AT : forall k v, In (k, v) (pAttach p) -> encodable (k, v) = true -> (k <> MException \/ pExc p = None) ->
       aget bs_eqb (filter encodable (res_meta X p)) k = Some v).
  { intros k v Hin He Hk. rewrite aget_filter by exact Hnd'.
    assert (G : aget bs_eqb (res_meta X p) k = Some v).
    { pose proof (In_aget bs_eqb bs_eqb_spec _ _ _ Hnd Hin) as G. unfold res_meta. destruct (pExc p); [|exact G].
      rewrite (aget_aset bs_eqb bs_eqb_spec). destruct Hk as [Hk|Hk]; [|discriminate].
      apply bs_eqb_neq in Hk. rewrite Hk. exact G. }
    rewrite G, He. reflexivity. }
  assert (NX : forall k, aget bs_eqb (filter encodable (res_meta X p)) k <> None -> In k (akeys (pAttach p)) \/ k = MException).
  { intros k Hk. rewrite aget_filter in Hk by exact Hnd'.
    destruct (bs_eq_dec k MException) as [->|Hne]; [auto|]. left.
    destruct (in_dec bs_eq_dec k (akeys (pAttach p))) as [Hin|Hin]; [exact Hin|].
    apply (aget_None bs_eqb bs_eqb_spec) in Hin. exfalso. apply Hk. unfold res_meta.
    destruct (pExc p); [rewrite (aget_aset bs_eqb bs_eqb_spec); apply bs_eqb_neq in Hne; rewrite Hne|]; rewrite Hin; reflexivity. }
  destruct (pExc p) as [e|] eqn:Ee.
  - (* exception *)
    unfold st. change (Z.to_N 1) with 1%N. change (1 =? 0)%N with false. change (1 =? 1)%N with true. cbn [andb].
    destruct (HJ e eq_refl) as (J1 & J2 & J3).
    assert (L : loadOrEmpty (filter encodable (res_meta X p)) MException = x_toJSON X e).
    { apply loadOrEmpty_sent; auto; [split; reflexivity|]. unfold res_meta. rewrite Ee.
      rewrite (aget_aset bs_eqb bs_eqb_spec), bs_eqb_refl. reflexivity. }
    rewrite L. destruct (x_toJSON X e) as [|c0 j] eqn:Ej; [contradiction|]. cbn [bs_empty]. rewrite J1.
    eexists. split; [reflexivity|]. cbn [rpID rpBody rpExc rpAttach rpProxy]. repeat split; auto; [rewrite HM; exact Hnd'|discriminate].
  - unfold st. change (Z.to_N 0) with 0%N. change (0 =? 0)%N with true. change (0 =? 1)%N with false. cbn [andb].
    assert (HBV : match pValue p with None => b = [] | Some v => res_bytes asBytes ser c v b end).
    { destruct (pValue p) as [v|]; [|congruence]. unfold res_bytes. unfold sd in Eb. destruct (cSerialized c).
      - left. split; [reflexivity|]. destruct (asBytes v); congruence.
      - right. split; [reflexivity|]. destruct ser as [s|]; [|discriminate]. exists s. split; [reflexivity|].
        destruct (s_one s v); congruence. }
    assert (BODY : (if 0 <? length (mBody m1) then @inl (option bs) cerr (Some (if gz then decodeGzipBody X (mBody m1) else mBody m1)) else inl None)
              = inl (match b with [] => None | _ => Some b end)).
    { destruct gz.
      - destruct (Hgt eq_refl) as (Hb & Hmb & Hu). rewrite (decodeGzipBody_ok _ _ _ Hmb Hu).
        destruct (mBody m1); [contradiction|]. destruct b; [contradiction|]. reflexivity.
      - rewrite (Hgf eq_refl). destruct b; reflexivity. }
    rewrite BODY. eexists. split; [reflexivity|]. cbn [rpID rpBody rpExc rpAttach rpProxy]. repeat split; auto; [rewrite HM; exact Hnd'|].
    intros _. destruct (pValue p) as [v|]; [exists b; auto|]. subst b. reflexivity.
Qed.

(* ------------------------------------------------------------ further facts *)

Lemma toSigned_range u : (u < 2 ^ 64)%N -> (-9223372036854775808 <= toSigned 64 u <= 9223372036854775807)%Z.
Proof.
  intro H. unfold toSigned. change (2 ^ (64 - 1))%N with 9223372036854775808%N.
  change (2 ^ 64)%N with 18446744073709551616%N in *. change (2 ^ Z.of_N 64)%Z with 18446744073709551616%Z.
  repeat match goal with |- context [(?a <? ?b)%N] => destruct (N.ltb_spec a b) end; lia.
Qed.
Lemma toUnsigned_toSigned u : (u < 2 ^ 64)%N -> toUnsigned 64 (toSigned 64 u) = u.
Proof.
  intro H. unfold toSigned, toUnsigned. change (2 ^ (64 - 1))%N with 9223372036854775808%N.
  change (2 ^ 64)%N with 18446744073709551616%N in *. change (2 ^ Z.of_N 64)%Z with 18446744073709551616%Z.
  destruct (N.ltb_spec u 9223372036854775808).
  - rewrite Z.mod_small by lia. lia.
  - rewrite <- (Z_mod_plus_full _ 1), Z.mod_small by lia. lia.
Qed.

Lemma proxy_id_carried X m r :
  IsProxy (mHeader m) = true -> aget bs_eqb (mMeta m) MRequestID = None -> (hReqID (mHeader m) < 2 ^ 64)%N ->
  convertToRequest X true m = inl r ->
  rqID r = hReqID (mHeader m) /\
  toUnsigned 64 (fst (parseInt64 (loadOrEmpty (rqAttach r) MRequestID))) = hReqID (mHeader m).
Proof.
  intros Hp Hn Hr H. unfold convertToRequest in H. rewrite Hn, Hp in H. cbn [negb andb] in H.
  set (meta := aset bs_eqb (mMeta m) MRequestID (fmtZ (toSigned 64 (hReqID (mHeader m))))) in *.
  assert (L : loadOrEmpty meta MRequestID = fmtZ (toSigned 64 (hReqID (mHeader m)))).
  { unfold loadOrEmpty, meta. rewrite (aget_aset bs_eqb bs_eqb_spec), bs_eqb_refl. reflexivity. }
  assert (E : rqID r = hReqID (mHeader m) /\ rqAttach r = meta).
  { destruct (0 <? length (mBody m)); injection H as <-; cbn; auto. }
  destruct E as [-> ->]. split; [reflexivity|]. rewrite L. rewrite parse_fmtZ.
  - cbn [fst]. apply toUnsigned_toSigned. exact Hr.
  - apply toSigned_range. exact Hr.
Qed.

Lemma exception_response_ok rid msg :
  exists m, buildExceptionResponse rid msg = Some m /\
    view (mHeader m) = mkView false false false false false 1 1 6 rid /\ mMeta m = [(MException, msg)] /\ mBody m = [].
Proof. eexists. split; [reflexivity|]. repeat split. Qed.

Lemma heartbeat_ok isReq rid :
  let m := buildHeartbeat isReq rid in
  view (mHeader m) = mkView true false false true isReq 1 0 6 rid /\ mMeta m = [] /\ mBody m = [].
Proof. destruct isReq; repeat split. Qed.


Lemma wire_step max ob m rest :
  buf_reusable ob -> (hReqID (mHeader m) < 2 ^ 64)%N -> GetVersion (mHeader m) = 1%N -> NoDup (akeys (mMeta m)) ->
  sizes_ok max m -> decodeMsg max (bytesOf (encodeMsg ob m) ++ rest) = DecOk (received m) rest.
Proof.
  intros Ho Hr Hv Hn (H1 & H2 & H3). destruct (encode_frame ob m Ho ltac:(lia) ltac:(lia)) as [-> _].
  apply decode_frame. repeat split; auto.
Qed.

Lemma request_over_wire {A} X asBytes ser (q : mrequest A) m max ob rest :
  gzip_lossless X -> (cProxy (qCtx q) = true -> cOriginal (qCtx q) = None) ->
  NoDup (akeys (qAttach q)) -> (qID q < 2 ^ 64)%N ->
  one_line (qService q) -> one_line (qMethod q) -> one_line (qDesc q) ->
  (qDesc q = [] -> aget bs_eqb (qAttach q) MMethodDesc = None) ->
  (forall n, num_sent ser (qCtx q) n -> (0 <= n <= 31)%Z) ->
  buf_reusable ob -> sizes_ok max m ->
  convertToReqMessage X asBytes ser q = inl m ->
  exists m' r b, decodeMsg max (bytesOf (encodeMsg ob m) ++ rest) = DecOk m' rest /\
    convertToRequest X true m' = inl r /\ args_bytes asBytes ser q b /\
    (aget bs_eqb (qAttach q) MRequestID = None -> rqID r = qID q) /\
    (forall s, aget bs_eqb (qAttach q) MRequestID = Some s -> encodable (MRequestID, s) = true ->
       rqID r = toUnsigned 64 (fst (parseInt64 s))) /\
    rqService r = qService q /\ rqMethod r = qMethod q /\ rqDesc r = qDesc q /\
    rqBody r = match b with [] => None | _ => Some b end /\
    rqProxy r = cProxy (qCtx q) /\ IsOneWay (mHeader (rqOriginal r)) = cOneway (qCtx q) /\
    (forall k v, In (k, v) (qAttach q) -> encodable (k, v) = true -> ~ In k req_reserved ->
       aget bs_eqb (rqAttach r) k = Some v) /\
    (forall k, aget bs_eqb (rqAttach r) k <> None ->
       In k (akeys (qAttach q)) \/ In k (MRequestID :: req_reserved)).
Proof.
  intros HX Ho Hnd Hid Hs Hm Hd Hdesc Hnum Hob Hsz H.
  destruct (convert_request_roundtrip X asBytes ser q m HX Ho Hnd Hs Hm Hd Hdesc Hnum H) as (r & b & HR).
  exists (received m), r, b. split; [|exact HR].
  destruct (convertToReqMessage_inv X asBytes ser q m HX Ho H) as (b' & n & HA & HN & HM & HI & HB).
  specialize (Hnum n HN). apply wire_step; auto.
  - rewrite HI. exact Hid.
  - change (GetVersion (mHeader m)) with (v_ver (view (mHeader m))).
    destruct HB as [(_ & V)|(_ & _ & _ & V)]; rewrite (V Hnum); reflexivity.
  - rewrite HM. apply req_meta_nodup, Hnd.
Qed.

Lemma response_over_wire {A} X asBytes ser (p : mresponse A) m max ob rest :
  gzip_lossless X -> (forall e, pExc p = Some e -> json_lossless X e) -> (cProxy (pCtx p) = true -> cOriginal (pCtx p) = None) ->
  NoDup (akeys (pAttach p)) -> (pID p < 2 ^ 64)%N ->
  (forall s, ser = Some s -> (0 <= s_num s <= 31)%Z) -> (0 <= cSerNum (pCtx p) <= 31)%Z ->
  buf_reusable ob -> sizes_ok max m ->
  convertToResMessage X asBytes ser p = inl m ->
  exists m' r, decodeMsg max (bytesOf (encodeMsg ob m) ++ rest) = DecOk m' rest /\
    convertToResponse X true m' = inl r /\
    rpID r = pID p /\ rpExc r = pExc p /\ rpProxy r = cProxy (pCtx p) /\ isRequest (mHeader m') = false /\
    (pExc p = None -> match pValue p with
                      | None => rpBody r = None
                      | Some v => exists b, res_bytes asBytes ser (pCtx p) v b /\ rpBody r = match b with [] => None | _ => Some b end
                      end) /\
    (forall k v, In (k, v) (pAttach p) -> encodable (k, v) = true -> (k <> MException \/ pExc p = None) ->
       aget bs_eqb (rpAttach r) k = Some v) /\
    (forall k, aget bs_eqb (rpAttach r) k <> None -> In k (akeys (pAttach p)) \/ k = MException).
Proof.
  intros HX HJ Ho Hnd Hid Hsn Hcn Hob Hsz H.
  destruct (convert_response_roundtrip X asBytes ser p m HX HJ Ho Hnd Hsn Hcn H)
    as (r & R1 & R2 & R3 & R4 & R5 & R6 & R7 & R8 & R9 & R10 & R11).
  exists (received m), r. split.
  - apply wire_step; auto. rewrite R7. exact Hid.
  - repeat split; auto.
Qed.

(* ------------------------------------------------------------ forwarding a received message *)

Lemma original_plain X m r b :
  plain_body X m b -> convertToRequest X true m = inl r ->
  mBody (rqOriginal r) = b /\ IsGzip (mHeader (rqOriginal r)) = false /\ rqBody r = match b with [] => (if IsGzip (mHeader m) then Some [] else None) | _ => Some b end /\
  (exists g, view (mHeader (rqOriginal r)) = spec_hop (view (mHeader m)) (OpGzip g)).
Proof.
  intros HP H. unfold convertToRequest in H. destruct (match aget _ _ _ with Some s => _ | None => _ end) as [rid meta].
  destruct HP as [(Hg & Hb)|(Hg & Hne & Hu)]; rewrite Hg in H.
  - destruct (Nat.ltb_spec 0 (length (mBody m))) as [Hl|Hl].
    + rewrite andb_false_r in H. injection H as <-. cbn [rqOriginal mBody mHeader rqBody]. rewrite Hb in *. repeat split; auto.
      * destruct b; [cbn in Hl; lia|reflexivity].
      * exists false. rewrite <- Hg. reflexivity.
    + injection H as <-. cbn [rqOriginal mBody mHeader rqBody]. rewrite Hb in *. repeat split; auto.
      * rewrite Hg. destruct b; [reflexivity|cbn in Hl; lia].
      * exists false. rewrite <- Hg. reflexivity.
  - destruct (Nat.ltb_spec 0 (length (mBody m))) as [Hl|Hl]; [|destruct (mBody m); [contradiction|cbn in Hl; lia]].
    rewrite andb_false_r in H. injection H as <-. cbn [rqOriginal mBody mHeader rqBody].
    rewrite (decodeGzipBody_ok _ _ _ Hne Hu). rewrite Hg. repeat split; auto.
    + change (IsGzip (SetGzip false (mHeader m))) with (v_gz (view (SetGzip false (mHeader m)))). rewrite view_setgzip. reflexivity.
    + destruct b; reflexivity.
    + exists false. apply view_setgzip.
Qed.

Lemma forward_request {A} X asBytes ser m r (q : mrequest A) b :
  gzip_lossless X -> plain_body X m b -> convertToRequest X true m = inl r ->
  cProxy (qCtx q) = true -> cOriginal (qCtx q) = Some (mkMsg (mHeader (rqOriginal r)) (qAttach q) (mBody (rqOriginal r))) ->
  exists m2, convertToReqMessage X asBytes ser q = inl m2 /\ plain_body X m2 b /\
    (exists g, view (mHeader m2) = spec_hop (spec_hop (view (mHeader m)) (OpGzip g)) (OpProxy true)) /\
    (forall k, aget bs_eqb (mMeta m2) k = if bs_eqb k MGroup then Some (loadOrEmpty (qAttach q) MGroup) else aget bs_eqb (qAttach q) k).
Proof.
  intros HX HP HR Hp Ho. destruct (original_plain X m r b HP HR) as (B1 & B2 & _ & (g & B3)).
  unfold convertToReqMessage. rewrite Hp, Ho. cbn [mHeader mMeta mBody].
  eexists. split; [reflexivity|].
  set (m1 := mkMsg (SetProxy true (mHeader (rqOriginal r))) (aset bs_eqb (qAttach q) MGroup (loadOrEmpty (qAttach q) MGroup)) (mBody (rqOriginal r))).
  assert (V1 : view (mHeader m1) = spec_hop (spec_hop (view (mHeader m)) (OpGzip g)) (OpProxy true)).
  { unfold m1. cbn [mHeader]. rewrite view_setproxy, B3. reflexivity. }
  assert (G1 : IsGzip (mHeader m1) = false).
  { change (IsGzip (mHeader m1)) with (v_gz (view (mHeader m1))). unfold m1. cbn [mHeader]. rewrite view_setproxy. exact B2. }
  destruct (gzip_cases X m1 (cGzipSize (qCtx q)) HX G1) as [M [E|(V & N1 & N2 & U)]].
  - rewrite E. split; [left; split; [exact G1|exact B1]|]. split; [exists g; exact V1|].
    intro k. unfold m1. cbn [mMeta]. apply (aget_aset bs_eqb bs_eqb_spec).
  - split; [right; repeat split|].
    + change (IsGzip ?h) with (v_gz (view h)). rewrite V. reflexivity.
    + exact N2.
    + rewrite U. cbn [m1 mBody]. unfold m1. cbn [mBody]. f_equal. exact B1.
    + split; [exists true; rewrite V, V1; reflexivity|]. intro k. rewrite M. unfold m1. cbn [mMeta]. apply (aget_aset bs_eqb bs_eqb_spec).
Qed.

Lemma forward_response {A} X asBytes ser o (p : mresponse A) :
  cProxy (pCtx p) = true -> cOriginal (pCtx p) = Some o ->
  exists m2, convertToResMessage X asBytes ser p = inl m2 /\ mMeta m2 = mMeta o /\ mBody m2 = mBody o /\
    view (mHeader m2) = spec_hop (view (mHeader o)) (OpProxy true).
Proof.
  intros Hp Ho. unfold convertToResMessage. rewrite Hp, Ho. eexists. split; [reflexivity|]. repeat split. apply view_setproxy.
Qed.

Lemma proxy_protocol_sent {A} X asBytes ser (q : mrequest A) m :
  gzip_lossless X -> (cProxy (qCtx q) = true -> cOriginal (qCtx q) = None) -> convertToReqMessage X asBytes ser q = inl m ->
  loadOrEmpty (mMeta m) (s2b "M_pp") = match loadOrEmpty (qAttach q) (s2b "M_pp") with [] => s2b "motan2" | x => x end.
Proof.
  intros G O H. destruct (convertToReqMessage_inv X asBytes ser q m G O H) as (b & n & _ & _ & -> & _). clear. change (s2b "M_pp") with MProxyProtocol. change (s2b "motan2") with defaultProtocol.
  unfold req_meta. cbv zeta. set (a2 := aset bs_eqb (aset bs_eqb (qAttach q) MPath (qService q)) MMethod (qMethod q)).
  assert (E : loadOrEmpty a2 MProxyProtocol = loadOrEmpty (qAttach q) MProxyProtocol) by (unfold loadOrEmpty, a2; akey; reflexivity).
  assert (S : forall a x, loadOrEmpty (aset bs_eqb a MMethodDesc x) MProxyProtocol = loadOrEmpty a MProxyProtocol) by (intros; unfold loadOrEmpty; akey; reflexivity).
  assert (T : forall a, loadOrEmpty (aset bs_eqb a MProxyProtocol defaultProtocol) MProxyProtocol = defaultProtocol) by (intros; unfold loadOrEmpty; akey; reflexivity).
  rewrite E. destruct (loadOrEmpty (qAttach q) MProxyProtocol) as [|c x] eqn:L; cbn [bs_empty]; destruct (bs_empty (qDesc q)); rewrite ?S, ?T; try reflexivity; exact E.
Qed.
