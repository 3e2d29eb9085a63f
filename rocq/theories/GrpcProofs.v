From Verif Require Import Base BytesModel BytesSpec BytesProofs Strconv ProtoModel ProtoSpec ConvModel ConvSpec SimpleModel UrlModel ServerModel ServerSpec ProvModel ProvSpec
  ProtoProofs ConvProofs ServerProofs GrpcModel GrpcSpec.
Ltac Zify.zify_post_hook ::= idtac.

Definition lowerc (c : byte) : byte := if ((65 <=? b2n c) && (b2n c <=? 90))%N then n2b (b2n c + 32) else c.
Lemma lowerc_cases c : same_letter c (lowerc c) /\ ~ (65 <= b2n (lowerc c) <= 90)%N.
Proof.
  unfold lowerc. destruct (65 <=? b2n c)%N eqn:A; cbn [andb]; [destruct (b2n c <=? 90)%N eqn:B|].
  - apply N.leb_le in A, B. rewrite b2n_n2b_small by lia. split; [apply Capital; [lia|apply b2n_n2b_small; lia]|lia].
  - apply N.leb_gt in B. split; [apply Same; reflexivity|lia].
  - apply N.leb_gt in A. split; [apply Same; reflexivity|lia].
Qed.
Lemma lower_ok k : in_lower_case k (lowerKey k).
Proof.
  split.
  - induction k as [|c k IH]; [constructor|]. constructor; [exact (proj1 (lowerc_cases c))|exact IH].
  - induction k as [|c k IH]; [constructor|]. constructor; [exact (proj2 (lowerc_cases c))|exact IH].
Qed.
Lemma lower_unique k l : in_lower_case k l -> l = lowerKey k.
Proof.
  intros [H N]. induction H as [|a b k l H _ IH]; [reflexivity|]. inversion N as [|? ? Nb Nl]; subst. cbn [lowerKey map]. f_equal; [|exact (IH Nl)].
  fold (lowerc a). destruct H as [<-|R E].
  - unfold lowerc. destruct (65 <=? b2n a)%N eqn:A; cbn [andb]; [destruct (b2n a <=? 90)%N eqn:B|]; try reflexivity. apply N.leb_le in A, B. contradiction Nb. auto.
  - unfold lowerc. rewrite (proj2 (N.leb_le _ _) (proj1 R)), (proj2 (N.leb_le _ _) (proj2 R)). cbn [andb]. rewrite <- E. symmetry. apply n2b_b2n.
Qed.

Lemma md_get m l : aget bs_eqb (mdNew m) l = match filter (fun kv : bs * bs => bs_eqb (lowerKey (fst kv)) l) m with [] => None | kvs => Some (map snd kvs) end.
Proof.
  induction m as [|[k v] r IH]; [reflexivity|]. cbn [mdNew filter fst]. cbv zeta. rewrite (aget_aset bs_eqb bs_eqb_spec).
  destruct (bs_eqb l (lowerKey k)) eqn:E.
  - apply bs_eqb_spec in E. subst l. rewrite bs_eqb_refl. rewrite IH. cbn [map snd]. destruct (filter _ r); reflexivity.
  - rewrite bs_eqb_sym in E. rewrite E. exact IH.
Qed.
Lemma sum_aset (md : list (bs * list bs)) k v : list_sum (map (fun x : bs * list bs => length (snd x))
    (aset bs_eqb md k (v :: match aget bs_eqb md k with Some l => l | None => [] end))) = S (list_sum (map (fun x : bs * list bs => length (snd x)) md)).
Proof.
  induction md as [|[k0 l0] md IH]; [reflexivity|]. cbn [aset aget]. destruct (bs_eqb k k0) eqn:E.
  - cbn [map snd list_sum fold_right length]. reflexivity.
  - cbn [map list_sum fold_right]. unfold list_sum in IH. rewrite IH. cbn [snd]. lia.
Qed.
Lemma md_says m : says (mdNew m) m.
Proof.
  constructor.
  - intros k v H. exists (lowerKey k). rewrite md_get. pose proof (proj2 (filter_In (fun kv : bs * bs => bs_eqb (lowerKey (fst kv)) (lowerKey k)) (k, v) m) (conj H (bs_eqb_refl _))) as F.
    destruct (filter _ m) as [|x xs] eqn:E; [destruct F|]. exists (map snd (x :: xs)). split; [apply lower_ok|]. split; [reflexivity|]. apply (in_map snd) in F. exact F.
  - intros l vs v H J. rewrite md_get in H. destruct (filter _ m) as [|x xs] eqn:E; [discriminate H|]. injection H as <-. change (snd x :: map snd xs) with (map snd (x :: xs)) in J.
    rewrite <- E in J. apply in_map_iff in J. destruct J as ([k w] & <- & J). apply filter_In in J. destruct J as [J1 J2]. apply bs_eqb_spec in J2.
    exists k. split; [exact J1|]. cbn [fst] in J2. rewrite <- J2. apply lower_ok.
  - induction m as [|[k v] r IH]; [reflexivity|]. cbn [mdNew length]. cbv zeta. rewrite sum_aset. f_equal. exact IH.
  - intros k v l ND H Hl Hu. apply lower_unique in Hl. subst l. rewrite md_get.
    assert (F : filter (fun kv : bs * bs => bs_eqb (lowerKey (fst kv)) (lowerKey k)) m = [(k, v)]).
    { assert (U : forall k' v', In (k', v') m -> bs_eqb (lowerKey k') (lowerKey k) = true -> k' = k).
      { intros k' v' J E. apply bs_eqb_spec in E. apply (Hu k' v' J). rewrite <- E. apply lower_ok. }
      clear Hu. induction m as [|[k0 v0] r IH]; [destruct H|]. cbn [filter fst]. cbn [akeys map fst] in ND. inversion ND as [|? ? N1 N2]; subst.
      destruct H as [H|H].
      - injection H as -> ->. rewrite bs_eqb_refl. f_equal.
        assert (G : forall k' v', In (k', v') r -> bs_eqb (lowerKey k') (lowerKey k) = true -> False).
        { intros k' v' J E. pose proof (U k' v' (or_intror J) E) as ->. apply N1. apply (in_map fst) in J. exact J. }
        clear - G. induction r as [|[k1 v1] r IH]; [reflexivity|]. cbn [filter fst]. destruct (bs_eqb (lowerKey k1) (lowerKey k)) eqn:E.
        + exfalso. exact (G k1 v1 (or_introl eq_refl) E).
        + apply IH. intros k' v' J. exact (G k' v' (or_intror J)).
      - destruct (bs_eqb (lowerKey k0) (lowerKey k)) eqn:E.
        + pose proof (U k0 v0 (or_introl eq_refl) E) as ->. exfalso. apply N1. apply (in_map fst) in H. exact H.
        + apply IH; [exact N2|exact H|]. intros k' v' J. exact (U k' v' (or_intror J)). }
    rewrite F. reflexivity.
Qed.

(* ------------------------------------------------------------ behind the agent *)

Lemma convReq_proxied X hs m : IsProxy (mHeader m) = true -> convertToRequest X hs m = convertToRequest X true m.
Proof. intro H. unfold convertToRequest. rewrite H. reflexivity. Qed.

Lemma agent_writes (c : scfg value) ip pt inv addr m rq p w : s_proxy c = true -> IsHeartbeat (mHeader m) = false ->
  convertToRequest (s_ext c) true (mkMsg (SetProxy true (mHeader m)) (aset bs_eqb (mMeta m) (s2b "host") ip) (mBody m)) = inl rq ->
  grpcHandler inv addr rq = HRes p -> convertToResMessage (s_ext c) (s_asBytes c) (s_ser c (GetSerialize (mHeader m))) (fillRes true pt p) = inl w ->
  processV2 c ip pt (grpcHandler inv addr) m = Write (withID w (hReqID (mHeader m))).
Proof.
  intros Hp Hb Hq Hh Hw. unfold processV2. cbv zeta. cbn [mHeader mMeta mBody]. rewrite Hp.
  destruct (setproxy_fields true (mHeader m)) as (F1 & F2 & F3). rewrite F1, F2, F3, Hb. change HostKey with (s2b "host").
  rewrite convReq_proxied by exact (f_equal v_px (view_setproxy true (mHeader m))). rewrite Hq, Hh, Hw. reflexivity.
Qed.

Lemma handler_asks inv addr rq b : rqBody rq = Some b -> grpcHandler inv addr rq =
  guarded (rqID rq) (addressed addr (grpcCall inv (rqID rq) (rqService rq) (rqMethod rq) [GDes b] (rqAttach rq))).
Proof. intro H. unfold grpcHandler. rewrite H. reflexivity. Qed.

Lemma header_view (st : Z) rid : (0 <= st < 8)%Z -> view (SetProxy true (BuildHeader false false 1 rid st)) = mkView false false false true false 1 (Z.to_N st) 1 rid.
Proof.
  intro H. rewrite view_setproxy, buildHeader_view by lia. cbn [spec_hop]. reflexivity.
Qed.

Lemma load_set m k v k' : loadOrEmpty (aset bs_eqb m k v) k' = if bs_eqb k' k then v else loadOrEmpty m k'.
Proof. unfold loadOrEmpty. rewrite (aget_aset bs_eqb bs_eqb_spec). destruct (bs_eqb k' k); reflexivity. Qed.

Lemma agent_value (c : scfg value) ip pt inv addr m rq b out : s_proxy c = true -> IsHeartbeat (mHeader m) = false ->
  s_asBytes c (VBytes out) = Some out ->
  convertToRequest (s_ext c) true (mkMsg (SetProxy true (mHeader m)) (aset bs_eqb (mMeta m) (s2b "host") ip) (mBody m)) = inl rq ->
  rqBody rq = Some b -> inv (mkInv (s2b "/" ++ rqService rq ++ s2b "/" ++ rqMethod rq) (mdNew (rqAttach rq)) b) = GOk out ->
  exists w, processV2 c ip pt (grpcHandler inv addr) m = Write w /\
    view (mHeader w) = mkView false false false true false 1 0 1 (hReqID (mHeader m)) /\ mBody w = out /\
    (addr <> [] -> loadOrEmpty (mMeta w) (s2b "x-forwarded-for") = addr).
Proof.
  intros Hp Hb Ha Hq Hbd Hinv. pose proof (handler_asks inv addr rq b Hbd) as Hh. cbn [grpcCall] in Hh. cbv zeta in Hh. rewrite Hinv in Hh. cbn [addressed guarded pID pValue pExc pAttach pCtx] in Hh.
  match type of Hh with _ = HRes ?x => set (p := x) in Hh end.
  assert (Hw : exists w, convertToResMessage (s_ext c) (s_asBytes c) (s_ser c (GetSerialize (mHeader m))) (fillRes true pt p) = inl w /\
    view (mHeader w) = mkView false false false true false 1 0 1 (rqID rq) /\ mBody w = out /\ (addr <> [] -> loadOrEmpty (mMeta w) (s2b "x-forwarded-for") = addr)).
  { unfold convertToResMessage, fillRes, p. cbv zeta. cbn [pCtx cProxy cOriginal pExc pValue pAttach pID cSerialized cSerNum cGzipSize]. rewrite Ha.
    eexists. split; [reflexivity|]. unfold encodeMessageGzip. cbn [andb Z.ltb Z.compare mHeader mMeta mBody].
    split; [exact (header_view 0 (rqID rq) ltac:(lia))|]. split; [reflexivity|].
    intro Hne. destruct addr as [|a0 a]; [contradiction Hne; reflexivity|]. cbn [bs_empty]. rewrite !load_set. change MProcessTime with (s2b "M_pt").
    change (bs_eqb (s2b "M_pt") (s2b "x-forwarded-for")) with false. cbv iota. cbn [loadOrEmpty aget bs_empty]. rewrite !load_set. reflexivity. }
  destruct Hw as (w & W1 & W2 & W3 & W4). exists (withID w (hReqID (mHeader m))).
  split; [exact (agent_writes c ip pt inv addr m rq p w Hp Hb Hq Hh W1)|]. split; [|split; [exact W3|exact W4]].
  pose proof W2 as V. unfold view in V |- *. unfold withID. cbn [mHeader hReqID].
  injection V as V1 V2 V3 V4 V5 V6 V7 V8 V9.
  unfold IsHeartbeat, IsGzip, IsOneWay, IsProxy, isRequest, GetVersion, GetStatus, GetSerialize in *. cbn [hMsgType hVerStatus hSerialize]. congruence.
Qed.

Lemma agent_error (c : scfg value) ip pt inv addr m rq b code desc : s_proxy c = true -> IsHeartbeat (mHeader m) = false ->
  convertToRequest (s_ext c) true (mkMsg (SetProxy true (mHeader m)) (aset bs_eqb (mMeta m) (s2b "host") ip) (mBody m)) = inl rq ->
  rqBody rq = Some b -> inv (mkInv (s2b "/" ++ rqService rq ++ s2b "/" ++ rqMethod rq) (mdNew (rqAttach rq)) b) = GErr code desc ->
  exists w, processV2 c ip pt (grpcHandler inv addr) m = Write w /\
    view (mHeader w) = mkView false false false true false 1 1 1 (hReqID (mHeader m)) /\ mBody w = [] /\
    loadOrEmpty (mMeta w) (s2b "M_e") = x_toJSON (s_ext c) (mkExc code desc code).
Proof.
  intros Hp Hb Hq Hbd Hinv. pose proof (handler_asks inv addr rq b Hbd) as Hh. cbn [grpcCall] in Hh. cbv zeta in Hh. rewrite Hinv in Hh. cbn [addressed guarded pID pValue pExc pAttach pCtx] in Hh.
  match type of Hh with _ = HRes ?x => set (p := x) in Hh end.
  assert (Hw : exists w, convertToResMessage (s_ext c) (s_asBytes c) (s_ser c (GetSerialize (mHeader m))) (fillRes true pt p) = inl w /\
    view (mHeader w) = mkView false false false true false 1 1 1 (rqID rq) /\ mBody w = [] /\ loadOrEmpty (mMeta w) (s2b "M_e") = x_toJSON (s_ext c) (mkExc code desc code)).
  { unfold convertToResMessage, fillRes, p. cbv zeta. cbn [pCtx cProxy cOriginal pExc pValue pAttach pID cSerialized cSerNum cGzipSize orb].
    eexists. split; [reflexivity|]. unfold encodeMessageGzip. cbn [andb Z.ltb Z.compare mHeader mMeta mBody].
    split; [exact (header_view 1 (rqID rq) ltac:(lia))|]. split; [reflexivity|]. change MException with (s2b "M_e"). rewrite load_set, bs_eqb_refl. reflexivity. }
  destruct Hw as (w & W1 & W2 & W3 & W4). exists (withID w (hReqID (mHeader m))).
  split; [exact (agent_writes c ip pt inv addr m rq p w Hp Hb Hq Hh W1)|]. split; [|split; [exact W3|exact W4]].
  pose proof W2 as V. unfold view in V |- *. unfold withID. cbn [mHeader hReqID].
  injection V as V1 V2 V3 V4 V5 V6 V7 V8 V9.
  unfold IsHeartbeat, IsGzip, IsOneWay, IsProxy, isRequest, GetVersion, GetStatus, GetSerialize in *. cbn [hMsgType hVerStatus hSerialize]. congruence.
Qed.

(* ------------------------------------------------------------ breeze *)

Lemma breeze_multi B ts vs b rest : Forall2 (reads_back B) ts vs -> bzSerializeMulti B vs = Some b -> bzDeSerializeMulti B ts (b ++ rest) = Some vs.
Proof.
  intro H. revert b rest. induction H as [|t v ts vs H _ IH]; intros b rest E; [reflexivity|]. cbn [bzSerializeMulti] in E.
  destruct (bz_write B v) as [bv|] eqn:W; [|discriminate E]. destruct (bzSerializeMulti B vs) as [br|] eqn:R; [|discriminate E]. injection E as <-.
  cbn [bzDeSerializeMulti]. rewrite <- app_assoc, (H bv _ W), (IH br rest eq_refl). reflexivity.
Qed.
Lemma breeze_one B t v b rest : reads_back B t v -> bzSerialize B v = Some b -> bzDeSerialize B t (b ++ rest) = Some v.
Proof. intros H E. unfold bzDeSerialize. rewrite (H b rest E). reflexivity. Qed.
Lemma breeze_fails B vs : bzSerializeMulti B vs = None <-> exists v, In v vs /\ bz_write B v = None.
Proof.
  induction vs as [|v vs IH]; cbn [bzSerializeMulti].
  - split; [discriminate|intros (v & [] & _)].
  - destruct (bz_write B v) as [bv|] eqn:W.
    + destruct (bzSerializeMulti B vs) as [br|].
      * split; [discriminate|]. intros (x & [<-|J] & N); [congruence|]. assert (E : Some br = None) by (apply IH; eauto). discriminate E.
      * split; [intros _|reflexivity]. destruct (proj1 IH eq_refl) as (x & J & N). exists x. split; [right; exact J|exact N].
    + split; [intros _; exists v; split; [left; reflexivity|exact W]|reflexivity].
Qed.
Lemma breeze_bytes B vs b : bzSerializeMulti B vs = Some b -> exists ps, Forall2 (fun v p => bz_write B v = Some p) vs ps /\ b = concat ps.
Proof.
  revert b. induction vs as [|v vs IH]; intros b E; cbn [bzSerializeMulti] in E; [injection E as <-; exists []; split; [constructor|reflexivity]|].
  destruct (bz_write B v) as [bv|] eqn:W; [|discriminate E]. destruct (bzSerializeMulti B vs) as [br|]; [|discriminate E]. injection E as <-.
  destruct (IH br eq_refl) as (ps & H1 & ->). exists (bv :: ps). split; [constructor; assumption|reflexivity].
Qed.
