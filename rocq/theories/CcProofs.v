(* CcProofs.v *)
From Verif Require Import Base BytesModel BytesSpec Strconv ProtoModel ProtoSpec ProtoProofs ConvModel ConvSpec SimpleModel SimpleSpec ServerModel ServerSpec
  ServerProofs ProvModel ProvSpec ProvProofs RelayProofs CcModel CcSpec.
From Verif Require StreamModel StreamSpec StreamProofs StreamProofs2.
Ltac Zify.zify_post_hook ::= idtac.
Import StreamModel.
Open Scope nat_scope.

(* ------------------------------------------------------------ what a step of the channel leaves alone *)

Definition settled (p : cpc) : Prop := p <> PReg /\ p <> PSend.
Definition delivers (o : op) : bool := match o with ODeliver _ _ _ _ => true | _ => false end.

Record kept (s s' : st) : Prop := mkKept {
  kp_nc : stNc s <= stNc s';
  kp_call : forall i, i < stNc s -> stCall s' i = stCall s i;
  kp_set : forall i, i < stNc s -> settled (stPc s i) -> settled (stPc s' i);
  kp_done : forall i r, i < stNc s -> stPc s i = PDone r -> stPc s' i = PDone r;
  kp_sent : forall x, In x (stSent s) -> In x (stSent s');
  kp_nh : stNh s <= stNh s';
  kp_hnd : forall h, h < stNh s -> stHnd s' h = stHnd s h }.

Lemma fupd_ne {A} (f : nat -> A) k v i : i <> k -> fupd f k v i = f i.
Proof. intro H. unfold fupd. destruct (Nat.eqb_spec i k); congruence. Qed.
Lemma fupd_eq {A} (f : nat -> A) k v : fupd f k v k = v.
Proof. unfold fupd. rewrite Nat.eqb_refl. reflexivity. Qed.

Lemma pc_kept (s s' : st) k p : stNc s' = stNc s -> stCall s' = stCall s -> stPc s' = fupd (stPc s) k p -> stNh s' = stNh s -> stHnd s' = stHnd s ->
  (forall x, In x (stSent s) -> In x (stSent s')) -> (settled (stPc s k) -> settled p) -> (forall r, stPc s k <> PDone r) -> kept s s'.
Proof.
  intros H1 H2 H3 H4 H5 H6 H7 H8. constructor.
  - lia.
  - intros. rewrite H2. reflexivity.
  - intros i _ Hs. rewrite H3. unfold fupd. destruct (Nat.eqb_spec i k) as [->|]; auto.
  - intros i r _ Hs. rewrite H3. unfold fupd. destruct (Nat.eqb_spec i k) as [->|]; [destruct (H8 r Hs)|exact Hs].
  - exact H6.
  - lia.
  - intros. rewrite H5. reflexivity.
Qed.
Lemma same_kept (s s' : st) : stNc s' = stNc s -> stCall s' = stCall s -> stPc s' = stPc s -> stNh s' = stNh s -> stHnd s' = stHnd s ->
  (forall x, In x (stSent s) -> In x (stSent s')) -> kept s s'.
Proof.
  intros H1 H2 H3 H4 H5 H6. constructor; try lia; auto; intros; rewrite ?H2, ?H3, ?H5; auto.
Qed.

Lemma call_kept s i o s' : callStep s i o = Some s' -> kept s s' /\ stNh s' = stNh s.
Proof.
  unfold callStep. cbv zeta. destruct o; try discriminate; destruct (stPc s i) eqn:Ep; try discriminate; intro H.
  all: repeat match type of H with
    | (if ?b then _ else _) = _ => destruct b
    | (match ?x with _ => _ end) = _ => destruct x
    end; try discriminate H; injection H as <-.
  all: split; [|reflexivity].
  all: eapply (pc_kept _ _ i); [reflexivity|reflexivity|reflexivity|reflexivity|reflexivity| | |].
  all: try (intros x Hx; cbn; auto; fail).
  all: try (rewrite Ep; discriminate).
  all: try (rewrite Ep; intros [S1 S2]; first [contradiction S1; reflexivity|contradiction S2; reflexivity|split; discriminate]).
  all: split; discriminate.
Qed.
Lemma hnd_kept s h o s' : hndStep s h o = Some s' -> kept s s' /\ stNh s' = stNh s.
Proof.
  unfold hndStep. cbv zeta. destruct o; try discriminate; destruct (stHpc s h) eqn:Ep; try discriminate; intro H.
  all: repeat match type of H with
    | (if ?b then _ else _) = _ => destruct b
    | (match ?x with _ => _ end) = _ => destruct x
    end; try discriminate H; injection H as <-.
  all: split; [|reflexivity]; apply same_kept; auto.
Qed.

Lemma start_facts s ch hb req t sid pick s' : startCall s ch hb req t sid pick = Some s' ->
  kept s s' /\ stNh s' = stNh s /\ stNc s' = S (stNc s) /\ stSent s' = stSent s /\
  (let c := stCall s' (stNc s) in cCh c = ch /\ cHb c = hb /\ cReq c = req /\
    ((cSid c = Some sid /\ stPc s' (stNc s) = PReg) \/ (cSid c = None /\ stPc s' (stNc s) = PDone RShutdown))).
Proof.
  unfold startCall. cbv zeta.
  assert (K : forall (s1 : st) c p, stCall s1 = fupd (stCall s) (stNc s) c -> stPc s1 = fupd (stPc s) (stNc s) p -> stNc s1 = S (stNc s) -> stNh s1 = stNh s ->
     stHnd s1 = stHnd s -> stSent s1 = stSent s -> kept s s1).
  { intros s1 c p H1 H2 H3 H4 H5 H6. constructor.
    - lia.
    - intros i Hi. rewrite H1, fupd_ne by lia. reflexivity.
    - intros i Hi. rewrite H2, fupd_ne by lia. auto.
    - intros i r Hi. rewrite H2, fupd_ne by lia. auto.
    - intro x. rewrite H6. auto.
    - lia.
    - intros h _. rewrite H5. reflexivity. }
  destruct (stClosed s ch).
  - intro H. injection H as <-. split; [eapply K; reflexivity|]. repeat (split; [reflexivity|]). cbn [stCall stPc]. rewrite !fupd_eq.
    repeat (split; [reflexivity|]). right. split; reflexivity.
  - destruct pick as [k|].
    + destruct (existsb (Nat.eqb k) (stPool s)); [|discriminate]. intro H. injection H as <-. split; [eapply K; reflexivity|]. repeat (split; [reflexivity|]).
      cbn [stCall stPc]. rewrite !fupd_eq. repeat (split; [reflexivity|]). left. split; reflexivity.
    + intro H. injection H as <-. split; [eapply K; reflexivity|]. repeat (split; [reflexivity|]).
      cbn [stCall stPc]. rewrite !fupd_eq. repeat (split; [reflexivity|]). left. split; reflexivity.
Qed.

Lemma step_kept s o s' : step s o = Some s' -> kept s s' /\ (delivers o = false -> stNh s' = stNh s).
Proof.
  destruct o; cbn [step delivers].
  1: { intro H. destruct (start_facts _ _ _ _ _ _ _ _ H) as (K & N & _). auto. }
  1-11: destruct (i <? stNc s); [|discriminate]; intro H; destruct (call_kept _ _ _ _ H); auto.
  - intro H. injection H as <-. split; [apply same_kept; auto|auto].
  - intro H. injection H as <-. split; [|discriminate]. constructor; auto.
    + cbn. lia.
    + intros k Hk. cbn [stHnd]. rewrite fupd_ne by lia. reflexivity.
  - destruct (h <? stNh s); [|discriminate]; intro H; destruct (hnd_kept _ _ _ _ H); auto.
  - destruct (h <? stNh s); [|discriminate]; intro H; destruct (hnd_kept _ _ _ _ H); auto.
  - destruct (h <? stNh s); [|discriminate]; intro H; destruct (hnd_kept _ _ _ _ H); auto.
  - destruct (sArmed (stStm s s0)) as [t|]; [|discriminate]. destruct (N.leb t (stNow s)); [|discriminate]. intro H. injection H as <-.
    split; [apply same_kept; auto|auto].
  - intro H. injection H as <-. split; [apply same_kept; auto|auto].
Qed.
Lemma step_start_only s o s' : step s o = Some s' -> (forall ch hb req t sid pick, o <> OStart ch hb req t sid pick) -> stNc s' = stNc s.
Proof.
  destruct o; cbn [step]; intros H N.
  1: contradiction (N _ _ _ _ _ _ eq_refl).
  1-11: destruct (i <? stNc s); [|discriminate]; revert H; unfold callStep; cbv zeta; destruct (stPc s i); try discriminate; intro H;
    repeat match type of H with
    | (if ?b then _ else _) = _ => destruct b
    | (match ?x with _ => _ end) = _ => destruct x
    end; try discriminate H; injection H as <-; reflexivity.
  1-2: injection H as <-; reflexivity.
  1-3: destruct (h <? stNh s); [|discriminate]; revert H; unfold hndStep; cbv zeta; destruct (stHpc s h); try discriminate; intro H;
    repeat match type of H with
    | (if ?b then _ else _) = _ => destruct b
    | (match ?x with _ => _ end) = _ => destruct x
    end; try discriminate H; injection H as <-; reflexivity.
  - destruct (sArmed (stStm s s0)) as [t|]; [|discriminate]. destruct (N.leb t (stNow s)); [|discriminate]. injection H as <-. reflexivity.
  - injection H as <-. reflexivity.
Qed.
Lemma sendok_facts s i s' : step s (OSendOk i) = Some s' -> i < stNc s /\ stPc s i = PSend /\ settled (stPc s' i) /\ In (cCh (stCall s i), sidOf (stCall s i)) (stSent s').
Proof.
  cbn [step]. destruct (Nat.ltb_spec i (stNc s)) as [Hi|]; [|discriminate]. unfold callStep. cbv zeta. destruct (stPc s i) eqn:Ep; try discriminate. intro H. injection H as <-.
  split; [exact Hi|]. split; [reflexivity|]. cbn [stPc setPc setStm stSent]. rewrite fupd_eq. split; [split; discriminate|]. left. reflexivity.
Qed.

Lemma step_wait s o s' i : step s o = Some s' -> i < stNc s' -> stPc s' i = PWait -> (i < stNc s /\ stPc s i = PWait) \/ o = OSendOk i.
Proof.
  intros H Hi Hw.
  assert (D : (exists ch hb req t sid pick, o = OStart ch hb req t sid pick) \/ forall ch hb req t sid pick, o <> OStart ch hb req t sid pick).
  { destruct o; [left; repeat eexists|right; intros; discriminate..]. }
  destruct D as [(ch & hb & req & t & sid & pick & ->)|N].
  - cbn [step] in H. destruct (start_facts _ _ _ _ _ _ _ _ H) as (_ & _ & E & _ & F). cbv zeta in F. destruct F as (_ & _ & _ & F). rewrite E in Hi.
    destruct (Nat.eq_dec i (stNc s)) as [->|Ne]; [destruct F as [[_ F]|[_ F]]; congruence|]. left. split; [lia|]. rewrite <- Hw.
    revert H. unfold startCall. cbv zeta. destruct (stClosed s ch); [|destruct pick as [k|]; [destruct (existsb _ _); [|discriminate]|]];
      intro H; injection H as <-; cbn [stPc setPool setStm]; rewrite fupd_ne by exact Ne; reflexivity.
  - rewrite (step_start_only _ _ _ H N) in Hi. destruct o; cbn [step] in H.
    1: contradiction (N _ _ _ _ _ _ eq_refl).
    1-11: destruct (i0 <? stNc s); [|discriminate H]; revert H; unfold callStep; cbv zeta; destruct (stPc s i0) eqn:Ep; try discriminate; intro H;
      repeat match type of H with
      | (if ?b then _ else _) = _ => destruct b
      | (match ?x with _ => _ end) = _ => destruct x
      end; try discriminate H; injection H as <-; cbn [stPc setPc setStm setTab setPool] in Hw; unfold fupd in Hw;
      destruct (Nat.eqb_spec i i0) as [e|Ne]; (first [left; split; assumption | subst i0; first [right; reflexivity | discriminate Hw]]).
    1-2: injection H as <-; left; split; assumption.
    1-3: left; split; [exact Hi|]; destruct (h <? stNh s); [|discriminate H]; revert H; unfold hndStep; cbv zeta; destruct (stHpc s h); try discriminate; intro H;
      repeat match type of H with
      | (if ?b then _ else _) = _ => destruct b
      | (match ?x with _ => _ end) = _ => destruct x
      end; try discriminate H; injection H as <-; exact Hw.
    + destruct (sArmed (stStm s s0)) as [t|]; [|discriminate H]. destruct (N.leb t (stNow s)); [|discriminate H]. injection H as <-. left. split; assumption.
    + injection H as <-. left. split; assumption.
Qed.

(* ------------------------------------------------------------ messages *)

Section World.
Context (W : world) (OK : world_ok W).
Notation cfg := (g_cfg (w_g W)).

Lemma handler_ok q p : gHandler (w_g W) q = ServerModel.HRes p -> response_ok p.
Proof.
  destruct OK as (_ & _ & _ & _ & _ & Hf).
  assert (E : forall rid e, response_ok (excResponse rid e)).
  { intros rid e. split; [constructor|]. split; [cbn; lia|]. intros o H. discriminate H. }
  unfold gHandler, handlerCall, dispatch. cbn [d_service d_attach d_id]. cbv zeta.
  destruct (negb _).
  - destruct (existsb _ _); cbn [fst]; [|intro H; injection H as <-; apply E].
    destruct (g_fw (w_g W) q) as [r| |] eqn:Ef; unfold panicAnswer; intro H; try discriminate H; injection H as <-; [apply (Hf q r Ef)|apply E].
  - destruct (aget bs_eqb (g_table (w_g W)) (rqService q)) as [pv|]; cbn [fst]; [|intro H; injection H as <-; apply E].
    destruct (defaultCall _ _ _ q) as [r| |] eqn:Ed; unfold panicAnswer; intro H; try discriminate H; injection H as <-; try apply E.
    assert (R : response_ok r).
    { unfold defaultCall in Ed. destruct (firstUpper _ _); [|discriminate Ed]. destruct (aget bs_eqb _ _); [|injection Ed as <-; apply E].
      cbv zeta in Ed. match type of Ed with match ?x with _ => _ end = _ => destruct x end; try discriminate Ed; [|injection Ed as <-; apply E].
      destruct (reflectCall _ _); [|discriminate Ed]. injection Ed as <-. split; [constructor|]. split; [cbn; lia|]. intros o H. discriminate H. }
    destruct R as (R1 & R2 & R3). split; [exact R1|]. split; [exact R2|exact R3].
Qed.

Lemma never_panics q : gHandler (w_g W) q <> HPanic.
Proof. unfold gHandler. destruct (fst _); discriminate. Qed.
Lemma never_silent pt m : processV2 cfg (w_ip W) pt (gHandler (w_g W)) m <> Silent.
Proof.
  unfold processV2. cbv zeta. cbn [mHeader mMeta mBody]. destruct (IsHeartbeat _); [destruct (s_heartbeat cfg); discriminate|].
  destruct (convertToRequest _ _ _) as [q|]; [|discriminate]. pose proof (never_panics q). destruct (gHandler (w_g W) q); [|discriminate|contradiction].
  destruct (convertToResMessage _ _ _ _); discriminate.
Qed.
Lemma answer_hb pt m r : processV2 cfg (w_ip W) pt (gHandler (w_g W)) m = Write r -> IsHeartbeat (mHeader r) = IsHeartbeat (mHeader m).
Proof.
  intro P. destruct (IsHeartbeat (mHeader m)) eqn:E.
  - destruct (@processV2_heartbeat value cfg (w_ip W) pt (gHandler (w_g W)) m E) as [B1 B2].
    destruct (s_heartbeat cfg); [|rewrite (B2 eq_refl) in P; discriminate P]. destruct (B1 eq_refl) as (r' & E' & X & _). rewrite E' in P. injection P as <-. exact (f_equal v_hb X).
  - pose proof OK as ((Px & _ & Hn & _) & _). unfold processV2 in P. cbv zeta in P. cbn [mHeader mMeta mBody] in P.
    rewrite (proj1 (proj2 (setproxy_fields (s_proxy cfg) (mHeader m)))), E in P.
    assert (Hb : forall x id, IsHeartbeat (mHeader (withID x id)) = IsHeartbeat (mHeader x)) by reflexivity.
    destruct (convertToRequest _ _ _) as [q|]; [|injection P as <-; reflexivity].
    destruct (gHandler (w_g W) q) as [p| |] eqn:Eq; [|injection P as <-; reflexivity|discriminate P].
    destruct (convertToResMessage _ _ _ _) as [r0|] eqn:Ec; [|injection P as <-; reflexivity]. injection P as <-. rewrite Hb.
    destruct (handler_ok q p Eq) as (_ & Hc & _). unfold convertToResMessage in Ec. cbv zeta in Ec. unfold fillRes in Ec. cbn [pCtx cProxy pExc pAttach pValue cSerialized cSerNum cGzipSize pID] in Ec.
    rewrite Px in Ec. cbv iota in Ec.
    match type of Ec with match ?hd with _ => _ end = _ => destruct hd as [num|] eqn:Eh; [|discriminate Ec] end.
    match type of Ec with match ?bd with _ => _ end = _ => destruct bd as [b|] eqn:Eb; [|discriminate Ec] end. injection Ec as <-. cbn [mHeader].
    match goal with |- IsHeartbeat (mHeader (encodeMessageGzip ?X ?y ?z)) = _ => destruct (gzip_view X y z) as [G|G]; pose proof (f_equal v_hb G) as G' end;
      cbn [v_hb view mHeader spec_hop] in G'; rewrite G'; reflexivity.
Qed.

Definition answer_of (m : message) (b : bs) : Prop :=
  exists pt r, int64 pt /\ processV2 cfg (w_ip W) pt (gHandler (w_g W)) (received m) = Write r /\ b = concat (getEncodedBytes None r).

Lemma sendable_sizes max m : sendable max m -> sizes_ok max m.
Proof. intros (_ & _ & _ & H1 & H2 & H3). split; [exact H1|]. split; assumption. Qed.

Lemma outgoing_ok st i m : outgoing W st i = inl m -> (sidOf (stCall st i) < 2 ^ 64)%N ->
  sendable (s_max cfg) m /\ hReqID (mHeader m) = sidOf (stCall st i) /\
  forall pt r, int64 pt -> processV2 cfg (w_ip W) pt (gHandler (w_g W)) (received m) = Write r -> sendable (c_max (w_c W)) r /\ hReqID (mHeader r) = hReqID (mHeader m).
Proof.
  intros Ho Hs. pose proof OK as (Hp & Ho1 & Hz & Hc & Hm & _). destruct Hp as (_ & _ & Hn & _ & Hg).
  unfold outgoing in Ho. cbv zeta in Ho.
  assert (R : forall pt r, processV2 cfg (w_ip W) pt (gHandler (w_g W)) (received m) = Write r -> hReqID (mHeader m) = sidOf (stCall st i) ->
    sizes_ok (c_max (w_c W)) r -> sendable (c_max (w_c W)) r /\ hReqID (mHeader r) = hReqID (mHeader m)).
  { intros pt r P HI (Z1 & Z2 & Z3). destruct (processV2_id _ _ _ _ Hn handler_ok P) as (P1 & P2 & P3 & P4). split; [|exact P1].
    change (hReqID (mHeader (received m))) with (hReqID (mHeader m)) in P1.
    split; [rewrite P1, HI; exact Hs|]. split; [exact P3|]. split; [exact P4|]. split; [exact Z1|]. split; [exact Z2|exact Z3]. }
  destruct (cHb (stCall st i)).
  - injection Ho as <-. set (sid := sidOf (stCall st i)) in *.
    assert (HI : hReqID (mHeader (buildHeartbeat true sid)) = sid) by reflexivity.
    split.
    { split; [exact Hs|]. split; [reflexivity|]. split; [constructor|]. split; [cbn; lia|]. split; [cbn; lia|exact Hm]. }
    split; [exact HI|]. intros pt r Hpt P. apply (R pt r P HI).
    destruct (@processV2_heartbeat value cfg (w_ip W) pt (gHandler (w_g W)) (received (buildHeartbeat true sid)) eq_refl) as [B1 B2].
    destruct (s_heartbeat cfg).
    + destruct (B1 eq_refl) as (r' & E & _ & M & B). rewrite E in P. injection P as <-. unfold sizes_ok, sent_meta. rewrite M, B. cbn. split; [lia|]. split; [lia|exact Hc].
    + rewrite (B2 eq_refl) in P. discriminate P.
  - destruct (Ho1 i) as [O1 O2]. destruct (request_carries (w_c W) (sidOf (stCall st i)) (w_req W i) O1 O2 Hg) as (m' & E & C & _).
    rewrite E in Ho. injection Ho as ->. assert (H0 : int64 0) by (unfold int64; lia). destruct (Hz i 0%Z _ H0 Hs m E) as ((Z1 & Z2 & Z3) & _). destruct C as [C1 C2 C3 C4 C5 C6 C7 C8].
    split; [split; [rewrite C4; exact Hs|]; split; [exact C2|]; split; [exact C5|]; split; [exact Z1|]; split; [exact Z2|exact Z3]|].
    split; [exact C4|]. intros pt r Hpt P. apply (R pt r P C4). exact (proj2 (Hz i pt _ Hpt Hs m E) r P).
Qed.

(* ------------------------------------------------------------ the invariant *)

Definition sentok (st : StreamModel.st) (p : nat * message) : Prop :=
  fst p < stNc st /\ settled (stPc st (fst p)) /\ In (0, sidOf (stCall st (fst p))) (stSent st) /\
  cSid (stCall st (fst p)) = Some (sidOf (stCall st (fst p))) /\ outgoing W st (fst p) = inl (snd p) /\ (sidOf (stCall st (fst p)) < 2 ^ 64)%N.
Definition delivered (sent : list (nat * message)) (st : StreamModel.st) : Prop :=
  forall h, h < stNh st -> exists p, In p sent /\ hCh (stHnd st h) = 0 /\ hRid (stHnd st h) = hReqID (mHeader (snd p)) /\ answer_of (snd p) (hBody (stHnd st h)).
Definition callok (st : StreamModel.st) : Prop :=
  forall i, i < stNc st -> cCh (stCall st i) = 0 /\ (cHb (stCall st i) = false -> cReq (stCall st i) = qID (w_req W i)) /\
    (forall sid, cSid (stCall st i) = Some sid -> (sid < 2 ^ 64)%N) /\ (cSid (stCall st i) = None -> exists r, stPc st i = PDone r).
Record inv (s : cc) (sent : list (nat * message)) (n d : nat) : Prop := mkInv {
  v_reach : StreamSpec.reach (cc_st s);
  v_calls : callok (cc_st s);
  v_sent : Forall (sentok (cc_st s)) sent;
  v_nodup : NoDup (map fst sent);
  v_n : n <= length sent;
  v_jobs : map fst (k_jobs (cc_srv s)) = map (fun p => J2 (received (snd p))) (firstn n sent);
  v_in : k_in (cc_srv s) ++ cc_up s = concat (map (fun p => frame (snd p)) (skipn n sent));
  v_out : Forall (fun ib => exists p, nth_error sent (fst ib) = Some p /\ answer_of (snd p) (snd ib)) (k_out (cc_srv s));
  v_d : d <= length (k_out (cc_srv s));
  v_down : cc_in s ++ cc_down s = concat (map snd (skipn d (k_out (cc_srv s))));
  v_del : delivered sent (cc_st s) }.

Lemma outgoing_kept st st' i : kept st st' -> i < stNc st -> outgoing W st' i = outgoing W st i.
Proof. intros K Hi. unfold outgoing. rewrite (kp_call _ _ K i Hi). reflexivity. Qed.
Lemma sentok_kept st st' p : kept st st' -> sentok st p -> sentok st' p.
Proof.
  intros K (S1 & S2 & S3 & S4 & S5 & S6). unfold sentok. rewrite (kp_call _ _ K _ S1), (outgoing_kept _ _ _ K S1).
  split; [pose proof (kp_nc _ _ K); lia|]. split; [apply (kp_set _ _ K); assumption|]. split; [apply (kp_sent _ _ K); exact S3|]. auto.
Qed.
Lemma sentok_message st p : sentok st p -> sendable (s_max cfg) (snd p) /\ hReqID (mHeader (snd p)) = sidOf (stCall st (fst p)) /\
  forall b, answer_of (snd p) b -> exists r, b = frame r /\ sendable (c_max (w_c W)) r /\ hReqID (mHeader r) = hReqID (mHeader (snd p)) /\
    IsHeartbeat (mHeader r) = IsHeartbeat (mHeader (snd p)).
Proof.
  intros (S1 & S2 & S3 & S4 & S5 & S6). destruct (outgoing_ok _ _ _ S5 S6) as (A & B & C). split; [exact A|]. split; [exact B|].
  intros b (pt & r & Hpt & P & ->). destruct (C pt r Hpt P) as [C1 C2]. exists r. split; [apply (encoded_frame (sendable_sizes _ _ C1))|]. split; [exact C1|]. split; [exact C2|]. exact (answer_hb _ _ _ P).
Qed.
Lemma delivered_same sent st st' : stNh st' = stNh st -> kept st st' -> delivered sent st -> delivered sent st'.
Proof. intros E K D h Hh. rewrite E in Hh. rewrite (kp_hnd _ _ K h Hh). exact (D h Hh). Qed.

Lemma NoDup_app_snoc {A} (l : list A) x : NoDup l -> ~ In x l -> NoDup (l ++ [x]).
Proof. intros H N. pose proof (Add_app x l []) as Q. rewrite app_nil_r in Q. apply (NoDup_Add Q). split; assumption. Qed.
Lemma NoDup_left {A} (l r : list A) : NoDup (l ++ r) -> NoDup l.
Proof.
  induction l as [|a l IH]; [constructor|]. cbn [app]. intro H. apply NoDup_cons_iff in H as [H1 H2]. constructor; [|exact (IH H2)].
  intro X. apply H1, in_app_iff. left. exact X.
Qed.
Lemma skipn_snoc {A} n (l : list A) x : n <= length l -> skipn n (l ++ [x]) = skipn n l ++ [x].
Proof. intro H. rewrite skipn_app. replace (n - length l) with 0 by lia. reflexivity. Qed.
Lemma firstn_snoc {A} n (l : list A) x : n <= length l -> firstn n (l ++ [x]) = firstn n l.
Proof. intro H. rewrite firstn_app. replace (n - length l) with 0 by lia. cbn. apply app_nil_r. Qed.
Lemma skipn_at {A} n (l : list A) x : nth_error l n = Some x -> skipn n l = x :: skipn (S n) l.
Proof. revert n. induction l as [|a l IH]; intros [|n] E; try discriminate E; [injection E as ->; reflexivity|exact (IH n E)]. Qed.
Lemma firstn_at {A} n (l : list A) x : nth_error l n = Some x -> firstn (S n) l = firstn n l ++ [x].
Proof. revert n. induction l as [|a l IH]; intros [|n] E; try discriminate E; [injection E as ->; reflexivity|]. cbn. f_equal. exact (IH n E). Qed.

Lemma inv_init : inv cc0 [] 0 0.
Proof.
  constructor; cbn; auto.
  - constructor.
  - intros i Hi. cbn in Hi. lia.
  - constructor.
  - intros h Hh. cbn in Hh. lia.
Qed.

Lemma calls_step st o st' : callok st -> klegal (mkCc st [] initConn [] []) (KCall o) -> possible W st o = true -> step st o = Some st' -> callok st'.
Proof.
  intros C L P H. destruct (step_kept _ _ _ H) as [K _].
  assert (Old : forall i, i < stNc st -> cCh (stCall st' i) = 0 /\ (cHb (stCall st' i) = false -> cReq (stCall st' i) = qID (w_req W i)) /\
    (forall sid, cSid (stCall st' i) = Some sid -> (sid < 2 ^ 64)%N) /\ (cSid (stCall st' i) = None -> exists r, stPc st' i = PDone r)).
  { intros i Hi. rewrite (kp_call _ _ K i Hi). destruct (C i Hi) as (C1 & C2 & C3 & C4). repeat (split; [assumption|]).
    intro E. destruct (C4 E) as [r Er]. exists r. apply (kp_done _ _ K); assumption. }
  intros i Hi.
  assert (D : (exists ch hb req t sid pick, o = OStart ch hb req t sid pick) \/ forall ch hb req t sid pick, o <> OStart ch hb req t sid pick).
  { destruct o; [left; repeat eexists|right; intros; discriminate..]. }
  destruct D as [(ch & hb & req & t & sid & pick & ->)|N].
  - destruct (start_facts _ _ _ _ _ _ _ _ H) as (_ & _ & E & _ & F1 & F2 & F3 & F4). rewrite E in Hi.
    destruct (Nat.eq_dec i (stNc st)) as [->|]; [|apply Old; lia].
    cbn [possible] in P. apply andb_true_iff in P as [P1 P2]. apply Nat.eqb_eq in P1. subst ch. split; [exact F1|]. split.
    { intro Hh. rewrite F2 in Hh. rewrite Hh in P2. cbn [orb] in P2. apply N.eqb_eq in P2. rewrite F3. exact P2. }
    destruct L as [_ L]. destruct F4 as [[S1 S2]|[S1 S2]].
    + split; [intros x Hx; rewrite S1 in Hx; injection Hx as <-; exact L|]. intro Hx. rewrite S1 in Hx. discriminate Hx.
    + split; [intros x Hx; rewrite S1 in Hx; discriminate Hx|]. intros _. eexists. exact S2.
  - rewrite (step_start_only _ _ _ H N) in Hi. apply Old. exact Hi.
Qed.

Lemma inv_call s sent n d o s' : inv s sent n d -> klegal s (KCall o) -> kstep W s (KCall o) = Some s' ->
  exists sent', inv s' sent' n d /\ (exists more, sent' = sent ++ more) /\ forall i, o = OSendOk i -> In i (map fst sent').
Proof.
  intros V L H. cbn [kstep] in H. destruct (possible W (cc_st s) o) eqn:P; [|discriminate H].
  destruct (step (cc_st s) o) as [st'|] eqn:E; [|discriminate H]. injection H as <-.
  destruct (step_kept _ _ _ E) as [K N0].
  assert (Nd : delivers o = false) by (destruct o; try reflexivity; discriminate P). specialize (N0 Nd).
  assert (R' : StreamSpec.reach st').
  { eapply StreamSpec.reachS; [apply (v_reach _ _ _ _ V)| |exact E]. destruct o; try exact I; [exact (proj1 L)|discriminate P]. }
  assert (C' : callok st').
  { apply (calls_step (cc_st s) o st' (v_calls _ _ _ _ V)); auto. }
  assert (F' : Forall (sentok st') sent) by (eapply Forall_impl; [|apply (v_sent _ _ _ _ V)]; intros p; apply sentok_kept, K).
  destruct (match o with OSendOk i => Some i | _ => None end) as [i|] eqn:Eo.
  - destruct o; try discriminate Eo. injection Eo as ->. cbn [possible] in P.
    destruct (outgoing W (cc_st s) i) as [m|] eqn:Em; [|discriminate P].
    destruct (sendok_facts _ _ _ E) as (Hi & Hpc & Hset & Hin). destruct (v_calls _ _ _ _ V i Hi) as (C1 & C2 & C3 & C4).
    assert (Hsid : cSid (stCall (cc_st s) i) = Some (sidOf (stCall (cc_st s) i))).
    { unfold sidOf. destruct (cSid (stCall (cc_st s) i)) eqn:X; [reflexivity|]. destruct (C4 eq_refl) as [r Er]. congruence. }
    assert (Nw : sentok st' (i, m)).
    { unfold sentok. cbn [fst snd]. rewrite (kp_call _ _ K i Hi), (outgoing_kept _ _ _ K Hi). split; [pose proof (kp_nc _ _ K); lia|].
      split; [exact Hset|]. split; [rewrite C1 in Hin; exact Hin|]. split; [exact Hsid|]. split; [exact Em|exact (C3 _ Hsid)]. }
    exists (sent ++ [(i, m)]). pose proof (v_n _ _ _ _ V) as Vn.
    split; [|split; [exists [(i, m)]; reflexivity|intros i' Hi'; injection Hi' as <-; rewrite map_app; apply in_app_iff; right; left; reflexivity]].
    assert (Ef : concat (getEncodedBytes None m) = frame m).
    { apply (encoded_frame (sendable_sizes _ _ (proj1 (sentok_message _ _ Nw)))). }
    constructor; cbn [cc_st cc_up cc_srv cc_down cc_in]; auto.
    + apply Forall_app. split; [exact F'|constructor; [exact Nw|constructor]].
    + rewrite map_app. cbn [map fst]. apply NoDup_app_snoc; [apply (v_nodup _ _ _ _ V)|].
      intro X. apply in_map_iff in X as ([j mj] & X1 & X2). cbn [fst] in X1. subst j. pose proof (v_sent _ _ _ _ V) as VS. rewrite Forall_forall in VS.
      destruct (VS _ X2) as (_ & S2 & _). cbn [fst] in S2. destruct S2 as [_ S2]. contradiction.
    + rewrite app_length. lia.
    + rewrite firstn_snoc by exact Vn. apply (v_jobs _ _ _ _ V).
    + cbn [written]. rewrite Em, Ef. rewrite app_assoc, (v_in _ _ _ _ V), skipn_snoc by exact Vn. rewrite map_app, concat_app. cbn [map concat snd]. rewrite app_nil_r. reflexivity.
    + eapply Forall_impl; [|apply (v_out _ _ _ _ V)]. intros ib (p & X1 & X2). exists p. split; [|exact X2]. rewrite nth_error_app1; [exact X1|]. apply nth_error_Some. congruence.
    + apply (v_d _ _ _ _ V).
    + apply (v_down _ _ _ _ V).
    + intros h Hh. destruct (delivered_same _ _ _ N0 K (v_del _ _ _ _ V) h Hh) as (p & X1 & X2). exists p. split; [apply in_app_iff; left; exact X1|exact X2].
  - exists sent. split; [|split; [exists []; symmetry; apply app_nil_r|intros i' ->; discriminate Eo]].
    constructor; cbn [cc_st cc_up cc_srv cc_down cc_in]; auto; try apply V.
    + assert (Ew : written W (cc_st s) o = []) by (destruct o; try reflexivity; discriminate Eo). rewrite Ew, app_nil_r. apply (v_in _ _ _ _ V).
    + exact (delivered_same _ _ _ N0 K (v_del _ _ _ _ V)).
Qed.


(* ------------------------------------------------------------ the server *)

Lemma readOne_msg max m s t R : sendable max m -> s ++ t = frame m ++ R ->
  readOne max s = RWait \/ exists rest, readOne max s = RGot (J2 (received m)) rest /\ s = frame m ++ rest.
Proof.
  intros Hs E.
  pose proof (readOne_item (mkScfg (A:=value) (s_proxy cfg) (s_heartbeat cfg) (s_ext cfg) (s_errText cfg) (s_ser cfg) (s_asBytes cfg) max)) as Q. exact (Q (fun _ => None) (S2 m) s t R Hs E).
Qed.

Lemma next_up s sent n d : inv s sent n d ->
  match readOne (s_max cfg) (k_in (cc_srv s)) with
  | RWait => True
  | RGot j rest => exists p, nth_error sent n = Some p /\ j = J2 (received (snd p)) /\ k_in (cc_srv s) = frame (snd p) ++ rest
  | RStop => False
  end.
Proof.
  intro V. pose proof (v_in _ _ _ _ V) as E. destruct (nth_error sent n) as [p|] eqn:En.
  - rewrite (skipn_at _ _ _ En) in E. cbn [map concat] in E. assert (Sp : sentok (cc_st s) p).
    { pose proof (v_sent _ _ _ _ V) as VS. rewrite Forall_forall in VS. apply VS. eapply nth_error_In, En. }
    destruct (readOne_msg _ _ _ _ _ (proj1 (sentok_message _ _ Sp)) E) as [->|(rest & -> & X)]; [exact I|].
    exists p. auto.
  - apply nth_error_None in En. rewrite skipn_all2 in E by exact En. cbn in E. apply app_eq_nil in E as [E _]. rewrite E. exact I.
Qed.

Lemma inv_server s sent n d o s' : inv s sent n d ->
  (match o with Arrive b => exists m, b = firstn m (cc_up s) | EndJob _ pt h2 _ => h2 = gHandler (w_g W) /\ int64 pt | _ => True end) ->
  kserver W s o = Some s' ->
  exists n', n <= n' /\ inv (mkCc (cc_st s') (match o with Arrive b => skipn (length b) (cc_up s) | _ => cc_up s end) (cc_srv s') (cc_down s') (cc_in s')) sent n' d.
Proof.
  intros V Q H. unfold kserver in H. destruct (cstep cfg (w_gunzip W) (w_ip W) (cc_srv s) o) as [v|] eqn:Ec; [|discriminate H]. injection H as <-.
  cbn [cc_st cc_srv cc_down cc_in]. destruct V as [V1 V2 V3 V4 V5 V6 V7 V8 V9 V10 V11].
  assert (Same : forall v' up', map fst (k_jobs v') = map fst (k_jobs (cc_srv s)) -> k_in v' ++ up' = k_in (cc_srv s) ++ cc_up s -> k_out v' = k_out (cc_srv s) ->
    inv (mkCc (cc_st s) up' v' (cc_down s ++ concat (map snd (skipn (length (k_out (cc_srv s))) (k_out v')))) (cc_in s)) sent n d).
  { intros v' up' J1 J2 J3. rewrite J3, skipn_all. cbn [map concat]. rewrite app_nil_r. constructor; cbn [cc_st cc_up cc_srv cc_down cc_in]; auto.
    - congruence.
    - congruence.
    - rewrite J3. exact V8.
    - rewrite J3. exact V9.
    - rewrite J3. exact V10. }
  destruct o as [b| |acc|i pt h2 h1|i]; cbn [cstep] in Ec.
  - destruct Q as [m ->]. destruct (k_eof _ || k_closed _); [discriminate Ec|]. injection Ec as <-. exists n. split; [lia|]. apply Same; cbn [k_jobs k_in k_out]; auto.
    rewrite <- app_assoc. f_equal. rewrite firstn_length. destruct (Nat.min_dec m (length (cc_up s))) as [e|e]; rewrite e; [apply firstn_skipn|].
    rewrite skipn_all, app_nil_r. apply firstn_all2. lia.
  - injection Ec as <-. exists n. split; [lia|]. apply Same; reflexivity.
  - destruct (k_closed _); [discriminate Ec|].
    pose proof (next_up s sent n d (mkInv _ _ _ _ V1 V2 V3 V4 V5 V6 V7 V8 V9 V10 V11)) as NU.
    destruct (readOne _ (k_in (cc_srv s))) as [j rest| |] eqn:Er.
    + destruct NU as (p & X1 & X2 & X3). subst j.
      assert (Got : forall js, map fst js = map fst (k_jobs (cc_srv s)) ++ [J2 (received (snd p))] ->
        inv (mkCc (cc_st s) (cc_up s) (mkConn rest (k_eof (cc_srv s)) js (k_out (cc_srv s)) false) (cc_down s ++ concat (map snd (skipn (length (k_out (cc_srv s))) (k_out (cc_srv s))))) (cc_in s)) sent (S n) d).
      { intros js J. rewrite skipn_all. cbn [map concat]. rewrite app_nil_r. constructor; cbn [cc_st cc_up cc_srv cc_down cc_in k_jobs k_in k_out]; auto.
        - apply nth_error_Some. congruence.
        - rewrite J, V6, (firstn_at _ _ _ X1), map_app. reflexivity.
        - rewrite (skipn_at _ _ _ X1) in V7. cbn [map concat] in V7. rewrite X3, <- app_assoc in V7. apply app_inv_head in V7. exact V7. }
      destruct acc; injection Ec as <-; cbn [k_out]; exists (S n); (split; [lia|]); apply Got; rewrite map_app; reflexivity.
    + destruct NU.
    + destruct (k_eof (cc_srv s)); [|discriminate Ec]. injection Ec as <-. exists n. split; [lia|]. apply Same; reflexivity.
  - destruct Q as [-> Hpt]. destruct (nth_error (k_jobs (cc_srv s)) i) as [[j [|]]|] eqn:En; try discriminate Ec.
    pose proof (map_fst_set _ i Finished En) as Mf.
    assert (Ej : exists p, nth_error sent i = Some p /\ j = J2 (received (snd p))).
    { assert (X : nth_error (map fst (k_jobs (cc_srv s))) i = Some j) by (rewrite nth_error_map, En; reflexivity). rewrite V6, nth_error_map in X.
      destruct (nth_error (firstn n sent) i) as [p|] eqn:Ep; [|discriminate X]. injection X as <-. exists p. split; [|reflexivity].
      rewrite <- (firstn_skipn n sent), nth_error_app1; [exact Ep|]. apply nth_error_Some. congruence. }
    destruct Ej as (p & Ep & ->). unfold jobFate in Ec. destruct (processV2 _ _ _ _ _) as [r| |] eqn:P;
      [remember (concat (getEncodedBytes None r)) as b eqn:Eb|..]; injection Ec as <-; exists n; (split; [lia|]).
    + destruct (k_closed (cc_srv s)); [apply Same; auto|]. cbn [k_out]. rewrite skipn_app, skipn_all, Nat.sub_diag. cbn [app skipn map concat snd].
      rewrite app_nil_r. constructor; cbn [cc_st cc_up cc_srv cc_down cc_in k_jobs k_in k_out]; auto.
      * rewrite Mf. exact V6.
      * apply Forall_app. split; [exact V8|]. constructor; [|constructor]. exists p. split; [exact Ep|]. exists pt, r. split; [exact Hpt|]. split; [exact P|exact Eb].
      * rewrite app_length. lia.
      * rewrite skipn_snoc by exact V9. rewrite map_app, concat_app, app_assoc, V10. cbn [map concat snd]. rewrite app_nil_r. reflexivity.
    + apply Same; auto.
    + apply Same; auto.
  - destruct (nth_error (k_jobs (cc_srv s)) i) as [[j [|]]|] eqn:En; try discriminate Ec. injection Ec as <-. exists n. split; [lia|]. apply Same; auto. cbn [k_jobs]. apply (map_fst_set _ i Finished En).
Qed.

Lemma read_alone max m : sendable max m -> readOne max (frame m) = RGot (J2 (received m)) [].
Proof.
  intro Hs. unfold readOne. pose proof (frame_length m) as L. destruct (Nat.ltb_spec (length (frame m)) 4); [lia|].
  pose proof (version_of_item (mkScfg (A:=unit) false false (mkExt (fun _ => None) (fun _ => None) (fun _ => []) (fun _ => None)) (fun _ => []) (fun _ => None) (fun _ => None) max) (S2 m) [] Hs) as Hv.
  cbn [item_bytes] in Hv. rewrite app_nil_r in Hv. rewrite Hv. change (N.eqb 1 0) with false. change (N.eqb 1 1) with true. cbv iota.
  pose proof (decode_frame max m [] Hs) as D. rewrite app_nil_r in D. rewrite D. reflexivity.
Qed.

(* ------------------------------------------------------------ the client's loop *)

Lemma next_down s sent n d : inv s sent n d ->
  match readOne (c_max (w_c W)) (cc_in s) with
  | RWait => True
  | RGot j rest => exists p r ib, nth_error sent (fst ib) = Some p /\ IsHeartbeat (mHeader r) = IsHeartbeat (mHeader (snd p)) /\ nth_error (k_out (cc_srv s)) d = Some ib /\ answer_of (snd p) (snd ib) /\ snd ib = frame r /\
      sentok (cc_st s) p /\ hReqID (mHeader r) = hReqID (mHeader (snd p)) /\ j = J2 (received r) /\ cc_in s = frame r ++ rest
  | RStop => False
  end.
Proof.
  intro V. pose proof (v_down _ _ _ _ V) as E. destruct (nth_error (k_out (cc_srv s)) d) as [ib|] eqn:En.
  - rewrite (skipn_at _ _ _ En) in E. cbn [map concat] in E.
    pose proof (v_out _ _ _ _ V) as VO. rewrite Forall_forall in VO. destruct (VO _ (nth_error_In _ _ En)) as (p & X1 & X2).
    pose proof (v_sent _ _ _ _ V) as VS. rewrite Forall_forall in VS. pose proof (VS _ (nth_error_In _ _ X1)) as Sp.
    destruct (proj2 (proj2 (sentok_message _ _ Sp)) _ X2) as (r & Y1 & Y2 & Y3 & Y4). rewrite Y1 in E.
    destruct (readOne_msg _ _ _ _ _ Y2 E) as [->|(rest & -> & X)]; [exact I|].
    exists p, r, ib. auto 12.
  - apply nth_error_None in En. rewrite skipn_all2 in E by exact En. cbn in E. apply app_eq_nil in E as [E _]. rewrite E. exact I.
Qed.

Lemma inv_recv s sent n d acc s' : inv s sent n d -> kstep W s (KRecv acc) = Some s' -> inv s' sent n (S d).
Proof.
  intros V H. cbn [kstep] in H. pose proof (next_down _ _ _ _ V) as ND. destruct (readOne (c_max (w_c W)) (cc_in s)) as [j rest| |]; [|destruct ND|discriminate H].
  destruct ND as (p & r & ib & I1 & I8 & I2 & I3 & I4 & I5 & I6 & -> & I7). destruct V as [V1 V2 V3 V4 V5 V6 V7 V8 V9 V10 V11].
  rewrite (skipn_at _ _ _ I2) in V10. cbn [map concat] in V10. rewrite I4, I7, <- app_assoc in V10. apply app_inv_head in V10.
  assert (Ln : S d <= length (k_out (cc_srv s))) by (apply nth_error_Some; congruence).
  destruct acc.
  - destruct (step (cc_st s) _) as [st'|] eqn:E; [|discriminate H]. injection H as <-. destruct (step_kept _ _ _ E) as [K _].
    assert (Eb : firstn (length (cc_in s) - length rest) (cc_in s) = snd ib).
    { rewrite I7, app_length, I4. replace (length (frame r) + length rest - length rest) with (length (frame r)) by lia.
      rewrite firstn_app, firstn_all, Nat.sub_diag, firstn_O. apply app_nil_r. }
    rewrite Eb in E. change (hReqID (mHeader (received r))) with (hReqID (mHeader r)) in E. destruct I5 as (S1 & S2 & S3 & S4 & S5 & S6).
    destruct (outgoing_ok _ _ _ S5 S6) as (_ & O2 & _).
    constructor; cbn [cc_st cc_up cc_srv cc_down cc_in]; auto.
    + eapply StreamSpec.reachS; [exact V1| |exact E]. cbn [StreamSpec.legal]. rewrite I6, O2. exact S3.
    + injection E as <-. exact V2.
    + eapply Forall_impl; [|exact V3]. intros q. apply sentok_kept, K.
    + intros h Hh. cbn [step] in E. injection E as <-. cbn [stNh stHnd] in Hh |- *. destruct (Nat.eq_dec h (stNh (cc_st s))) as [->|Ne].
      * exists p. rewrite fupd_eq. cbn [hCh hRid hBody]. split; [eapply nth_error_In, I1|]. auto.
      * rewrite fupd_ne by exact Ne. apply V11. lia.
  - injection H as <-. constructor; cbn [cc_st cc_up cc_srv cc_down cc_in]; auto.
Qed.

Lemma inv_step s sent n d o s' : inv s sent n d -> klegal s o -> kstep W s o = Some s' -> exists sent' n' d', inv s' sent' n' d'.
Proof.
  intros V L H. destruct o as [o|m|acc|i pt|i| |m|acc].
  - destruct (inv_call _ _ _ _ _ _ V L H) as (sent' & X & _). eauto.
  - cbn [kstep] in H. destruct (kserver _ _ _) as [s1|] eqn:E; [|discriminate H]. injection H as <-.
    destruct (inv_server _ _ _ _ (Arrive (firstn m (cc_up s))) _ V (ex_intro _ m eq_refl) E) as (n' & _ & X). exists sent, n', d.
    rewrite firstn_length in X. destruct (Nat.min_dec m (length (cc_up s))) as [e|e]; rewrite e in X; [exact X|].
    rewrite skipn_all in X. rewrite skipn_all2 by lia. exact X.
  - cbn [kstep] in H. destruct (inv_server _ _ _ _ (ReadOne acc) _ V I H) as (n' & _ & X). exists sent, n', d. unfold kserver in H. destruct (cstep _ _ _ _ _); [|discriminate H]. injection H as <-. exact X.
  - cbn [kstep] in H. destruct (inv_server _ _ _ _ (EndJob i pt (gHandler (w_g W)) noV1) _ V (conj eq_refl L) H) as (n' & _ & X). exists sent, n', d. unfold kserver in H. destruct (cstep _ _ _ _ _); [|discriminate H]. injection H as <-. exact X.
  - cbn [kstep] in H. destruct (inv_server _ _ _ _ (EndJobLost i) _ V I H) as (n' & _ & X). exists sent, n', d. unfold kserver in H. destruct (cstep _ _ _ _ _); [|discriminate H]. injection H as <-. exact X.
  - cbn [kstep] in H. destruct (inv_server _ _ _ _ PeerClose _ V I H) as (n' & _ & X). exists sent, n', d. unfold kserver in H. destruct (cstep _ _ _ _ _); [|discriminate H]. injection H as <-. exact X.
  - cbn [kstep] in H. injection H as <-. exists sent, n, d. destruct V as [V1 V2 V3 V4 V5 V6 V7 V8 V9 V10 V11]. constructor; cbn [cc_st cc_up cc_srv cc_down cc_in]; auto.
    rewrite <- app_assoc, firstn_skipn. exact V10.
  - exists sent, n, (S d). exact (inv_recv _ _ _ _ _ _ V H).
Qed.
Lemma inv_reach s : kreach W s -> exists sent n d, inv s sent n d.
Proof.
  induction 1 as [|s o s' R (sent & n & d & V) L H]; [exists [], 0, 0; apply inv_init|]. exact (inv_step _ _ _ _ _ _ V L H).
Qed.

(* ------------------------------------------------------------ the theorems *)

Lemma own_result s i r : kreach W s -> StreamSpec.returned (cc_st s) i (ROk r) -> cHb (stCall (cc_st s) i) = false ->
  rRid r = qID (w_req W i) /\
  exists pt sid, cSid (stCall (cc_st s) i) = Some sid /\ (sid < 2 ^ 64)%N /\ int64 pt /\
    forall reply, readAnswer (w_c W) (qID (w_req W i)) reply (rOf r) = roundTrip (w_c W) (w_g W) (w_ip W) pt sid reply (w_req W i).
Proof.
  intros R Hr Hh. destruct (inv_reach _ R) as (sent & n & d & V). pose proof (v_reach _ _ _ _ V) as SR.
  destruct (StreamProofs2.delivery _ _ _ SR Hr) as (D1 & h & A & D2). destruct A as (A1 & A2 & A3 & A4). destruct Hr as [Hi _].
  destruct (v_calls _ _ _ _ V i Hi) as (C1 & C2 & C3 & C4). split; [rewrite D1; unfold StreamSpec.ownId; rewrite Hh; exact (C2 Hh)|].
  destruct (v_del _ _ _ _ V h A1) as (p & P1 & P2 & P3 & (pt & w & Hpt & P4 & P5)).
  pose proof (v_sent _ _ _ _ V) as VS. rewrite Forall_forall in VS. pose proof (VS _ P1) as Sp. pose proof (sentok_message _ _ Sp) as (M1 & M2 & _).
  destruct Sp as (S1 & S2 & S3 & S4 & S5 & S6).
  assert (E : fst p = i).
  { apply (StreamProofs.v_sid _ (StreamProofs.inv_reach _ SR) (fst p) i (hRid (stHnd (cc_st s) h)) S1 Hi); [|exact A4]. rewrite P3, M2. exact S4. }
  rewrite E in *. unfold outgoing in S5. rewrite Hh in S5. exists pt, (sidOf (stCall (cc_st s) i)). split; [exact S4|]. split; [exact S6|]. split; [exact Hpt|].
  intro reply. unfold roundTrip. rewrite S5. rewrite (encoded_frame (sendable_sizes _ _ M1)).
  rewrite (read_alone _ _ M1), P4, D2, P5. reflexivity.
Qed.

Lemma computes s i r p reply : kreach W s -> StreamSpec.returned (cc_st s) i (ROk r) -> cHb (stCall (cc_st s) i) = false ->
  aget bs_eqb (g_table (w_g W)) (qService (w_req W i)) = Some p -> results_ok (g_impl (w_g W) (v_id p)) (qArgs (w_req W i)) ->
  let o := spec_method (g_impl (w_g W) (v_id p)) (firstUpper (g_uni (w_g W)) (qMethod (w_req W i))) (qMethod (w_req W i)) (qArgs (w_req W i)) reply
             (g_etext (w_g W) (DBuf ErrEOF)) (s_errText cfg CErrSerialize) in
  (forall e, o = Fails e -> json_lossless (c_ext (w_c W)) e) ->
  readAnswer (w_c W) (qID (w_req W i)) reply (rOf r) = seen reply o.
Proof.
  intros R Hr Hh Hp Hres o Hj. destruct (own_result _ _ _ R Hr Hh) as (_ & pt & sid & _ & Hsid & Hpt & E). rewrite E.
  pose proof OK as (O1 & O2 & O3 & _). destruct (O2 i) as [Q1 Q2]. apply (every_call (w_c W) (w_g W) (w_ip W) pt sid reply (w_req W i) p); auto.
Qed.

Lemma at_most_once s : kreach W s -> exists who, NoDup who /\
  Forall2 (fun i j => i < stNc (cc_st s) /\ exists m, outgoing W (cc_st s) i = inl m /\ fst j = J2 (received m)) who (k_jobs (cc_srv s)).
Proof.
  intro R. destruct (inv_reach _ R) as (sent & n & d & V). exists (map fst (firstn n sent)). split.
  - pose proof (v_nodup _ _ _ _ V) as N0. rewrite <- (firstn_skipn n sent), map_app in N0. exact (NoDup_left _ _ N0).
  - pose proof (v_sent _ _ _ _ V) as VS. rewrite <- (firstn_skipn n sent) in VS. apply Forall_app in VS as [VS _].
    pose proof (v_jobs _ _ _ _ V) as VJ. revert VS VJ. generalize (firstn n sent) (k_jobs (cc_srv s)). induction l as [|p l IH]; intros [|j js] VS VJ; try discriminate VJ; [constructor|].
    cbn [map] in VJ. injection VJ as E VJ. apply Forall_cons_iff in VS as [S1 VS]. constructor; [|exact (IH js VS VJ)].
    destruct S1 as (A & _ & _ & _ & B & _). split; [exact A|]. exists (snd p). split; [exact B|exact E].
Qed.

Lemma framing s : kreach W s ->
  (forall b, readOne (s_max cfg) (k_in (cc_srv s)) = b -> b <> RStop /\ forall m rest, b <> RGot (J1 m) rest) /\
  (forall b, readOne (c_max (w_c W)) (cc_in s) = b -> b <> RStop /\ forall m rest, b <> RGot (J1 m) rest).
Proof.
  intro R. destruct (inv_reach _ R) as (sent & n & d & V). pose proof (next_up _ _ _ _ V) as A. pose proof (next_down _ _ _ _ V) as B. split; intros b <-.
  - destruct (readOne (s_max cfg) (k_in (cc_srv s))) as [j rest| |]; [|destruct A|split; [discriminate|intros; discriminate]]. destruct A as (p & _ & -> & _). split; [discriminate|intros; discriminate].
  - destruct (readOne (c_max (w_c W)) (cc_in s)) as [j rest| |]; [|destruct B|split; [discriminate|intros; discriminate]]. destruct B as (p & r & ib & _ & _ & _ & _ & _ & _ & _ & -> & _). split; [discriminate|intros; discriminate].
Qed.

(* ------------------------------------------------------------ nothing is lost *)

Definition fin (c : conn) : Prop :=
  k_closed c = false -> forall k j, nth_error (k_jobs c) k = Some (j, Finished) -> exists b, In (k, b) (k_out c).
Lemma nth_set {A} (l : list A) : forall i k x, nth_error (list_set l i x) k = if Nat.eqb k i then (match nth_error l i with Some _ => Some x | None => None end) else nth_error l k.
Proof.
  induction l as [|a l IH]; intros i k x; cbn [list_set]; [destruct i, k; cbn; try reflexivity; destruct (_ =? _); reflexivity|].
  destruct i, k; cbn; try reflexivity. apply IH.
Qed.
Lemma fin_step c o c' : Forall (fun j => exists m, fst j = J2 m) (k_jobs c) -> cstep cfg (w_gunzip W) (w_ip W) c o = Some c' ->
  match o with EndJob _ _ h2 _ => h2 = gHandler (w_g W) | ReadOne a => a = true | _ => True end -> fin c ->
  fin c' /\ exists more, k_out c' = k_out c ++ more.
Proof.
  intros J2s H Q F. destruct o as [b| |acc|i pt h2 h1|i]; cbn [cstep] in H.
  - destruct (k_eof c || k_closed c) eqn:E; [discriminate H|]. apply orb_false_iff in E as [_ E]. injection H as <-. split; [|exists []; symmetry; apply app_nil_r]. intros _. exact (F E).
  - injection H as <-. split; [exact F|exists []; symmetry; apply app_nil_r].
  - subst acc. destruct (k_closed c) eqn:E; [discriminate H|]. destruct (readOne _ _) as [j rest| |].
    + injection H as <-. split; [|exists []; symmetry; apply app_nil_r]. intros _ k j'. cbn [k_jobs k_out]. destruct (Nat.lt_ge_cases k (length (k_jobs c))) as [L|L].
      * rewrite nth_error_app1 by exact L. apply F. exact E.
      * rewrite nth_error_app2 by exact L. destruct (k - length (k_jobs c)) as [|[|]]; cbn; discriminate.
    + injection H as <-. split; [intro X; discriminate X|exists []; symmetry; apply app_nil_r].
    + destruct (k_eof c); [|discriminate H]. injection H as <-. split; [intro X; discriminate X|exists []; symmetry; apply app_nil_r].
  - subst h2. destruct (nth_error (k_jobs c) i) as [[j [|]]|] eqn:En; try discriminate H.
    rewrite Forall_forall in J2s. destruct (J2s _ (nth_error_In _ _ En)) as [m Em]. cbn [fst] in Em. subst j. unfold jobFate in H.
    pose proof (never_silent pt m) as NS. destruct (processV2 _ _ _ _ _) as [r| |]; [remember (concat (getEncodedBytes None r)) as b|..]; injection H as <-; [| |contradiction].
    + split.
      * intros X k j. cbn [k_jobs k_out k_closed] in *. rewrite X, nth_set. destruct (Nat.eqb_spec k i) as [->|Ne].
        -- intros _. exists b. apply in_app_iff. right. left. reflexivity.
        -- intro Hk. destruct (F X k j Hk) as [b' Hb]. exists b'. apply in_app_iff. left. exact Hb.
      * cbn [k_out]. destruct (k_closed c); [exists []; symmetry; apply app_nil_r|exists [(i, b)]; reflexivity].
    + split; [intro X; discriminate X|exists []; symmetry; apply app_nil_r].
  - destruct (nth_error (k_jobs c) i) as [[j [|]]|]; try discriminate H. injection H as <-. split; [intro X; discriminate X|exists []; symmetry; apply app_nil_r].
Qed.

Definition came (s : cc) (sent : list (nat * message)) (d : nat) : Prop :=
  forall k ib, k < d -> nth_error (k_out (cc_srv s)) k = Some ib -> exists h p, h < stNh (cc_st s) /\ nth_error sent (fst ib) = Some p /\
    hCh (stHnd (cc_st s) h) = 0 /\ hRid (stHnd (cc_st s) h) = hReqID (mHeader (snd p)) /\ hHb (stHnd (cc_st s) h) = IsHeartbeat (mHeader (snd p)).
Definition waits (s : cc) (sent : list (nat * message)) : Prop :=
  forall i, i < stNc (cc_st s) -> stPc (cc_st s) i = PWait -> In i (map fst sent).

Lemma jobs_J2 s sent n d : inv s sent n d -> Forall (fun j => exists m, fst j = J2 m) (k_jobs (cc_srv s)).
Proof.
  intro V. pose proof (v_jobs _ _ _ _ V) as E. apply Forall_forall. intros j Hj. apply (in_map fst) in Hj. rewrite E in Hj.
  apply in_map_iff in Hj as (p & <- & _). eexists. reflexivity.
Qed.
Lemma came_more s s' sent more d : d <= length (k_out (cc_srv s)) -> (exists x, k_out (cc_srv s') = k_out (cc_srv s) ++ x) -> kept (cc_st s) (cc_st s') ->
  came s sent d -> came s' (sent ++ more) d.
Proof.
  intros Hd [x E] K C k ib Hk En. rewrite E, nth_error_app1 in En by lia. destruct (C k ib Hk En) as (h & p & A & B & C').
  exists h, p. split; [pose proof (kp_nh _ _ K); lia|]. split; [rewrite nth_error_app1; [exact B|apply nth_error_Some; congruence]|]. rewrite (kp_hnd _ _ K h A). exact C'.
Qed.
Lemma kept_refl s : kept s s.
Proof. constructor; auto. Qed.

Lemma all_reach s : kaccepted W s -> exists sent n d, inv s sent n d /\ fin (cc_srv s) /\ came s sent d /\ waits s sent.
Proof.
  induction 1 as [|s o s' R (sent & n & d & V & F & C & Wt) L A H].
  { exists [], 0, 0. split; [apply inv_init|]. split; [intros _ k j; cbn; destruct k; discriminate|]. split; [intros k ib Hk; lia|]. intros i Hi. cbn in Hi. lia. }
  assert (Srv : forall o', (match o' with Arrive b => exists m, b = firstn m (cc_up s) | EndJob _ pt h2 _ => h2 = gHandler (w_g W) /\ int64 pt | ReadOne a => a = true | _ => True end) ->
    forall s1, kserver W s o' = Some s1 -> exists n', inv (mkCc (cc_st s1) (match o' with Arrive b => skipn (length b) (cc_up s) | _ => cc_up s end) (cc_srv s1) (cc_down s1) (cc_in s1)) sent n' d /\
      fin (cc_srv s1) /\ came s1 sent d /\ waits s1 sent).
  { intros o' Q s1 H1. destruct (inv_server s sent n d o' s1 V) as (n' & _ & X); [destruct o'; auto|exact H1|]. exists n'. split; [exact X|].
    unfold kserver in H1. destruct (cstep _ _ _ _ _) as [v|] eqn:Ec; [|discriminate H1]. injection H1 as <-.
    destruct (fin_step _ _ _ (jobs_J2 _ _ _ _ V) Ec) as [F' M]; [destruct o'; first [exact I | exact Q | exact (proj1 Q)]|exact F|]. split; [exact F'|].
    split; [|exact Wt]. rewrite <- (app_nil_r sent). apply (came_more s); [apply (v_d _ _ _ _ V)|exact M|apply kept_refl|exact C]. }
  destruct o as [o|m|acc|i pt|i| |m|acc]; cbn [accepted] in A.
  - destruct (inv_call _ _ _ _ _ _ V L H) as (sent' & X & (more & ->) & Ho). exists (sent ++ more), n, d. split; [exact X|].
    cbn [kstep] in H. destruct (possible W (cc_st s) o); [|discriminate H]. destruct (step (cc_st s) o) as [st'|] eqn:E; [|discriminate H]. injection H as <-.
    split; [exact F|]. split; [apply (came_more s); [apply (v_d _ _ _ _ V)|exists []; symmetry; apply app_nil_r|apply (step_kept _ _ _ E)|exact C]|].
    intros i Hi Hw. destruct (step_wait _ _ _ _ E Hi Hw) as [[A1 A2]|A1]; [|exact (Ho i A1)]. rewrite map_app. apply in_app_iff. left. exact (Wt i A1 A2).
  - cbn [kstep] in H. destruct (kserver _ _ _) as [s1|] eqn:E; [|discriminate H]. injection H as <-.
    destruct (Srv (Arrive (firstn m (cc_up s))) (ex_intro _ m eq_refl) s1 E) as (n' & X & Y). exists sent, n', d. split; [|exact Y].
    rewrite firstn_length in X. destruct (Nat.min_dec m (length (cc_up s))) as [e|e]; rewrite e in X; [exact X|]. rewrite skipn_all in X. rewrite skipn_all2 by lia. exact X.
  - cbn [kstep] in H. destruct (Srv (ReadOne acc) A s' H) as (n' & X & Y). exists sent, n', d. split; [|exact Y]. unfold kserver in H. destruct (cstep _ _ _ _ _); [|discriminate H]. injection H as <-. exact X.
  - cbn [kstep] in H. destruct (Srv (EndJob i pt (gHandler (w_g W)) noV1) (conj eq_refl L) s' H) as (n' & X & Y). exists sent, n', d. split; [|exact Y]. unfold kserver in H. destruct (cstep _ _ _ _ _); [|discriminate H]. injection H as <-. exact X.
  - cbn [kstep] in H. destruct (Srv (EndJobLost i) I s' H) as (n' & X & Y). exists sent, n', d. split; [|exact Y]. unfold kserver in H. destruct (cstep _ _ _ _ _); [|discriminate H]. injection H as <-. exact X.
  - cbn [kstep] in H. destruct (Srv PeerClose I s' H) as (n' & X & Y). exists sent, n', d. split; [|exact Y]. unfold kserver in H. destruct (cstep _ _ _ _ _); [|discriminate H]. injection H as <-. exact X.
  - destruct (inv_step _ _ _ _ (KDown m) _ V L H) as (_ & _ & _ & _). exists sent, n, d. cbn [kstep] in H. injection H as <-. split; [|split; [exact F|split; [exact C|exact Wt]]].
    destruct V as [V1 V2 V3 V4 V5 V6 V7 V8 V9 V10 V11]. constructor; cbn [cc_st cc_up cc_srv cc_down cc_in]; auto. rewrite <- app_assoc, firstn_skipn. exact V10.
  - subst acc. exists sent, n, (S d). split; [exact (inv_recv _ _ _ _ _ _ V H)|]. pose proof (next_down _ _ _ _ V) as ND. cbn [kstep] in H.
    destruct (readOne (c_max (w_c W)) (cc_in s)) as [j rest| |]; [|destruct ND|discriminate H]. destruct ND as (p & r & ib & I1 & I8 & I2 & I3 & I4 & I5 & I6 & -> & I7).
    destruct (step (cc_st s) _) as [st'|] eqn:E; [|discriminate H]. injection H as <-. pose proof (proj1 (step_kept _ _ _ E)) as K. cbn [step] in E. injection E as <-.
    split; [exact F|]. split.
    + intros k x Hk Hx. cbn [cc_srv cc_st] in *. destruct (Nat.eq_dec k d) as [->|Ne].
      * rewrite I2 in Hx. injection Hx as <-. exists (stNh (cc_st s)), p. cbn [stNh stHnd]. rewrite fupd_eq. cbn [hCh hRid hHb].
        split; [lia|]. split; [exact I1|]. split; [reflexivity|]. split; [exact I6|exact I8].
      * destruct (C k x ltac:(lia) Hx) as (h & q & A1 & A2 & A3). exists h, q. split; [cbn; lia|]. split; [exact A2|]. rewrite (kp_hnd _ _ K h A1). exact A3.
    + exact Wt.
Qed.

Lemma frames_empty (l : list (nat * message)) : concat (map (fun p => frame (snd p)) l) = [] -> l = [].
Proof.
  destruct l as [|p l]; [reflexivity|]. cbn [map concat]. intro H. apply app_eq_nil in H as [H _]. pose proof (frame_length (snd p)) as L. rewrite H in L. cbn in L. lia.
Qed.
Lemma nothing_lost s i : kaccepted W s -> settled_down s -> i < stNc (cc_st s) -> stPc (cc_st s) i = PWait ->
  exists s', kstep W s (KCall (OTake i)) = Some s'.
Proof.
  intros R (Q1 & Q2 & Q3 & Q4 & Q5 & Q6 & Q7) Hi Hw. destruct (all_reach _ R) as (sent & n & d & V & F & C & Wt).
  pose proof (v_in _ _ _ _ V) as E. rewrite Q2, Q3 in E. cbn [app] in E. symmetry in E. apply frames_empty in E.
  assert (En : n = length sent).
  { pose proof (v_n _ _ _ _ V). pose proof (f_equal (@length _) E) as E'. rewrite skipn_length in E'. cbn in E'. lia. }
  assert (Lj : length (k_jobs (cc_srv s)) = length sent).
  { pose proof (f_equal (@length _) (v_jobs _ _ _ _ V)) as E'. rewrite !map_length, En, firstn_all in E'. exact E'. }
  pose proof (Wt i Hi Hw) as Hin. apply in_map_iff in Hin as ([i' m] & Ei & Hin). cbn [fst] in Ei. subst i'.
  apply In_nth_error in Hin as [k Hk].
  assert (Lk : k < length (k_jobs (cc_srv s))) by (rewrite Lj; apply nth_error_Some; congruence).
  apply nth_error_Some in Lk. destruct (nth_error (k_jobs (cc_srv s)) k) as [[j js]|] eqn:Ej; [|contradiction].
  rewrite Forall_forall in Q4. pose proof (Q4 _ (nth_error_In _ _ Ej)) as Fj. cbn [snd] in Fj. subst js.
  destruct (F Q1 k j Ej) as [b Hb]. apply In_nth_error in Hb as [x Hx].
  assert (Ed : d = length (k_out (cc_srv s))).
  { pose proof (v_down _ _ _ _ V) as E'. rewrite Q5, Q6 in E'. cbn [app] in E'. pose proof (v_d _ _ _ _ V) as Ld.
    destruct (Nat.eq_dec d (length (k_out (cc_srv s)))) as [|Ne]; [assumption|exfalso].
    assert (Lt : d < length (k_out (cc_srv s))) by lia. apply nth_error_Some in Lt. destruct (nth_error (k_out (cc_srv s)) d) as [ib|] eqn:Eb; [|contradiction].
    rewrite (skipn_at _ _ _ Eb) in E'. cbn [map concat] in E'. symmetry in E'. apply app_eq_nil in E' as [E' _].
    pose proof (v_out _ _ _ _ V) as VO. rewrite Forall_forall in VO. destruct (VO _ (nth_error_In _ _ Eb)) as (p & X1 & X2).
    pose proof (v_sent _ _ _ _ V) as VS. rewrite Forall_forall in VS. destruct (proj2 (proj2 (sentok_message _ _ (VS _ (nth_error_In _ _ X1)))) _ X2) as (r & Y1 & _).
    rewrite Y1 in E'. pose proof (frame_length r) as L. rewrite E' in L. cbn in L. lia. }
  assert (Lx : x < d) by (rewrite Ed; apply nth_error_Some; congruence).
  destruct (C x _ Lx Hx) as (h & p & A1 & A2 & A3 & A4 & A5). cbn [fst] in A2. rewrite Hk in A2. injection A2 as <-. cbn [snd] in A4, A5.
  pose proof (v_sent _ _ _ _ V) as VS. rewrite Forall_forall in VS. pose proof (VS _ (nth_error_In _ _ Hk)) as Sp.
  destruct (sentok_message _ _ Sp) as (_ & M2 & _). destruct Sp as (_ & _ & _ & S4 & S5 & S6). cbn [fst snd] in *.
  assert (An : StreamSpec.answers (cc_st s) h i).
  { split; [exact A1|]. destruct (v_calls _ _ _ _ V i Hi) as (C1 & _). split; [rewrite A3, C1; reflexivity|]. split; [|rewrite S4, A4, M2; reflexivity].
    rewrite A5. unfold outgoing in S5. destruct (cHb (stCall (cc_st s) i)); [injection S5 as <-; reflexivity|].
    pose proof OK as ((_ & _ & _ & _ & Hg) & Ho & _). destruct (Ho i) as [O1 O2].
    destruct (request_carries (w_c W) (sidOf (stCall (cc_st s) i)) (w_req W i) O1 O2 Hg) as (m' & E1 & Cr & _). rewrite E1 in S5. injection S5 as <-. exact (ca_hb _ _ _ _ _ _ Cr). }
  destruct (StreamProofs2.no_lost_answer _ _ _ (v_reach _ _ _ _ V) Hi Hw An Q7) as [st' Est]. cbn [kstep possible]. rewrite Est. eexists. reflexivity.
Qed.
End World.
