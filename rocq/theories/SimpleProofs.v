(* SimpleProofs.v *)
From Verif Require Import Base BytesModel BytesSpec BytesProofs SimpleModel SimpleSpec.

Local Arguments N.add : simpl never.
Local Arguments N.mul : simpl never.
Local Arguments N.div : simpl never.
Local Arguments N.modulo : simpl never.
Ltac Zify.zify_post_hook ::= idtac.

(* induction over nested values *)
Section ValueInd.
  Variable P : value -> Prop.
  Hypothesis Hnull : P VNull.
  Hypothesis Hstr : forall s, P (VStr s).
  Hypothesis Hsm : forall m, P (VStrMap m).
  Hypothesis Hby : forall p, P (VBytes p).
  Hypothesis Hsa : forall a, P (VStrArr a).
  Hypothesis Hbool : forall b, P (VBool b).
  Hypothesis Hbyte : forall c, P (VByte c).
  Hypothesis H16 : forall z, P (VI16 z).
  Hypothesis H32 : forall z, P (VI32 z).
  Hypothesis Hint : forall z, P (VInt z).
  Hypothesis H64 : forall z, P (VI64 z).
  Hypothesis Hf32 : forall f, P (VF32 f).
  Hypothesis Hf64 : forall f, P (VF64 f).
  Hypothesis Hmap : forall m, Forall (fun kx => P (fst kx) /\ P (snd kx)) m -> P (VMap m).
  Hypothesis Harr : forall a, Forall P a -> P (VArr a).
  Hypothesis Hun : P VUnsupported.

  Fixpoint value_ind' (v : value) : P v :=
    match v with
    | VNull => Hnull | VStr s => Hstr s | VStrMap m => Hsm m | VBytes p => Hby p | VStrArr a => Hsa a
    | VBool b => Hbool b | VByte c => Hbyte c | VI16 z => H16 z | VI32 z => H32 z | VInt z => Hint z
    | VI64 z => H64 z | VF32 f => Hf32 f | VF64 f => Hf64 f
    | VMap m => Hmap m ((fix go (m : list (value * value)) : Forall (fun kx => P (fst kx) /\ P (snd kx)) m :=
        match m with
        | [] => Forall_nil _
        | (k, x) :: m' => Forall_cons (k, x) (conj (value_ind' k) (value_ind' x)) (go m')
        end) m)
    | VArr a => Harr a ((fix go (a : list value) : Forall P a :=
        match a with [] => Forall_nil _ | x :: a' => Forall_cons x (value_ind' x) (go a') end) a)
    | VUnsupported => Hun
    end.
End ValueInd.

(* ------------------------------------------------------------------ encoder *)

(* b2 is b1 with the bytes w appended *)
Definition app_to (b1 : buffer) (w : bs) (b2 : buffer) : Prop :=
  bytesOf b2 = bytesOf b1 ++ w /\ buf_ok b2 /\ border b2 = border b1 /\ brpos b2 = brpos b1.

Lemma app_to_refl b : buf_ok b -> app_to b [] b.
Proof. intro H. unfold app_to. rewrite app_nil_r. auto. Qed.

Lemma app_to_trans b1 w1 b2 w2 b3 : app_to b1 w1 b2 -> app_to b2 w2 b3 -> app_to b1 (w1 ++ w2) b3.
Proof.
  intros (A1 & A2 & A3 & A4) (B1 & B2 & B3 & B4). unfold app_to.
  rewrite B1, A1, app_assoc. repeat split; congruence || auto.
Qed.

Lemma app_to_write b p : buf_ok b -> app_to b p (write b p).
Proof. intro H. destruct (write_spec b p H) as (A & B & C & D & _). unfold app_to. auto. Qed.
Lemma app_to_writeByte b c : buf_ok b -> app_to b [c] (writeByte b c).
Proof. intro H. destruct (writeByte_spec b c H) as (A & B & C & D & _). unfold app_to. auto. Qed.
Lemma app_to_writeUint k b n : buf_ok b -> app_to b (spec_uint (border b) k n) (writeUint k b n).
Proof. intro H. destruct (writeUint_spec k b n H) as (A & B & C & D & _). rewrite putUint_spec in A. unfold app_to. auto. Qed.

Lemma app_to_ok b w b' : app_to b w b' -> buf_ok b'.
Proof. intros (_ & H & _). exact H. Qed.
Lemma app_to_order b w b' : app_to b w b' -> border b' = border b.
Proof. intros (_ & _ & H & _). exact H. Qed.
Lemma app_to_wpos b w b' : buf_ok b -> app_to b w b' -> bwpos b' = bwpos b + length w.
Proof.
  intros Hok (A & B & _). rewrite <- (bytesOf_length b' B), A, app_length, bytesOf_length by exact Hok. reflexivity.
Qed.

Lemma u32len_small n : (N.of_nat n < 2 ^ 32)%N -> u32len n = N.of_nat n.
Proof. intro H. unfold u32len. apply N.mod_small. exact H. Qed.

Lemma spec_uint_length o k n : length (spec_uint o k n) = k.
Proof. rewrite <- putUint_spec. apply putUint_length. Qed.

Lemma lenPrefixed_length p : length (lenPrefixed p) = 4 + length p.
Proof. unfold lenPrefixed. rewrite app_length, spec_uint_length. reflexivity. Qed.

Lemma enc_str b s :
  buf_ok b -> border b = BigE -> (N.of_nat (length s) < 2 ^ 32)%N ->
  app_to b (lenPrefixed s) (encodeStringNoTag s b).
Proof.
  intros Hok Ho Hl. unfold encodeStringNoTag, writeUint32, lenPrefixed.
  rewrite u32len_small by exact Hl.
  pose proof (app_to_writeUint 4 b (N.of_nat (length s)) Hok) as A. rewrite Ho in A.
  eapply app_to_trans; [exact A|]. apply app_to_write. apply (app_to_ok _ _ _ A).
Qed.

Lemma reserve4 b w b2 :
  buf_ok b -> app_to (setWPos b (bwpos b + 4)) w b2 -> border b = BigE ->
  (N.of_nat (length w) < 2 ^ 32)%N ->
  app_to b (lenPrefixed w) (patchLen (bwpos b) b2).
Proof.
  intros Hok A Ho Hl.
  destruct (setWPos_spec b (bwpos b + 4) Hok) as (S1 & S2 & S3 & S4 & S5).
  pose proof (app_to_wpos _ _ _ S1 A) as Hw. rewrite S4 in Hw.
  destruct A as (A1 & A2 & A3 & A4).
  unfold patchLen, getWPos, writeUint32.
  assert (Hp : bwpos b + 4 <= bwpos b2) by lia.
  destruct (backpatch b2 (bwpos b) (u32len (bwpos b2 - bwpos b - 4)) 4 A2 Hp) as (B1 & B2 & B3 & B4 & B5).
  cbn zeta in B1. unfold app_to. repeat split; try congruence.
  rewrite B1, A1, putUint_spec. rewrite A3, S2, Ho.
  replace (bwpos b2 - bwpos b - 4) with (length w) by lia.
  rewrite u32len_small by exact Hl.
  assert (Hlen : length (bytesOf (setWPos b (bwpos b + 4))) = bwpos b + 4)
    by (rewrite bytesOf_length by exact S1; exact S4).
  f_equal.
  - rewrite firstn_app, Hlen. replace (bwpos b - (bwpos b + 4)) with 0 by lia.
    rewrite firstn_O, app_nil_r. unfold bytesOf at 1. rewrite S4, firstn_firstn.
    replace (Nat.min (bwpos b) (bwpos b + 4)) with (bwpos b) by lia.
    apply S5; lia.
  - unfold lenPrefixed. f_equal. rewrite skipn_app, Hlen, Nat.sub_diag.
    rewrite skipn_all2 by lia. reflexivity.
Qed.

(* the container pattern: tag, reserve, elements, patch *)
Lemma enc_container b tag w b3 :
  buf_ok b -> border b = BigE ->
  app_to (setWPos (writeByte b tag) (bwpos (writeByte b tag) + 4)) w b3 ->
  (N.of_nat (length w) < 2 ^ 32)%N ->
  app_to b (tag :: lenPrefixed w) (patchLen (bwpos (writeByte b tag)) b3).
Proof.
  intros Hok Ho A Hl.
  pose proof (app_to_writeByte b tag Hok) as T.
  change (tag :: lenPrefixed w) with ([tag] ++ lenPrefixed w).
  eapply app_to_trans; [exact T|].
  apply reserve4; [apply (app_to_ok _ _ _ T)|exact A| |exact Hl].
  rewrite (app_to_order _ _ _ T). exact Ho.
Qed.

Lemma reserve_ok b tag :
  buf_ok b -> border b = BigE ->
  buf_ok (setWPos (writeByte b tag) (bwpos (writeByte b tag) + 4))
  /\ border (setWPos (writeByte b tag) (bwpos (writeByte b tag) + 4)) = BigE.
Proof.
  intros Hok Ho. pose proof (app_to_writeByte b tag Hok) as T.
  destruct (setWPos_spec (writeByte b tag) (bwpos (writeByte b tag) + 4) (app_to_ok _ _ _ T)) as (S1 & S2 & _).
  split; [exact S1|]. rewrite S2, (app_to_order _ _ _ T). exact Ho.
Qed.

Lemma enc_strs a : forall b,
  buf_ok b -> border b = BigE -> (N.of_nat (length (concat (map lenPrefixed a))) < 2 ^ 32)%N ->
  app_to b (concat (map lenPrefixed a)) (fold_left (fun b s => encodeStringNoTag s b) a b).
Proof.
  induction a as [|s a IH]; intros b Hok Ho Hl; cbn [map concat fold_left] in *.
  - apply app_to_refl, Hok.
  - rewrite app_length, lenPrefixed_length in Hl.
    assert (A : app_to b (lenPrefixed s) (encodeStringNoTag s b)) by (apply enc_str; auto; lia).
    eapply app_to_trans; [exact A|]. apply IH; [apply (app_to_ok _ _ _ A)| |lia].
    rewrite (app_to_order _ _ _ A). exact Ho.
Qed.

Lemma enc_strpairs m : forall b,
  buf_ok b -> border b = BigE ->
  (N.of_nat (length (concat (map (fun kx : bs * bs => lenPrefixed (fst kx) ++ lenPrefixed (snd kx)) m))) < 2 ^ 32)%N ->
  app_to b (concat (map (fun kx => lenPrefixed (fst kx) ++ lenPrefixed (snd kx)) m))
    (fold_left (fun b kv => encodeStringNoTag (snd kv) (encodeStringNoTag (fst kv) b)) m b).
Proof.
  induction m as [|[k x] m IH]; intros b Hok Ho Hl; cbn [map concat fold_left fst snd] in *.
  - apply app_to_refl, Hok.
  - rewrite !app_length, !lenPrefixed_length in Hl.
    assert (A : app_to b (lenPrefixed k) (encodeStringNoTag k b)) by (apply enc_str; auto; lia).
    assert (Ao : border (encodeStringNoTag k b) = BigE) by (rewrite (app_to_order _ _ _ A); exact Ho).
    assert (B : app_to (encodeStringNoTag k b) (lenPrefixed x) (encodeStringNoTag x (encodeStringNoTag k b)))
      by (apply enc_str; auto; [apply (app_to_ok _ _ _ A)|lia]).
    eapply app_to_trans; [eapply app_to_trans; [exact A|exact B]|].
    apply IH; [apply (app_to_ok _ _ _ B)| |lia].
    rewrite (app_to_order _ _ _ B). exact Ao.
Qed.

(* named versions of the inner loops *)
Definition encElems :=
  fix elems (a : list value) (b : buffer) : eres :=
    match a with
    | [] => EOk b
    | x :: a' => ebind (serializeIn x b) (elems a')
    end.
Definition encEntries :=
  fix entries (m : list (value * value)) (b : buffer) : eres :=
    match m with
    | [] => EOk b
    | (k, x) :: m' =>
        ebind (serializeIn k b) (fun b' =>
        if key_eqb k k then ebind (serializeIn x b') (entries m') else ENotSupport b')
    end.

(* outcome of an encoder: appended w if ok, ErrNotSupport otherwise *)
Definition enc_outcome (ok : bool) (b : buffer) (w : bs) (r : eres) : Prop :=
  if ok then exists b', r = EOk b' /\ app_to b w b' else exists b', r = ENotSupport b'.

Definition enc_ok (v : value) : Prop := forall b,
  buf_ok b -> border b = BigE -> good v -> fits v ->
  enc_outcome (supportedIn v) b (wire v) (serializeIn v b).

Lemma fits_lt (p : bs) v : length p <= length (wire v) -> fits v -> (N.of_nat (length p) < 2 ^ 32)%N.
Proof. unfold fits. intros. lia. Qed.

Lemma quiet32_lt f : (f < 2 ^ 32)%N -> (quiet32 f < 2 ^ 32)%N.
Proof.
  intro H. unfold quiet32. destruct (isNaN32 f); [|exact H].
  destruct (N.eq_dec (N.lor f 4194304) 0) as [E|E]; [rewrite E; reflexivity|].
  apply N.log2_lt_pow2; [lia|]. rewrite N.log2_lor.
  destruct (N.eq_dec f 0) as [->|Hf]; [reflexivity|].
  apply N.max_lub_lt; [apply N.log2_lt_pow2; [lia|exact H]|reflexivity].
Qed.

Lemma encElems_ok a : Forall enc_ok a -> forall b,
  buf_ok b -> border b = BigE -> Forall good a -> (N.of_nat (length (concat (map wire a))) < 2 ^ 32)%N ->
  enc_outcome (forallb supportedIn a) b (concat (map wire a)) (encElems a b).
Proof.
  induction 1 as [|x a Hx Ha IH]; intros b Hok Ho Hg Hl; cbn [encElems forallb map concat] in *.
  - exists b. split; [reflexivity|apply app_to_refl, Hok].
  - inversion Hg as [|? ? Hgx Hga]; subst. rewrite app_length in Hl.
    assert (Hfx : fits x) by (unfold fits; lia).
    specialize (Hx b Hok Ho Hgx Hfx). destruct (supportedIn x); cbn [andb enc_outcome] in *.
    + destruct Hx as (b1 & E & A). rewrite E. cbn [ebind].
      assert (Ho1 : border b1 = BigE) by (rewrite (app_to_order _ _ _ A); exact Ho).
      assert (Hl1 : (N.of_nat (length (concat (map wire a))) < 2 ^ 32)%N) by lia.
      specialize (IH b1 (app_to_ok _ _ _ A) Ho1 Hga Hl1).
      destruct (forallb supportedIn a); cbn [enc_outcome] in *.
      * destruct IH as (b2 & E2 & A2). exists b2. split; [exact E2|]. eapply app_to_trans; eauto.
      * exact IH.
    + destruct Hx as (b1 & E). rewrite E. exists b1. reflexivity.
Qed.

Definition wpair (kx : value * value) : bs := wire (fst kx) ++ wire (snd kx).
Definition sup_pair (kx : value * value) : bool :=
  supportedIn (fst kx) && key_eqb (fst kx) (fst kx) && supportedIn (snd kx).

Lemma encEntries_ok m : Forall (fun kx => enc_ok (fst kx) /\ enc_ok (snd kx)) m -> forall b,
  buf_ok b -> border b = BigE -> Forall (fun kx => good (fst kx) /\ good (snd kx)) m ->
  (N.of_nat (length (concat (map wpair m))) < 2 ^ 32)%N ->
  enc_outcome (forallb sup_pair m) b (concat (map wpair m)) (encEntries m b).
Proof.
  induction 1 as [|[k x] m [Hk Hx] Hm IH]; intros b Hok Ho Hg Hl; cbn [encEntries forallb map concat] in *.
  - exists b. split; [reflexivity|apply app_to_refl, Hok].
  - inversion Hg as [|? ? [Hgk Hgx] Hgm]; subst. cbn [fst snd] in *.
    unfold wpair at 1 in Hl. cbn [fst snd] in Hl. rewrite !app_length in Hl.
    unfold wpair at 1, sup_pair at 1. cbn [fst snd].
    assert (Hfk : fits k) by (unfold fits; lia). assert (Hfx : fits x) by (unfold fits; lia).
    specialize (Hk b Hok Ho Hgk Hfk). destruct (supportedIn k); cbn [andb enc_outcome] in *.
    + destruct Hk as (b1 & E & A). rewrite E. cbn [ebind].
      assert (Ho1 : border b1 = BigE) by (rewrite (app_to_order _ _ _ A); exact Ho).
      destruct (key_eqb k k); cbn [andb enc_outcome]; [|exists b1; reflexivity].
      specialize (Hx b1 (app_to_ok _ _ _ A) Ho1 Hgx Hfx).
      destruct (supportedIn x); cbn [andb enc_outcome] in *.
      * destruct Hx as (b2 & E2 & A2). rewrite E2. cbn [ebind].
        assert (Ho2 : border b2 = BigE) by (rewrite (app_to_order _ _ _ A2); exact Ho1).
        assert (Hl1 : (N.of_nat (length (concat (map wpair m))) < 2 ^ 32)%N) by lia.
        specialize (IH b2 (app_to_ok _ _ _ A2) Ho2 Hgm Hl1).
        destruct (forallb sup_pair m); cbn [enc_outcome] in *.
        -- destruct IH as (b3 & E3 & A3). exists b3. split; [exact E3|].
           eapply app_to_trans; [eapply app_to_trans|]; eauto.
        -- exact IH.
      * destruct Hx as (b2 & E2). rewrite E2. exists b2. reflexivity.
    + destruct Hk as (b1 & E). rewrite E. exists b1. reflexivity.
Qed.

Lemma good_arr a : good (VArr a) <-> Forall good a.
Proof.
  cbn [good]. induction a as [|x a IH]; cbn [fold_right].
  - split; constructor.
  - rewrite IH. split; [intros []; constructor; auto | inversion 1; auto].
Qed.

Lemma good_map m : good (VMap m) <->
  distinct key_eqb (map (fun kx => asDecoded (fst kx)) m) /\
  Forall (fun kx => hashable (fst kx) = true /\ good (fst kx) /\ good (snd kx)) m.
Proof.
  cbn [good].
  assert (E : fold_right (fun kx P => (hashable (fst kx) = true /\ good (fst kx) /\ good (snd kx)) /\ P) True m
              <-> Forall (fun kx => hashable (fst kx) = true /\ good (fst kx) /\ good (snd kx)) m).
  { induction m as [|x m IH]; cbn [fold_right].
    - split; constructor.
    - rewrite IH. split; [intros []; constructor; auto | inversion 1; auto]. }
  rewrite E. reflexivity.
Qed.

Lemma enc_tagged b tag w b' :
  buf_ok b -> app_to (writeByte b tag) w b' -> app_to b (tag :: w) b'.
Proof.
  intros Hok A. change (tag :: w) with ([tag] ++ w). eapply app_to_trans; [apply app_to_writeByte, Hok|exact A].
Qed.

Lemma tagged_ok b tag : buf_ok b -> border b = BigE -> buf_ok (writeByte b tag) /\ border (writeByte b tag) = BigE.
Proof. intros H Ho. destruct (writeByte_spec b tag H) as (_ & A & B & _). split; [exact A|congruence]. Qed.

Lemma serializeIn_ok v : enc_ok v.
Proof.
  induction v using value_ind'; intros b0 Hok Ho Hg Hf;
    cbn [supportedIn enc_outcome serializeIn];
    try (destruct (tagged_ok b0 sString Hok Ho) as [T1 T2]).
  - exists b0. reflexivity.
  - eexists. split; [reflexivity|]. unfold encodeString. apply enc_tagged; [exact Hok|].
    apply enc_str; auto. apply (fits_lt s (VStr s)); [cbn [wire length]; rewrite lenPrefixed_length; lia|exact Hf].
  - eexists. split; [reflexivity|]. unfold encodeStringMap, getWPos.
    apply enc_container; auto.
    + destruct (reserve_ok b0 sStringMap Hok Ho). apply enc_strpairs; auto.
      apply (fits_lt _ (VStrMap m)); [cbn [wire length]; rewrite lenPrefixed_length; lia|exact Hf].
    + apply (fits_lt _ (VStrMap m)); [cbn [wire length]; rewrite lenPrefixed_length; lia|exact Hf].
  - eexists. split; [reflexivity|]. unfold encodeBytes. apply enc_tagged; [exact Hok|].
    destruct (tagged_ok b0 sByteArray Hok Ho) as [T3 T4].
    apply (enc_str (writeByte b0 sByteArray) p); auto.
    apply (fits_lt p (VBytes p)); [cbn [wire length]; rewrite lenPrefixed_length; lia|exact Hf].
  - eexists. split; [reflexivity|]. unfold encodeStringArray, getWPos.
    apply enc_container; auto.
    + destruct (reserve_ok b0 sStringArray Hok Ho). apply enc_strs; auto.
      apply (fits_lt _ (VStrArr a)); [cbn [wire length]; rewrite lenPrefixed_length; lia|exact Hf].
    + apply (fits_lt _ (VStrArr a)); [cbn [wire length]; rewrite lenPrefixed_length; lia|exact Hf].
  - eexists. split; [reflexivity|]. unfold encodeBool. apply enc_tagged; [exact Hok|].
    apply app_to_writeByte. apply tagged_ok; auto.
  - eexists. split; [reflexivity|]. unfold encodeByte. apply enc_tagged; [exact Hok|].
    apply app_to_writeByte. apply tagged_ok; auto.
  - eexists. split; [reflexivity|]. unfold encodeInt16, writeUint16. apply enc_tagged; [exact Hok|].
    destruct (tagged_ok b0 sInt16 Hok Ho) as [T3 T4].
    pose proof (app_to_writeUint 2 (writeByte b0 sInt16) (toUnsigned 16 z) T3) as A.
    rewrite T4 in A. exact A.
  - cbn [good] in Hg. unfold encodeInt32.
    destruct (tagged_ok b0 sInt32 Hok Ho) as [T3 T4].
    destruct (runWop_spec (writeByte b0 sInt32) (OpZigzag32 z) T3 Hg) as (b' & E & E1 & E2 & E3 & E4).
    cbn [runWop] in E. rewrite E. exists b'. split; [reflexivity|].
    apply enc_tagged; [exact Hok|]. unfold app_to. auto.
  - cbn [good] in Hg. unfold encodeInt64.
    destruct (tagged_ok b0 sInt64 Hok Ho) as [T3 T4].
    destruct (runWop_spec (writeByte b0 sInt64) (OpZigzag64 z) T3 Hg) as (b' & E & E1 & E2 & E3 & E4).
    cbn [runWop] in E. rewrite E. exists b'. split; [reflexivity|].
    apply enc_tagged; [exact Hok|]. unfold app_to. auto.
  - cbn [good] in Hg. unfold encodeInt64.
    destruct (tagged_ok b0 sInt64 Hok Ho) as [T3 T4].
    destruct (runWop_spec (writeByte b0 sInt64) (OpZigzag64 z) T3 Hg) as (b' & E & E1 & E2 & E3 & E4).
    cbn [runWop] in E. rewrite E. exists b'. split; [reflexivity|].
    apply enc_tagged; [exact Hok|]. unfold app_to. auto.
  - eexists. split; [reflexivity|]. unfold encodeFloat32, writeUint32. apply enc_tagged; [exact Hok|].
    destruct (tagged_ok b0 sFloat32 Hok Ho) as [T3 T4].
    pose proof (app_to_writeUint 4 (writeByte b0 sFloat32) (quiet32 f) T3) as A. rewrite T4 in A. exact A.
  - eexists. split; [reflexivity|]. unfold encodeFloat64, writeUint64. apply enc_tagged; [exact Hok|].
    destruct (tagged_ok b0 sFloat64 Hok Ho) as [T3 T4].
    pose proof (app_to_writeUint 8 (writeByte b0 sFloat64) f T3) as A. rewrite T4 in A. exact A.
  - fold encEntries. apply good_map in Hg as [_ Hg].
    assert (Hg' : Forall (fun kx => good (fst kx) /\ good (snd kx)) m).
    { eapply Forall_impl; [|exact Hg]. cbn. tauto. }
    destruct (reserve_ok b0 sMap Hok Ho) as [R1 R2].
    assert (Hl : (N.of_nat (length (concat (map wpair m))) < 2 ^ 32)%N).
    { apply (fits_lt _ (VMap m)); [|exact Hf].
      change (wire (VMap m)) with (x14 :: lenPrefixed (concat (map wpair m))).
      cbn [length]. rewrite lenPrefixed_length. lia. }
    pose proof (encEntries_ok m H _ R1 R2 Hg' Hl) as E.
    change (wire (VMap m)) with (x14 :: lenPrefixed (concat (map wpair m))).
    change (forallb _ m) with (forallb sup_pair m).
    unfold getWPos. cbn zeta.
    destruct (forallb sup_pair m); cbn [enc_outcome] in *.
    + destruct E as (b3 & E & A). rewrite E. cbn [ebind]. eexists. split; [reflexivity|].
      apply enc_container; auto.
    + destruct E as (b3 & E). rewrite E. eexists. reflexivity.
  - fold encElems. apply good_arr in Hg.
    destruct (reserve_ok b0 sArray Hok Ho) as [R1 R2].
    assert (Hl : (N.of_nat (length (concat (map wire a))) < 2 ^ 32)%N).
    { apply (fits_lt _ (VArr a)); [cbn [wire length]; rewrite lenPrefixed_length; lia|exact Hf]. }
    pose proof (encElems_ok a H _ R1 R2 Hg Hl) as E.
    unfold getWPos. cbn zeta.
    destruct (forallb supportedIn a); cbn [enc_outcome] in *.
    + destruct E as (b3 & E & A). rewrite E. cbn [ebind]. eexists. split; [reflexivity|].
      apply enc_container; auto.
    + destruct E as (b3 & E). rewrite E. eexists. reflexivity.
  - exists b0. reflexivity.
Qed.

Lemma serializeBuf_ok v b :
  buf_ok b -> border b = BigE -> good v -> fits v ->
  enc_outcome (supported v) b (wire v) (serializeBuf v b).
Proof.
  intros Hok Ho Hg Hf.
  destruct v; try (exact (serializeIn_ok _ b Hok Ho Hg Hf)).
  cbn. eexists. split; [reflexivity|apply app_to_writeByte, Hok].
Qed.

Lemma serialize_result v :
  good v -> fits v ->
  serialize v = if supported v then SOk (wire v) else SErr.
Proof.
  intros Hg Hf. unfold serialize.
  pose proof (serializeBuf_ok v (newBuf DefaultBufferSize BigE) (newBuf_ok _ _) eq_refl Hg Hf) as E.
  destruct (supported v); cbn [enc_outcome] in E.
  - destruct E as (b' & E & A & _). rewrite E, A. reflexivity.
  - destruct E as (b' & E). rewrite E. reflexivity.
Qed.

(* ------------------------------------------------------------------ decoder on encoded data *)

Lemma wire_pos v : 0 < length (wire v).
Proof. destruct v; cbn [wire length]; lia. Qed.

Lemma readInt_len pre n rest :
  (N.of_nat n < 2 ^ 32)%N ->
  readInt (atPos pre (spec_uint BigE 4 (N.of_nat n) ++ rest) BigE)
  = (ROk (N.of_nat n), atPos (pre ++ spec_uint BigE 4 (N.of_nat n)) rest BigE).
Proof.
  intro H. unfold readInt, readUint32. rewrite <- putUint_spec. apply readUint_putUint. exact H.
Qed.

Lemma nextN_app pre mid rest o :
  nextN (atPos pre (mid ++ rest) o) (N.of_nat (length mid)) = (ROk mid, atPos (pre ++ mid) rest o).
Proof.
  unfold nextN. rewrite Nat2N.id, next_app by reflexivity.
  destruct (N.ltb_spec (N.of_nat (bwpos (atPos pre (mid ++ rest) o)))
                       (N.of_nat (brpos (atPos pre (mid ++ rest) o)) + N.of_nat (length mid))) as [H|_]; [|reflexivity].
  cbn in H. rewrite !app_length in H. lia.
Qed.

Lemma decodeString_app pre s rest :
  (N.of_nat (length s) < 2 ^ 32)%N ->
  decodeString (atPos pre (lenPrefixed s ++ rest) BigE) = (DOk s, atPos (pre ++ lenPrefixed s) rest BigE).
Proof.
  intro H. unfold decodeString, lenPrefixed. rewrite <- app_assoc, readInt_len by exact H.
  cbn [liftRes dbind]. rewrite nextN_app. cbn [liftRes]. rewrite <- app_assoc. reflexivity.
Qed.

Lemma atPos_rpos pre rest o : brpos (atPos pre rest o) = length pre.
Proof. reflexivity. Qed.

Lemma strArrLoop_app a : forall g acc pre rest endPos,
  length a < g -> (N.of_nat (length (concat (map lenPrefixed a))) < 2 ^ 32)%N ->
  endPos = N.of_nat (length pre + length (concat (map lenPrefixed a))) ->
  strArrLoop g endPos acc (atPos pre (concat (map lenPrefixed a) ++ rest) BigE)
  = (DOk (acc ++ a), atPos (pre ++ concat (map lenPrefixed a)) rest BigE).
Proof.
  induction a as [|s a IH]; intros g acc pre rest endPos Hg Hl He; (destruct g as [|g]; [cbn [length] in Hg; lia|]);
    cbn [map concat strArrLoop app] in *; rewrite atPos_rpos.
  - destruct (N.ltb_spec (N.of_nat (length pre)) endPos) as [H|_]; [cbn [length] in He; lia|].
    destruct (N.eqb_spec (N.of_nat (length pre)) endPos) as [_|H]; [|cbn [length] in He; lia].
    rewrite !app_nil_r. reflexivity.
  - rewrite !app_length, lenPrefixed_length in *.
    destruct (N.ltb_spec (N.of_nat (length pre)) endPos) as [_|H]; [|lia].
    rewrite <- app_assoc, decodeString_app by lia. cbn [dbind].
    rewrite IH.
    + rewrite <- !app_assoc. reflexivity.
    + cbn [length] in Hg. lia.
    + lia.
    + rewrite app_length, lenPrefixed_length. subst endPos. f_equal. lia.
Qed.

Definition spair (kx : bs * bs) : bs := lenPrefixed (fst kx) ++ lenPrefixed (snd kx).

Lemma aset_new {V} (m : list (bs * V)) k v : ~ In k (map fst m) -> aset bs_eqb m k v = m ++ [(k, v)].
Proof.
  induction m as [|[k' v'] m IH]; cbn [map fst aset app]; intro H; [reflexivity|].
  destruct (bs_eqb k k') eqn:E.
  - apply bs_eqb_spec in E. subst. exfalso. apply H. left. reflexivity.
  - rewrite IH; [reflexivity|]. intro Hin. apply H. right. exact Hin.
Qed.

Lemma strMapLoop_app m : forall g acc pre rest endPos,
  length m < g -> (N.of_nat (length (concat (map spair m))) < 2 ^ 32)%N ->
  NoDup (map fst (acc ++ m)) ->
  endPos = N.of_nat (length pre + length (concat (map spair m))) ->
  strMapLoop g endPos acc (atPos pre (concat (map spair m) ++ rest) BigE)
  = (DOk (acc ++ m), atPos (pre ++ concat (map spair m)) rest BigE).
Proof.
  induction m as [|[k x] m IH]; intros g acc pre rest endPos Hg Hl Hnd He; (destruct g as [|g]; [cbn [length] in Hg; lia|]);
    cbn [map concat strMapLoop app] in *; rewrite atPos_rpos.
  - destruct (N.ltb_spec (N.of_nat (length pre)) endPos) as [H|_]; [cbn [length] in He; lia|].
    destruct (N.eqb_spec (N.of_nat (length pre)) endPos) as [_|H]; [|cbn [length] in He; lia].
    rewrite !app_nil_r. reflexivity.
  - change (spair (k, x)) with (lenPrefixed k ++ lenPrefixed x) in *.
    rewrite !app_length, !lenPrefixed_length in *.
    destruct (N.ltb_spec (N.of_nat (length pre)) endPos) as [_|H]; [|lia].
    rewrite <- !app_assoc, decodeString_app by lia. cbn [dbind].
    rewrite decodeString_app by lia. cbn [dbind].
    unfold strPut. rewrite aset_new.
    2:{ rewrite map_app in Hnd. cbn [map fst] in Hnd. apply NoDup_remove_2 in Hnd.
        intro Hin. apply Hnd. apply in_or_app. left. exact Hin. }
    rewrite IH.
    + rewrite <- !app_assoc. reflexivity.
    + cbn [length] in Hg. lia.
    + lia.
    + rewrite <- app_assoc. exact Hnd.
    + rewrite !app_length, !lenPrefixed_length. subst endPos. f_equal. lia.
Qed.

(* decoder correct on v, for every fuel above the encoded length *)
Definition dec_ok (v : value) : Prop := forall fuel t pre rest,
  good v -> supported v = true -> fits v -> length (wire v) < fuel ->
  deSerializeBuf fuel t (atPos pre (wire v ++ rest) BigE)
  = (DOk (asDecodedFor t v), atPos (pre ++ wire v) rest BigE).

Lemma supIn_sup v : supportedIn v = true -> supported v = true.
Proof. destruct v; cbn; auto. Qed.

Lemma asDecodedFor_none v : asDecodedFor TNone v = asDecoded v.
Proof. destruct v; reflexivity. Qed.

Lemma arrLoop_app f a : Forall dec_ok a -> forall g acc pre rest endPos,
  length a < g -> Forall good a -> forallb supportedIn a = true ->
  length (concat (map wire a)) < f ->
  (N.of_nat (length (concat (map wire a))) < 2 ^ 32)%N ->
  endPos = N.of_nat (length pre + length (concat (map wire a))) ->
  arrLoop (deSerializeBuf f TNone) g endPos acc (atPos pre (concat (map wire a) ++ rest) BigE)
  = (DOk (acc ++ map asDecoded a), atPos (pre ++ concat (map wire a)) rest BigE).
Proof.
  induction 1 as [|x a Hx Ha IH]; intros g acc pre rest endPos Hg Hgood Hsup Hf Hl He;
    (destruct g as [|g]; [cbn [length] in Hg; lia|]);
    cbn [map concat arrLoop app forallb] in *; rewrite atPos_rpos.
  - destruct (N.ltb_spec (N.of_nat (length pre)) endPos) as [H|_]; [cbn [length] in He; lia|].
    destruct (N.eqb_spec (N.of_nat (length pre)) endPos) as [_|H]; [|cbn [length] in He; lia].
    rewrite !app_nil_r. reflexivity.
  - rewrite !app_length in *. pose proof (wire_pos x) as Hp.
    destruct (N.ltb_spec (N.of_nat (length pre)) endPos) as [_|H]; [|lia].
    inversion Hgood as [|? ? G1 G2]; subst. apply andb_true_iff in Hsup as [S1 S2].
    rewrite <- app_assoc, Hx; [|exact G1|apply supIn_sup, S1|unfold fits; lia|lia].
    cbn [dbind]. rewrite asDecodedFor_none. rewrite IH; auto; try lia.
    + rewrite <- !app_assoc. reflexivity.
    + cbn [length] in Hg. lia.
    + rewrite app_length. f_equal. lia.
Qed.

Lemma mapPut_new m k v : Forall (fun kx => key_eqb (fst kx) k = false) m -> mapPut m k v = m ++ [(k, v)].
Proof.
  induction 1 as [|[k' v'] m H Hm IH]; cbn [mapPut app]; [reflexivity|].
  cbn [fst] in H. rewrite H, IH. reflexivity.
Qed.

Definition decPair (kx : value * value) : value * value := (asDecoded (fst kx), asDecoded (snd kx)).

Lemma hashable_dec k : hashable (asDecoded k) = hashable k.
Proof. destruct k; reflexivity. Qed.

Lemma FOP_app_inv {A} (R : A -> A -> Prop) l1 x l2 :
  ForallOrdPairs R (l1 ++ x :: l2) -> Forall (fun y => R y x) l1.
Proof.
  induction l1 as [|y l1 IH]; cbn [app]; intro H; [constructor|].
  inversion H as [|? ? H1 H2]; subst. constructor.
  - rewrite Forall_forall in H1. apply H1. apply in_or_app. right. left. reflexivity.
  - apply IH, H2.
Qed.

Lemma mapLoop_app f m : Forall (fun kx => dec_ok (fst kx) /\ dec_ok (snd kx)) m -> forall g acc pre rest endPos,
  length m < g ->
  Forall (fun kx => hashable (fst kx) = true /\ good (fst kx) /\ good (snd kx)) m ->
  forallb sup_pair m = true ->
  distinct key_eqb (map fst acc ++ map (fun kx => asDecoded (fst kx)) m) ->
  length (concat (map wpair m)) < f ->
  (N.of_nat (length (concat (map wpair m))) < 2 ^ 32)%N ->
  endPos = N.of_nat (length pre + length (concat (map wpair m))) ->
  mapLoop (deSerializeBuf f TNone) g endPos acc (atPos pre (concat (map wpair m) ++ rest) BigE)
  = (DOk (acc ++ map decPair m), atPos (pre ++ concat (map wpair m)) rest BigE).
Proof.
  induction 1 as [|[k x] m [Hk Hx] Hm IH]; intros g acc pre rest endPos Hg Hgood Hsup Hd Hf Hl He;
    (destruct g as [|g]; [cbn [length] in Hg; lia|]);
    cbn [map concat mapLoop app forallb] in *; rewrite atPos_rpos.
  - destruct (N.ltb_spec (N.of_nat (length pre)) endPos) as [H|_]; [cbn [length] in He; lia|].
    destruct (N.eqb_spec (N.of_nat (length pre)) endPos) as [_|H]; [|cbn [length] in He; lia].
    rewrite !app_nil_r. reflexivity.
  - change (wpair (k, x)) with (wire k ++ wire x) in *.
    unfold sup_pair at 1 in Hsup. cbn [fst snd] in *.
    rewrite !app_length in *. pose proof (wire_pos x) as Hp. pose proof (wire_pos k) as Hp2.
    destruct (N.ltb_spec (N.of_nat (length pre)) endPos) as [_|H]; [|lia].
    inversion Hgood as [|? ? (G0 & G1 & G2) G3]; subst. cbn [fst snd] in *.
    apply andb_true_iff in Hsup as [S1 S2]. apply andb_true_iff in S1 as [S1 S3].
    apply andb_true_iff in S1 as [S0 S1].
    rewrite <- !app_assoc, Hk; [|exact G1|apply supIn_sup, S0|unfold fits; lia|lia].
    cbn [dbind]. rewrite Hx; [|exact G2|apply supIn_sup, S3|unfold fits; lia|lia].
    cbn [dbind]. rewrite !asDecodedFor_none, hashable_dec, G0.
    rewrite mapPut_new.
    2:{ apply FOP_app_inv in Hd. rewrite Forall_map in Hd. exact Hd. }
    rewrite IH; auto; try lia.
    + rewrite <- !app_assoc. reflexivity.
    + cbn [length] in Hg. lia.
    + rewrite map_app. cbn [map fst]. rewrite <- app_assoc. exact Hd.
    + rewrite !app_length. f_equal. lia.
Qed.

Lemma container_app {A} (loop : N -> buffer -> dres (list A) * buffer) pre body rest l :
  (N.of_nat (length body) < 2 ^ 32)%N ->
  (body = [] -> l = []) ->
  (body <> [] -> loop (N.of_nat (length (pre ++ spec_uint BigE 4 (N.of_nat (length body))) + length body))
        (atPos (pre ++ spec_uint BigE 4 (N.of_nat (length body))) (body ++ rest) BigE)
   = (DOk l, atPos (pre ++ lenPrefixed body) rest BigE)) ->
  container loop (atPos pre (lenPrefixed body ++ rest) BigE) = (DOk l, atPos (pre ++ lenPrefixed body) rest BigE).
Proof.
  intros Hl Hnil Hloop. unfold container, lenPrefixed. rewrite <- app_assoc, readInt_len by exact Hl.
  cbn [liftRes dbind]. rewrite atPos_rpos.
  destruct (N.eqb_spec (N.of_nat (length body)) 0) as [E|E].
  - assert (body = []) by (destruct body; [reflexivity|cbn [length] in E; lia]).
    subst body. rewrite Hnil by reflexivity. cbn [app length]. rewrite app_nil_r. reflexivity.
  - rewrite <- Nat2N.inj_add. apply Hloop. intro Hb. subst body. apply E. reflexivity.
Qed.

Lemma length_concat_ge {A} (f : A -> bs) l : (forall x, 0 < length (f x)) -> length l <= length (concat (map f l)).
Proof.
  intro H. induction l as [|x l IH]; cbn [map concat length]; [lia|].
  rewrite app_length. specialize (H x). lia.
Qed.

Lemma concat_nil_inv {A} (f : A -> bs) l : (forall x, 0 < length (f x)) -> concat (map f l) = [] -> l = [].
Proof.
  intros H E. pose proof (length_concat_ge f l H) as L. rewrite E in L. destruct l; [reflexivity|cbn in L; lia].
Qed.

Lemma lp_assoc (pre body : bs) :
  (pre ++ spec_uint BigE 4 (N.of_nat (length body))) ++ body = pre ++ lenPrefixed body.
Proof. unfold lenPrefixed. rewrite <- app_assoc. reflexivity. Qed.

Lemma good_supp_dec v : dec_ok v.
Proof.
  induction v using value_ind'; intros fuel t pre rest Hg Hs Hf Hfu;
    (destruct fuel as [|f']; [lia|]);
    pose proof Hf as Hf2; unfold fits in Hf2;
    cbn [deSerializeBuf asDecodedFor asDecoded supported supportedIn] in *; try discriminate;
    cbn [wire app] in *; rewrite readByte_cons; cbn [liftRes dbind];
    cbn [length] in Hf2, Hfu; rewrite ?lenPrefixed_length in Hf2, Hfu.
  - reflexivity.
  - replace (byte_eqb x01 sNull) with false by reflexivity. replace (byte_eqb x01 sString) with true by reflexivity.
    cbn [fst snd].
    replace (match t with TBytesType | TPBytes => VBytes s | _ => VStr s end) with (if wantsBytes t then VBytes s else VStr s) by (destruct t; reflexivity).
    destruct (wantsBytes t).
    + change (decodeBytes) with decodeString. rewrite decodeString_app by lia.
      unfold dmap. cbn [dbind]. rewrite <- app_assoc. reflexivity.
    + rewrite decodeString_app by lia. unfold dmap. cbn [dbind]. rewrite <- app_assoc. reflexivity.
  - change (concat (map _ m)) with (concat (map spair m)) in *.
    match goal with |- context [if byte_eqb x02 sNull then _ else ?X] => change (if byte_eqb x02 sNull then _ else X) with (dmap VStrMap (container (fun e => strMapLoop f' e []) (atPos (pre ++ [x02]) (lenPrefixed (concat (map spair m)) ++ rest) BigE))) end.
    rewrite (container_app _ _ _ _ m).
    + unfold dmap. cbn [dbind]. rewrite <- app_assoc. reflexivity.
    + lia.
    + apply concat_nil_inv. intros [k x]. unfold spair. rewrite app_length, lenPrefixed_length. lia.
    + intros _. rewrite (strMapLoop_app m f' []).
      * rewrite lp_assoc. reflexivity.
      * assert (length m <= length (concat (map spair m))).
        { apply length_concat_ge. intros [k x]. unfold spair. rewrite app_length, lenPrefixed_length. lia. }
        lia.
      * lia.
      * exact Hg.
      * reflexivity.
  - match goal with |- context [if byte_eqb x03 sNull then _ else ?X] => change (if byte_eqb x03 sNull then _ else X) with (dmap VBytes (decodeString (atPos (pre ++ [x03]) (lenPrefixed p ++ rest) BigE))) end.
    rewrite decodeString_app by lia. unfold dmap. cbn [dbind]. rewrite <- app_assoc. reflexivity.
  - match goal with |- context [if byte_eqb x04 sNull then _ else ?X] => change (if byte_eqb x04 sNull then _ else X) with (dmap VStrArr (container (fun e => strArrLoop f' e []) (atPos (pre ++ [x04]) (lenPrefixed (concat (map lenPrefixed a)) ++ rest) BigE))) end.
    assert (Hpos : forall s : bs, 0 < length (lenPrefixed s)) by (intro s; rewrite lenPrefixed_length; lia).
    rewrite (container_app _ _ _ _ a).
    + unfold dmap. cbn [dbind]. rewrite <- app_assoc. reflexivity.
    + lia.
    + apply concat_nil_inv, Hpos.
    + intros _. rewrite (strArrLoop_app a f' []).
      * rewrite lp_assoc. reflexivity.
      * pose proof (length_concat_ge lenPrefixed a Hpos). lia.
      * lia.
      * reflexivity.
  - match goal with |- context [if byte_eqb x05 sNull then _ else ?X] => change (if byte_eqb x05 sNull then _ else X) with (dmap (fun c => VBool (byte_eqb c x01)) (liftRes (readByte (atPos (pre ++ [x05]) ((if b then x01 else x00) :: rest) BigE)))) end.
    rewrite readByte_cons. unfold dmap. cbn [dbind liftRes]. rewrite <- app_assoc. destruct b; reflexivity.
  - match goal with |- context [if byte_eqb x06 sNull then _ else ?X] => change (if byte_eqb x06 sNull then _ else X) with (dmap VByte (liftRes (readByte (atPos (pre ++ [x06]) (c :: rest) BigE)))) end.
    rewrite readByte_cons. unfold dmap. cbn [dbind liftRes]. rewrite <- app_assoc. reflexivity.
  - match goal with |- context [if byte_eqb x07 sNull then _ else ?X] => change (if byte_eqb x07 sNull then _ else X) with (dmap (fun n => VI16 (toSigned 16 n)) (liftRes (readUint 2 (atPos (pre ++ [x07]) (spec_uint BigE 2 (toUnsigned 16 z) ++ rest) BigE)))) end.
    rewrite <- putUint_spec, readUint_putUint.
    + unfold dmap. cbn [dbind liftRes]. rewrite <- app_assoc.
      rewrite toSigned_toUnsigned; [rewrite putUint_spec; reflexivity|lia|exact Hg].
    + unfold toUnsigned. change (256 ^ N.of_nat 2)%N with 65536%N. change (2 ^ Z.of_N 16)%Z with 65536%Z.
      pose proof (Z.mod_pos_bound z 65536). lia.
  - match goal with |- context [if byte_eqb x08 sNull then _ else ?X] => change (if byte_eqb x08 sNull then _ else X) with (dmap (fun n => VI32 (toSigned 32 (n mod two32))) (liftRes (readZigzag32 (atPos (pre ++ [x08]) (spec_varint (spec_zigzag z) ++ rest) BigE)))) end.
    rewrite readZigzag32_spec by exact Hg. unfold dmap. cbn [dbind liftRes]. rewrite <- app_assoc.
    rewrite N.mod_small.
    + rewrite toSigned_toUnsigned; [reflexivity|lia|exact Hg].
    + unfold toUnsigned, two32. change (2 ^ Z.of_N 32)%Z with 4294967296%Z.
      pose proof (Z.mod_pos_bound z 4294967296). lia.
  - match goal with |- context [if byte_eqb x09 sNull then _ else ?X] => change (if byte_eqb x09 sNull then _ else X) with (dmap (fun n => VI64 (toSigned 64 n)) (liftRes (readZigzag64 (atPos (pre ++ [x09]) (spec_varint (spec_zigzag z) ++ rest) BigE)))) end.
    rewrite readZigzag64_spec by exact Hg. unfold dmap. cbn [dbind liftRes]. rewrite <- app_assoc.
    rewrite toSigned_toUnsigned; [reflexivity|lia|exact Hg].
  - match goal with |- context [if byte_eqb x09 sNull then _ else ?X] => change (if byte_eqb x09 sNull then _ else X) with (dmap (fun n => VI64 (toSigned 64 n)) (liftRes (readZigzag64 (atPos (pre ++ [x09]) (spec_varint (spec_zigzag z) ++ rest) BigE)))) end.
    rewrite readZigzag64_spec by exact Hg. unfold dmap. cbn [dbind liftRes]. rewrite <- app_assoc.
    rewrite toSigned_toUnsigned; [reflexivity|lia|exact Hg].
  - match goal with |- context [if byte_eqb x0a sNull then _ else ?X] => change (if byte_eqb x0a sNull then _ else X) with (dmap VF32 (liftRes (readUint 4 (atPos (pre ++ [x0a]) (spec_uint BigE 4 (quiet32 f) ++ rest) BigE)))) end.
    rewrite <- putUint_spec, readUint_putUint by (apply quiet32_lt, Hg).
    unfold dmap. cbn [dbind liftRes]. rewrite <- app_assoc. rewrite putUint_spec. reflexivity.
  - match goal with |- context [if byte_eqb x0b sNull then _ else ?X] => change (if byte_eqb x0b sNull then _ else X) with (dmap VF64 (liftRes (readUint 8 (atPos (pre ++ [x0b]) (spec_uint BigE 8 f ++ rest) BigE)))) end.
    rewrite <- putUint_spec, readUint_putUint by exact Hg.
    unfold dmap. cbn [dbind liftRes]. rewrite <- app_assoc. rewrite putUint_spec. reflexivity.
  - change (concat (map _ m)) with (concat (map wpair m)) in *.
    change (forallb _ m) with (forallb sup_pair m) in Hs.
    match goal with |- context [if byte_eqb x14 sNull then _ else ?X] => change (if byte_eqb x14 sNull then _ else X) with (dmap VMap (container (fun e => mapLoop (deSerializeBuf f' TNone) f' e []) (atPos (pre ++ [x14]) (lenPrefixed (concat (map wpair m)) ++ rest) BigE))) end.
    apply good_map in Hg as [Hd Hg].
    assert (Hpos : forall kx, 0 < length (wpair kx)).
    { intro kx. unfold wpair. rewrite app_length. pose proof (wire_pos (fst kx)). lia. }
    rewrite (container_app _ _ _ _ (map decPair m)).
    + unfold dmap. cbn [dbind]. rewrite <- app_assoc. reflexivity.
    + lia.
    + intro E. apply concat_nil_inv in E; [subst m; reflexivity|exact Hpos].
    + intros _. pose proof (length_concat_ge wpair m Hpos) as L. rewrite (mapLoop_app f' m H f' []).
      * rewrite lp_assoc. reflexivity.
      * lia.
      * exact Hg.
      * exact Hs.
      * exact Hd.
      * lia.
      * lia.
      * reflexivity.
  - match goal with |- context [if byte_eqb x15 sNull then _ else ?X] => change (if byte_eqb x15 sNull then _ else X) with (dmap VArr (container (fun e => arrLoop (deSerializeBuf f' TNone) f' e []) (atPos (pre ++ [x15]) (lenPrefixed (concat (map wire a)) ++ rest) BigE))) end.
    apply good_arr in Hg.
    rewrite (container_app _ _ _ _ (map asDecoded a)).
    + unfold dmap. cbn [dbind]. rewrite <- app_assoc. reflexivity.
    + lia.
    + intro E. apply concat_nil_inv in E; [subst a; reflexivity|exact wire_pos].
    + intros _. pose proof (length_concat_ge wire a wire_pos) as L. rewrite (arrLoop_app f' a H f' []).
      * rewrite lp_assoc. reflexivity.
      * lia.
      * exact Hg.
      * exact Hs.
      * lia.
      * lia.
      * reflexivity.
Qed.

(* ------------------------------------------------------------------ C07 *)

Lemma roundtrip v t suf :
  good v -> supported v = true -> fits v ->
  serialize v = SOk (wire v) /\
  exists b', deserialize (wire v ++ suf) t = (DOk (asDecodedFor t v), b') /\ brpos b' = length (wire v).
Proof.
  intros Hg Hs Hf. split; [rewrite serialize_result by assumption; rewrite Hs; reflexivity|].
  exists (atPos (wire v) suf BigE). split; [|reflexivity].
  unfold deserialize. destruct (wire v ++ suf) as [|c p] eqn:E.
  - pose proof (wire_pos v). destruct (wire v); [cbn in *; lia|discriminate].
  - rewrite <- E. change (createBuf (wire v ++ suf) BigE) with (atPos [] (wire v ++ suf) BigE).
    rewrite (good_supp_dec v); auto. rewrite E, <- E, app_length. lia.
Qed.

(* ------------------------------------------------------------------ C08 *)

Lemma serializeAll_ok vs : forall b,
  buf_ok b -> border b = BigE -> Forall good vs -> forallb supported vs = true ->
  (N.of_nat (length (concat (map wire vs))) < 2 ^ 32)%N ->
  exists b', serializeAll vs b = EOk b' /\ app_to b (concat (map wire vs)) b'.
Proof.
  induction vs as [|v vs IH]; intros b Hok Ho Hg Hs Hl; cbn [serializeAll map concat forallb] in *.
  - exists b. split; [reflexivity|apply app_to_refl, Hok].
  - apply andb_true_iff in Hs as [S1 S2]. inversion Hg as [|? ? G1 G2]; subst. rewrite app_length in Hl.
    assert (Hf : fits v) by (unfold fits; lia).
    pose proof (serializeBuf_ok v b Hok Ho G1 Hf) as E. rewrite S1 in E. destruct E as (b1 & E & A).
    rewrite E. cbn [ebind].
    destruct (IH b1) as (b2 & E2 & A2); auto.
    + apply (app_to_ok _ _ _ A).
    + rewrite (app_to_order _ _ _ A). exact Ho.
    + lia.
    + exists b2. split; [exact E2|]. eapply app_to_trans; eauto.
Qed.

Lemma deserializeRest_app vs : forall fuel g acc pre,
  length vs < g -> Forall good vs -> forallb supported vs = true ->
  (N.of_nat (length (concat (map wire vs))) < 2 ^ 32)%N -> length (concat (map wire vs)) < fuel ->
  deserializeRest fuel g acc (atPos pre (concat (map wire vs)) BigE)
  = (DOk (acc ++ map asDecoded vs), atPos (pre ++ concat (map wire vs)) [] BigE).
Proof.
  induction vs as [|v vs IH]; intros fuel g acc pre Hg Hgo Hs Hl Hf;
    (destruct g as [|g]; [cbn [length] in Hg; lia|]); cbn [deserializeRest map concat forallb] in *.
  - cbn [atPos brpos bwpos]. rewrite !app_nil_r.
    destruct (Nat.ltb_spec (length pre) (length pre)) as [H|_]; [lia|]. reflexivity.
  - apply andb_true_iff in Hs as [S1 S2]. inversion Hgo as [|? ? G1 G2]; subst. rewrite app_length in Hl, Hf.
    pose proof (wire_pos v) as Hp. cbn [length] in Hg.
    set (rest := concat (map wire vs)) in *.
    assert (Hlt : (brpos (atPos pre (wire v ++ rest) BigE) <? bwpos (atPos pre (wire v ++ rest) BigE)) = true).
    { apply Nat.ltb_lt. cbn. rewrite !app_length. lia. }
    rewrite Hlt.
    rewrite (good_supp_dec v); auto; [|unfold fits; lia|lia].
    rewrite asDecodedFor_none, IH; auto; try lia.
    rewrite <- !app_assoc. reflexivity.
Qed.


Lemma deserializeEach_app vs : forall fuel ts acc pre rest,
  length ts = length vs -> Forall good vs -> forallb supported vs = true ->
  (N.of_nat (length (concat (map wire vs))) < 2 ^ 32)%N -> length (concat (map wire vs)) < fuel ->
  deserializeEach fuel ts acc (atPos pre (concat (map wire vs) ++ rest) BigE)
  = (DOk (acc ++ zipDecoded ts vs), atPos (pre ++ concat (map wire vs)) rest BigE).
Proof.
  induction vs as [|v vs IH]; intros fuel ts acc pre rest Hlen Hgo Hs Hl Hf;
    (destruct ts as [|t ts]; cbn [length] in Hlen; try lia); cbn [deserializeEach map concat forallb zipDecoded app] in *.
  - rewrite !app_nil_r. reflexivity.
  - apply andb_true_iff in Hs as [S1 S2]. inversion Hgo as [|? ? G1 G2]; subst. rewrite app_length in Hl, Hf.
    rewrite <- app_assoc, (good_supp_dec v); auto; [|unfold fits; lia|lia].
    cbn [dbind]. rewrite IH; auto; try lia. rewrite <- !app_assoc. reflexivity.
Qed.

Lemma multi_roundtrip vs :
  Forall good vs -> forallb supported vs = true -> (N.of_nat (length (concat (map wire vs))) < 2 ^ 32)%N ->
  exists p, serializeMulti vs = SOk p /\
    fst (deserializeMulti p None) = DOk (map asDecoded vs) /\
    forall ts, length ts = length vs -> fst (deserializeMulti p (Some ts)) = DOk (zipDecoded ts vs).
Proof.
  intros Hg Hs Hl. exists (concat (map wire vs)).
  split; [|split].
  - unfold serializeMulti. destruct vs as [|v vs]; [reflexivity|].
    destruct (serializeAll_ok (v :: vs) (newBuf DefaultBufferSize BigE) (newBuf_ok _ _) eq_refl Hg Hs Hl)
      as (b' & E & A & _).
    rewrite E, A. reflexivity.
  - unfold deserializeMulti.
    change (createBuf (concat (map wire vs)) BigE) with (atPos [] (concat (map wire vs)) BigE).
    rewrite deserializeRest_app; auto.
    pose proof (length_concat_ge wire vs wire_pos). lia.
  - intros ts Hts. unfold deserializeMulti.
    change (createBuf (concat (map wire vs)) BigE) with (atPos [] (concat (map wire vs)) BigE).
    rewrite <- (app_nil_r (concat (map wire vs))) at 2. rewrite deserializeEach_app; auto.
Qed.

(* ------------------------------------------------------------------ C09: arbitrary bytes *)

Definition binv (b : buffer) : Prop := bwpos b = length (bbuf b) /\ brpos b <= length (bbuf b).
Definition rem (b : buffer) : nat := length (bbuf b) - brpos b.

(* b' is b with the read position moved forward inside the data *)
Definition adv (b b' : buffer) : Prop :=
  bbuf b' = bbuf b /\ bwpos b' = bwpos b /\ border b' = border b /\ brpos b <= brpos b' <= length (bbuf b).

Lemma adv_refl b : binv b -> adv b b.
Proof. unfold adv, binv. intuition lia. Qed.
Lemma adv_trans a b c : adv a b -> adv b c -> adv a c.
Proof. unfold adv. intros (A1 & A2 & A3 & A4) (B1 & B2 & B3 & B4). rewrite A1 in *. repeat split; try congruence; lia. Qed.
Lemma adv_inv b b' : binv b -> adv b b' -> binv b'.
Proof. unfold binv, adv. intros (A & B) (C1 & C2 & C3 & C4). rewrite C1, C2. split; [exact A|lia]. Qed.
Lemma adv_rem b b' : binv b -> adv b b' -> rem b' <= rem b.
Proof. unfold rem, adv. intros _ (C1 & C2 & C3 & C4). rewrite C1. lia. Qed.

(* outcome of a decoder: stays inside the data, does not run out of fuel, panics only if the data hold a map tag,
   and a success has consumed at least [n] bytes *)
Definition safe {A} (n : nat) (b : buffer) (r : dres A * buffer) : Prop :=
  adv b (snd r) /\ fst r <> DFuel /\ (fst r = DPanic -> In sMap (bbuf b))
  /\ (forall a, fst r = DOk a -> brpos b + n <= brpos (snd r)).

Lemma safe_readUint k b : binv b -> safe k b (liftRes (readUint k b)).
Proof.
  intro H. unfold readUint, remainLt. destruct (Nat.ltb_spec (bwpos b) (brpos b + k)); cbn [liftRes].
  - unfold safe, adv, advance, setRPos. cbn. repeat split; try discriminate; unfold binv in H; lia.
  - unfold safe, adv, advance, setRPos. cbn. destruct H. repeat split; try discriminate; try lia; intros; lia.
Qed.

Lemma safe_readByte b : binv b -> safe 1 b (liftRes (readByte b)).
Proof.
  intro H. unfold readByte. destruct (nth_error (bbuf b) (brpos b)) eqn:E; cbn [liftRes].
  - assert (brpos b < length (bbuf b)) by (apply nth_error_Some; congruence).
    unfold safe, adv, advance, setRPos. cbn. destruct H. repeat split; try discriminate; try lia; intros; lia.
  - unfold safe, adv, advance, setRPos. cbn. destruct H. repeat split; try discriminate; try lia.
Qed.

Lemma safe_nextN b n : binv b -> safe 0 b (liftRes (nextN b n)).
Proof.
  intro H. unfold nextN, next, remainLt.
  destruct (N.ltb_spec (N.of_nat (bwpos b)) (N.of_nat (brpos b) + n)); cbn [liftRes].
  - unfold safe, adv, advance, setRPos. cbn. destruct H. repeat split; try discriminate; lia.
  - destruct (Nat.ltb_spec (bwpos b) (brpos b + N.to_nat n)); cbn [liftRes];
      unfold safe, adv, advance, setRPos; cbn; destruct H; repeat split; try discriminate; try lia; intros; lia.
Qed.

Lemma safe_dbind {A B} n b (r : dres A * buffer) (k : A -> buffer -> dres B * buffer) m :
  binv b -> safe n b r ->
  (forall a b1, r = (DOk a, b1) -> binv b1 -> adv b b1 -> brpos b + n <= brpos b1 -> safe m b1 (k a b1)) ->
  safe (n + m) b (dbind r k).
Proof.
  intros Hb (S1 & S2 & S3 & S4) Hk. destruct r as [[a|e| |] b1]; cbn [dbind fst snd] in *.
  - pose proof (adv_inv _ _ Hb S1) as Hb1.
    specialize (S4 a eq_refl).
    destruct (Hk a b1 eq_refl Hb1 S1 S4) as (T1 & T2 & T3 & T4).
    unfold safe. repeat split; auto.
    + destruct S1 as (X1&X2&X3&X4). destruct T1 as (Y1&Y2&Y3&Y4). congruence.
    + destruct S1 as (X1&X2&X3&X4). destruct T1 as (Y1&Y2&Y3&Y4). congruence.
    + destruct S1 as (X1&X2&X3&X4). destruct T1 as (Y1&Y2&Y3&Y4). congruence.
    + destruct S1 as (X1&X2&X3&X4). destruct T1 as (Y1&Y2&Y3&Y4). lia.
    + destruct S1 as (X1&X2&X3&X4). destruct T1 as (Y1&Y2&Y3&Y4). rewrite X1 in Y4. lia.
    + intro E. specialize (T3 E). destruct S1 as (X1 & _). rewrite X1 in T3. exact T3.
    + intros x E. specialize (T4 x E). lia.
  - unfold safe, adv, advance, setRPos. cbn. destruct S1 as (X1&X2&X3&X4). repeat split; auto; try discriminate; lia.
  - unfold safe, adv, advance, setRPos. cbn. destruct S1 as (X1&X2&X3&X4). repeat split; auto; try discriminate; lia.
  - congruence.
Qed.

Lemma safe_weaken {A} n m b (r : dres A * buffer) : m <= n -> safe n b r -> safe m b r.
Proof.
  intros H (S1 & S2 & S3 & S4). unfold safe. repeat split; auto; try (destruct S1 as (?&?&?&?); tauto || lia).
  intros a E. specialize (S4 a E). lia.
Qed.

Lemma safe_ok {A} (a : A) b : binv b -> safe 0 b (DOk a, b).
Proof. intro H. unfold safe, adv, advance, setRPos. cbn. destruct H. repeat split; try discriminate; try lia; intros; lia. Qed.
Lemma safe_err {A} e b n : binv b -> safe (A := A) n b (DErr e, b).
Proof. intro H. unfold safe, adv, advance, setRPos. cbn. destruct H. repeat split; try discriminate; lia. Qed.

Lemma safe_dmap {A B} (f : A -> B) n b r : binv b -> safe n b r -> safe n b (dmap f r).
Proof.
  intros Hb H. unfold dmap. rewrite <- (Nat.add_0_r n). apply safe_dbind; auto.
  intros a b1 _ Hb1 _ _. apply safe_ok, Hb1.
Qed.

Lemma safe_decodeString b : binv b -> safe 4 b (decodeString b).
Proof.
  intro H. unfold decodeString. change 4 with (4 + 0). apply safe_dbind; [exact H|apply safe_readUint, H|].
  intros n b1 _ Hb1 _ _. apply safe_nextN, Hb1.
Qed.

Lemma safe_strArrLoop g : forall e acc b, binv b -> rem b < g -> safe 0 b (strArrLoop g e acc b).
Proof.
  induction g as [|g IH]; intros e acc b Hb Hr; [lia|]. cbn [strArrLoop].
  destruct (N.of_nat (brpos b) <? e)%N.
  - apply (safe_weaken (4 + 0)); [lia|]. apply safe_dbind; [exact Hb|apply safe_decodeString, Hb|].
    intros s b1 _ Hb1 Ha Hp. apply IH; [exact Hb1|].
    destruct Ha as (X1 & X2 & X3 & X4). unfold rem in *. rewrite X1. lia.
  - destruct (N.of_nat (brpos b) =? e)%N; [apply safe_ok, Hb|apply safe_err, Hb].
Qed.

Lemma safe_strMapLoop g : forall e acc b, binv b -> rem b < g -> safe 0 b (strMapLoop g e acc b).
Proof.
  induction g as [|g IH]; intros e acc b Hb Hr; [lia|]. cbn [strMapLoop].
  destruct (N.of_nat (brpos b) <? e)%N.
  - apply (safe_weaken (4 + (4 + 0))); [lia|]. apply safe_dbind; [exact Hb|apply safe_decodeString, Hb|].
    intros s b1 _ Hb1 Ha Hp. apply safe_dbind; [exact Hb1|apply safe_decodeString, Hb1|].
    intros s2 b2 _ Hb2 Ha2 Hp2. apply IH; [exact Hb2|].
    destruct Ha as (X1 & X2 & X3 & X4). destruct Ha2 as (Y1 & Y2 & Y3 & Y4). unfold rem in *. rewrite Y1, X1.
    rewrite X1 in Y4. lia.
  - destruct (N.of_nat (brpos b) =? e)%N; [apply safe_ok, Hb|apply safe_err, Hb].
Qed.

Lemma safe_arrLoop f dec g :
  (forall b, binv b -> rem b < f -> safe 1 b (dec b)) ->
  forall e acc b, binv b -> rem b < f -> rem b < g -> safe 0 b (arrLoop dec g e acc b).
Proof.
  intro Hd. induction g as [|g IH]; intros e acc b Hb Hf Hr; [lia|]. cbn [arrLoop].
  destruct (N.of_nat (brpos b) <? e)%N.
  - apply (safe_weaken (1 + 0)); [lia|]. apply safe_dbind; [exact Hb|apply Hd; auto|].
    intros s b1 _ Hb1 Ha Hp. pose proof Ha as (X1 & X2 & X3 & X4).
    apply IH; [exact Hb1| |]; unfold rem in *; rewrite X1; lia.
  - destruct (N.of_nat (brpos b) =? e)%N; [apply safe_ok, Hb|apply safe_err, Hb].
Qed.

Lemma safe_mapLoop f dec g :
  (forall b, binv b -> rem b < f -> safe 1 b (dec b)) ->
  forall e acc b, binv b -> rem b < f -> rem b < g -> In sMap (bbuf b) -> safe 0 b (mapLoop dec g e acc b).
Proof.
  intro Hd. induction g as [|g IH]; intros e acc b Hb Hf Hr Hin; [lia|]. cbn [mapLoop].
  destruct (N.of_nat (brpos b) <? e)%N.
  - apply (safe_weaken (1 + (1 + 0))); [lia|]. apply safe_dbind; [exact Hb|apply Hd; auto|].
    intros k b1 _ Hb1 Ha Hp. pose proof Ha as (X1 & X2 & X3 & X4).
    apply safe_dbind; [exact Hb1|apply Hd; auto; unfold rem in *; rewrite X1; lia|].
    intros x b2 _ Hb2 Ha2 Hp2. pose proof Ha2 as (Y1 & Y2 & Y3 & Y4). rewrite X1 in Y4.
    destruct (hashable k).
    + apply IH; [exact Hb2| | |rewrite Y1, X1; exact Hin]; unfold rem in *; rewrite Y1, X1; lia.
    + unfold safe, adv, advance, setRPos. cbn. rewrite Y1, X1. destruct Hb2 as [Z1 Z2]. rewrite Y1, X1 in Z2.
      repeat split; auto; try discriminate; lia.
  - destruct (N.of_nat (brpos b) =? e)%N; [apply safe_ok, Hb|apply safe_err, Hb].
Qed.

Lemma safe_container {A} (loop : N -> buffer -> dres (list A) * buffer) b :
  binv b ->
  (forall e b1, binv b1 -> adv b b1 -> safe 0 b1 (loop e b1)) -> safe 0 b (container loop b).
Proof.
  intros Hb Hl. unfold container. apply (safe_weaken (4 + 0)); [lia|].
  apply safe_dbind; [exact Hb|apply safe_readUint, Hb|].
  intros n b1 _ Hb1 Ha Hp. destruct (n =? 0)%N; [apply safe_ok, Hb1|apply Hl; auto].
Qed.

Lemma safe_varintLoop i : forall off x b, binv b -> safe 0 b (liftRes (readVarintLoop i off x b)).
Proof.
  induction i as [|i IH]; intros off x b Hb; cbn [readVarintLoop].
  - apply safe_err, Hb.
  - pose proof (safe_readByte b Hb) as S. destruct (readByte b) as [[c|e] b1]; cbn [liftRes] in *.
    + pose proof (adv_inv _ _ Hb (proj1 S)) as Hb1. cbn [snd] in Hb1.
      destruct (negb (N.land (b2n c) 128 =? 128)%N).
      * unfold safe in *. cbn in *. destruct S as (S1 & S2 & S3 & S4). repeat split; try discriminate; try apply S1.
        intros a _. specialize (S4 c eq_refl). lia.
      * specialize (IH (off + 7)%N (N.lor x (N.shiftl (N.land (b2n c) 127) off mod two64)) b1 Hb1).
        destruct S as (S1 & S2 & S3 & S4). cbn [fst snd] in *.
        destruct IH as (T1 & T2 & T3 & T4). unfold safe. pose proof (adv_trans _ _ _ S1 T1) as T.
        split; [exact T|]. split; [exact T2|]. destruct S1 as (X1 & X2 & X3 & X4). rewrite X1 in T3.
        split; [exact T3|]. intros a E. specialize (T4 a E). lia.
    + destruct S as (S1 & _). unfold safe. cbn [fst snd] in *. repeat split; try discriminate; apply S1.
Qed.

Lemma safe_zig64 b : binv b -> safe 0 b (liftRes (readZigzag64 b)).
Proof.
  intro H. unfold readZigzag64, readVarint. pose proof (safe_varintLoop 10 0 0 b H) as S.
  destruct (readVarintLoop 10 0 0 b) as [[x|e] b1]; cbn [liftRes] in *; [|exact S].
  unfold safe in *. cbn in *. destruct S as (S1 & S2 & S3 & S4). repeat split; try discriminate; try apply S1.
  intros a _. apply (S4 x eq_refl).
Qed.
Lemma safe_zig32 b : binv b -> safe 0 b (liftRes (readZigzag32 b)).
Proof.
  intro H. unfold readZigzag32, readVarint. pose proof (safe_varintLoop 10 0 0 b H) as S.
  destruct (readVarintLoop 10 0 0 b) as [[x|e] b1]; cbn [liftRes] in *; [|exact S].
  unfold safe in *. cbn in *. destruct S as (S1 & S2 & S3 & S4). repeat split; try discriminate; try apply S1.
  intros a _. apply (S4 x eq_refl).
Qed.

Lemma readByte_In b c b1 : readByte b = (ROk c, b1) -> In c (bbuf b).
Proof.
  unfold readByte. destruct (nth_error (bbuf b) (brpos b)) eqn:E; [|discriminate].
  intro H. injection H as <- _. apply nth_error_In in E. exact E.
Qed.

Lemma safe_deser fuel : forall t b, binv b -> rem b < fuel -> safe 1 b (deSerializeBuf fuel t b).
Proof.
  induction fuel as [|f IH]; intros t b Hb Hr; [lia|]. cbn [deSerializeBuf].
  change 1 with (1 + 0). apply safe_dbind; [exact Hb|apply safe_readByte, Hb|].
  intros tp b1 Htp Hb1 Ha Hp.
  assert (Hin : tp = sMap -> In sMap (bbuf b1)).
  { intros ->. destruct (readByte b) as [[c|e] b2] eqn:E; cbn [liftRes] in Htp; [|discriminate].
    injection Htp as -> ->. apply readByte_In in E. destruct Ha as (X1 & _). rewrite X1. exact E. }
  assert (Hr1 : rem b1 < f).
  { destruct Ha as (X1 & X2 & X3 & X4). unfold rem in *. rewrite X1. lia. }
  assert (Hrem : forall b2, adv b1 b2 -> rem b2 < f).
  { intros b2 A. pose proof (adv_rem _ _ Hb1 A). lia. }
  destruct (byte_eqb tp sNull); [apply safe_ok, Hb1|].
  destruct (byte_eqb tp sString).
  { destruct (wantsBytes t); apply safe_dmap; auto;
      apply (safe_weaken 4); try lia; apply (safe_decodeString b1 Hb1). }
  destruct (byte_eqb tp sStringMap).
  { apply safe_dmap; [exact Hb1|]. apply safe_container; [exact Hb1|].
    intros e b2 Hb2 A. apply safe_strMapLoop; auto. }
  destruct (byte_eqb tp sByteArray).
  { apply safe_dmap; auto; apply (safe_weaken 4); try lia; apply (safe_decodeString b1 Hb1). }
  destruct (byte_eqb tp sStringArray).
  { apply safe_dmap; [exact Hb1|]. apply safe_container; [exact Hb1|].
    intros e b2 Hb2 A. apply safe_strArrLoop; auto. }
  destruct (byte_eqb tp sBool).
  { apply safe_dmap; auto; apply (safe_weaken 1); try lia; apply (safe_readByte b1 Hb1). }
  destruct (byte_eqb tp sByte).
  { apply safe_dmap; auto; apply (safe_weaken 1); try lia; apply (safe_readByte b1 Hb1). }
  destruct (byte_eqb tp sInt16).
  { apply safe_dmap; auto; apply (safe_weaken 2); try lia; apply (safe_readUint 2 b1 Hb1). }
  destruct (byte_eqb tp sInt32).
  { apply safe_dmap; auto. apply safe_zig32, Hb1. }
  destruct (byte_eqb tp sInt64).
  { apply safe_dmap; auto. apply safe_zig64, Hb1. }
  destruct (byte_eqb tp sFloat32).
  { apply safe_dmap; auto; apply (safe_weaken 4); try lia; apply (safe_readUint 4 b1 Hb1). }
  destruct (byte_eqb tp sFloat64).
  { apply safe_dmap; auto; apply (safe_weaken 8); try lia; apply (safe_readUint 8 b1 Hb1). }
  destruct (byte_eqb tp sMap) eqn:E.
  { apply byte_eqb_spec in E. apply safe_dmap; [exact Hb1|]. apply safe_container; [exact Hb1|].
    intros e b2 Hb2 A. apply (safe_mapLoop f); auto.
    destruct A as (X1 & _). rewrite X1. apply Hin, E. }
  destruct (byte_eqb tp sArray).
  { apply safe_dmap; [exact Hb1|]. apply safe_container; [exact Hb1|].
    intros e b2 Hb2 A. apply (safe_arrLoop f); auto. }
  apply safe_err, Hb1.
Qed.

Lemma createBuf_inv p o : binv (createBuf p o).
Proof. unfold binv. cbn. lia. Qed.

Lemma deserialize_safe p t : safe 0 (createBuf p BigE) (deserialize p t).
Proof.
  unfold deserialize. destruct p as [|c p]; [apply safe_ok, createBuf_inv|].
  apply (safe_weaken 1); [lia|]. apply safe_deser; [apply createBuf_inv|]. unfold rem. cbn. lia.
Qed.

Lemma safe_each fuel ts : forall acc b, binv b -> rem b < fuel -> safe 0 b (deserializeEach fuel ts acc b).
Proof.
  induction ts as [|t ts IH]; intros acc b Hb Hr; cbn [deserializeEach]; [apply safe_ok, Hb|].
  apply (safe_weaken (1 + 0)); [lia|]. apply safe_dbind; [exact Hb|apply safe_deser; auto|].
  intros v b1 _ Hb1 Ha _. apply IH; [exact Hb1|]. pose proof (adv_rem _ _ Hb Ha). lia.
Qed.

Lemma safe_rest fuel g : forall acc b, binv b -> rem b < fuel -> rem b < g -> safe 0 b (deserializeRest fuel g acc b).
Proof.
  induction g as [|g IH]; intros acc b Hb Hr Hg; [lia|]. cbn [deserializeRest].
  destruct (brpos b <? bwpos b); [|apply safe_ok, Hb].
  pose proof (safe_deser fuel TNone b Hb Hr) as (S1 & S2 & S3 & S4).
  destruct (deSerializeBuf fuel TNone b) as [[v|e| |] b1]; cbn [fst snd] in *.
  - specialize (S4 v eq_refl). pose proof (adv_inv _ _ Hb S1) as Hb1.
    assert (Hrem : rem b1 < g). { destruct S1 as (X1&X2&X3&X4). unfold rem in *. rewrite X1. lia. }
    pose proof (adv_rem _ _ Hb S1).
    destruct (IH (acc ++ [v]) b1 Hb1) as (T1 & T2 & T3 & T4); [lia|exact Hrem|].
    unfold safe. split; [eapply adv_trans; eauto|]. split; [exact T2|].
    destruct S1 as (X1 & _). rewrite X1 in T3. split; [exact T3|]. intros a E. specialize (T4 a E). lia.
  - assert (A : safe (A := list value) 0 b (DErr e, b1)).
    { unfold safe, adv, advance, setRPos. cbn. repeat split; try discriminate; apply S1. }
    assert (B : safe (A := list value) 0 b (DOk acc, b1)).
    { unfold safe, adv, advance, setRPos. cbn. repeat split; try discriminate; try apply S1. intros a _. destruct S1 as (?&?&?&?). lia. }
    destruct e as [[]| |]; auto.
  - unfold safe, adv, advance, setRPos. cbn. repeat split; try discriminate; try apply S1. intros _. apply S3. reflexivity.
  - congruence.
Qed.

Lemma deserializeMulti_safe p ts : safe 0 (createBuf p BigE) (deserializeMulti p ts).
Proof.
  unfold deserializeMulti. destruct ts as [l|].
  - apply safe_each; [apply createBuf_inv|unfold rem; cbn; lia].
  - apply safe_rest; [apply createBuf_inv| |]; unfold rem; cbn; lia.
Qed.

(* ------------------------------------------------------------------ appending data does not change a success *)

Definition ext (suf : bs) (b : buffer) : buffer :=
  mkBuf (bbuf b ++ suf) (brpos b) (bwpos b + length suf) (border b).

(* if r is conclusive then r' is the same on the extended buffer *)
Definition mono {A} (suf : bs) (r r' : dres A * buffer) : Prop :=
  match r with
  | (DOk a, b) => r' = (DOk a, ext suf b)
  | (DPanic, b) => r' = (DPanic, ext suf b)
  | _ => True
  end.

Lemma mono_dbind {A B} suf b (r r' : dres A * buffer) (k k' : A -> buffer -> dres B * buffer) n :
  binv b -> safe n b r -> mono suf r r' ->
  (forall a b1, binv b1 -> adv b b1 -> brpos b + n <= brpos b1 -> mono suf (k a b1) (k' a (ext suf b1))) ->
  mono suf (dbind r k) (dbind r' k').
Proof.
  intros Hb (S1 & S2 & S3 & S4) Hm Hk. destruct r as [[a|e| |] b1]; cbn [dbind mono fst snd] in *.
  - subst r'. cbn [dbind]. apply Hk; [eapply adv_inv; eauto|exact S1|apply (S4 a eq_refl)].
  - exact I.
  - subst r'. reflexivity.
  - exact I.
Qed.

Lemma mono_dmap {A B} suf (f : A -> B) r r' : mono suf r r' -> mono suf (dmap f r) (dmap f r').
Proof. destruct r as [[a|e| |] b1]; cbn; intros; subst; auto. Qed.

Lemma ext_skip suf b n : binv b -> brpos b + n <= length (bbuf b) ->
  firstn n (skipn (brpos b) (bbuf b ++ suf)) = firstn n (skipn (brpos b) (bbuf b)).
Proof.
  intros [H1 H2] H3. rewrite skipn_app, firstn_app, skipn_length.
  replace (n - (length (bbuf b) - brpos b)) with 0 by lia. rewrite firstn_O, app_nil_r. reflexivity.
Qed.

Lemma mono_readUint suf k b : binv b -> mono suf (liftRes (readUint k b)) (liftRes (readUint k (ext suf b))).
Proof.
  intros Hb. unfold readUint, remainLt. cbn [ext bwpos brpos bbuf border].
  destruct (Nat.ltb_spec (bwpos b) (brpos b + k)) as [H|H]; [exact I|].
  destruct (Nat.ltb_spec (bwpos b + length suf) (brpos b + k)) as [H'|_]; [lia|].
  cbn [liftRes mono]. destruct Hb as [B1 B2]. rewrite ext_skip by (unfold binv; lia). reflexivity.
Qed.

Lemma mono_readByte suf b : mono suf (liftRes (readByte b)) (liftRes (readByte (ext suf b))).
Proof.
  unfold readByte. cbn [ext bbuf brpos]. destruct (nth_error (bbuf b) (brpos b)) eqn:E; [|exact I].
  rewrite nth_error_app1 by (apply nth_error_Some; congruence). rewrite E. reflexivity.
Qed.

Lemma mono_nextN suf b n : binv b -> mono suf (liftRes (nextN b n)) (liftRes (nextN (ext suf b) n)).
Proof.
  intro Hb. unfold nextN, next, remainLt. cbn [ext bwpos brpos bbuf border].
  destruct (N.ltb_spec (N.of_nat (bwpos b)) (N.of_nat (brpos b) + n)) as [H|H]; [exact I|].
  destruct (N.ltb_spec (N.of_nat (bwpos b + length suf)) (N.of_nat (brpos b) + n)) as [H1|_]; [lia|].
  destruct (Nat.ltb_spec (bwpos b) (brpos b + N.to_nat n)) as [H2|H2]; [exact I|].
  destruct (Nat.ltb_spec (bwpos b + length suf) (brpos b + N.to_nat n)) as [H3|_]; [lia|].
  cbn [liftRes mono]. destruct Hb as [B1 B2]. rewrite ext_skip by (unfold binv; lia). reflexivity.
Qed.

Lemma mono_decodeString suf b : binv b -> mono suf (decodeString b) (decodeString (ext suf b)).
Proof.
  intro H. unfold decodeString. eapply mono_dbind; [exact H|apply safe_readUint, H|apply mono_readUint, H|].
  intros a b1 Hb1 _ _. apply mono_nextN, Hb1.
Qed.

Lemma mono_strArrLoop suf g : forall g' e acc b, g <= g' -> binv b ->
  mono suf (strArrLoop g e acc b) (strArrLoop g' e acc (ext suf b)).
Proof.
  induction g as [|g IH]; intros g' e acc b Hg Hb; [exact I|]. destruct g' as [|g']; [lia|].
  cbn [strArrLoop]. cbn [ext brpos]. destruct (N.of_nat (brpos b) <? e)%N.
  - eapply mono_dbind; [exact Hb|apply safe_decodeString, Hb|apply mono_decodeString, Hb|].
    intros a b1 Hb1 _ _. apply IH; [lia|exact Hb1].
  - destruct (N.of_nat (brpos b) =? e)%N; [reflexivity|exact I].
Qed.

Lemma mono_strMapLoop suf g : forall g' e acc b, g <= g' -> binv b ->
  mono suf (strMapLoop g e acc b) (strMapLoop g' e acc (ext suf b)).
Proof.
  induction g as [|g IH]; intros g' e acc b Hg Hb; [exact I|]. destruct g' as [|g']; [lia|].
  cbn [strMapLoop]. cbn [ext brpos]. destruct (N.of_nat (brpos b) <? e)%N.
  - eapply mono_dbind; [exact Hb|apply safe_decodeString, Hb|apply mono_decodeString, Hb|].
    intros a b1 Hb1 _ _. eapply mono_dbind; [exact Hb1|apply safe_decodeString, Hb1|apply mono_decodeString, Hb1|].
    intros a2 b2 Hb2 _ _. apply IH; [lia|exact Hb2].
  - destruct (N.of_nat (brpos b) =? e)%N; [reflexivity|exact I].
Qed.

Lemma mono_arrLoop suf f dec dec' g :
  (forall b, binv b -> rem b < f -> safe 1 b (dec b) /\ mono suf (dec b) (dec' (ext suf b))) ->
  forall g' e acc b, g <= g' -> binv b -> rem b < f ->
  mono suf (arrLoop dec g e acc b) (arrLoop dec' g' e acc (ext suf b)).
Proof.
  intro Hd. induction g as [|g IH]; intros g' e acc b Hg Hb Hr; [exact I|]. destruct g' as [|g']; [lia|].
  cbn [arrLoop]. cbn [ext brpos]. destruct (N.of_nat (brpos b) <? e)%N.
  - destruct (Hd b Hb Hr) as [D1 D2]. eapply mono_dbind; [exact Hb|exact D1|exact D2|].
    intros a b1 Hb1 A _. apply IH; [lia|exact Hb1|]. pose proof (adv_rem _ _ Hb A). lia.
  - destruct (N.of_nat (brpos b) =? e)%N; [reflexivity|exact I].
Qed.

Lemma mono_mapLoop suf f dec dec' g :
  (forall b, binv b -> rem b < f -> safe 1 b (dec b) /\ mono suf (dec b) (dec' (ext suf b))) ->
  forall g' e acc b, g <= g' -> binv b -> rem b < f ->
  mono suf (mapLoop dec g e acc b) (mapLoop dec' g' e acc (ext suf b)).
Proof.
  intro Hd. induction g as [|g IH]; intros g' e acc b Hg Hb Hr; [exact I|]. destruct g' as [|g']; [lia|].
  cbn [mapLoop]. cbn [ext brpos]. destruct (N.of_nat (brpos b) <? e)%N.
  - destruct (Hd b Hb Hr) as [D1 D2]. eapply mono_dbind; [exact Hb|exact D1|exact D2|].
    intros a b1 Hb1 A _. pose proof (adv_rem _ _ Hb A) as R1.
    destruct (Hd b1 Hb1) as [D3 D4]; [lia|]. eapply mono_dbind; [exact Hb1|exact D3|exact D4|].
    intros x b2 Hb2 A2 _. pose proof (adv_rem _ _ Hb1 A2) as R2.
    destruct (hashable a); [apply IH; [lia|exact Hb2|lia]|reflexivity].
  - destruct (N.of_nat (brpos b) =? e)%N; [reflexivity|exact I].
Qed.

Lemma mono_container {A} suf (loop loop' : N -> buffer -> dres (list A) * buffer) b :
  binv b ->
  (forall e b1, binv b1 -> adv b b1 -> mono suf (loop e b1) (loop' e (ext suf b1))) ->
  mono suf (container loop b) (container loop' (ext suf b)).
Proof.
  intros Hb Hl. unfold container. eapply mono_dbind; [exact Hb|apply safe_readUint, Hb|apply mono_readUint, Hb|].
  intros n b1 Hb1 Ha _. destruct (n =? 0)%N; [reflexivity|]. cbn [ext brpos]. apply (Hl _ b1); auto.
Qed.

Lemma mono_varint suf i : forall off x b,
  mono suf (liftRes (readVarintLoop i off x b)) (liftRes (readVarintLoop i off x (ext suf b))).
Proof.
  induction i as [|i IH]; intros off x b; cbn [readVarintLoop]; [exact I|].
  pose proof (mono_readByte suf b) as M.
  destruct (readByte b) as [[c|e] b1]; cbn [liftRes mono] in *; [|exact I].
  destruct (readByte (ext suf b)) as [[c'|e'] b2]; cbn [liftRes] in M; [|discriminate].
  injection M as -> ->. destruct (negb (N.land (b2n c) 128 =? 128)%N); [reflexivity|]. apply IH.
Qed.

Lemma mono_zig64 suf b : mono suf (liftRes (readZigzag64 b)) (liftRes (readZigzag64 (ext suf b))).
Proof.
  unfold readZigzag64, readVarint. pose proof (mono_varint suf 10 0 0 b) as M.
  destruct (readVarintLoop 10 0 0 b) as [[c|e] b1]; cbn [liftRes mono] in *; [|exact I].
  destruct (readVarintLoop 10 0 0 (ext suf b)) as [[c'|e'] b2]; cbn [liftRes] in M; [|discriminate].
  injection M as -> ->. reflexivity.
Qed.
Lemma mono_zig32 suf b : mono suf (liftRes (readZigzag32 b)) (liftRes (readZigzag32 (ext suf b))).
Proof.
  unfold readZigzag32, readVarint. pose proof (mono_varint suf 10 0 0 b) as M.
  destruct (readVarintLoop 10 0 0 b) as [[c|e] b1]; cbn [liftRes mono] in *; [|exact I].
  destruct (readVarintLoop 10 0 0 (ext suf b)) as [[c'|e'] b2]; cbn [liftRes] in M; [|discriminate].
  injection M as -> ->. reflexivity.
Qed.

Lemma mono_deser suf fuel : forall fuel' t b, fuel <= fuel' -> binv b -> rem b < fuel ->
  mono suf (deSerializeBuf fuel t b) (deSerializeBuf fuel' t (ext suf b)).
Proof.
  induction fuel as [|f IH]; intros fuel' t b Hf Hb Hr; [exact I|]. destruct fuel' as [|f']; [lia|].
  cbn [deSerializeBuf].
  eapply mono_dbind; [exact Hb|apply safe_readByte, Hb|apply mono_readByte|].
  intros tp b1 Hb1 Ha Hp.
  assert (Hr1 : rem b1 < f).
  { destruct Ha as (X1 & X2 & X3 & X4). unfold rem in *. rewrite X1. lia. }
  assert (Hrem : forall b2, adv b1 b2 -> rem b2 < f).
  { intros b2 A. pose proof (adv_rem _ _ Hb1 A). lia. }
  assert (Hd : forall b, binv b -> rem b < f ->
            safe 1 b (deSerializeBuf f TNone b)
            /\ mono suf (deSerializeBuf f TNone b) (deSerializeBuf f' TNone (ext suf b))).
  { intros b2 Hb2 Hr2. split; [apply safe_deser; auto|apply IH; auto; lia]. }
  destruct (byte_eqb tp sNull); [reflexivity|].
  destruct (byte_eqb tp sString).
  { destruct (wantsBytes t); apply mono_dmap; apply (mono_decodeString suf b1 Hb1). }
  destruct (byte_eqb tp sStringMap).
  { apply mono_dmap, mono_container; [exact Hb1|]. intros e b2 Hb2 A. apply mono_strMapLoop; [lia|exact Hb2]. }
  destruct (byte_eqb tp sByteArray).
  { apply mono_dmap; apply (mono_decodeString suf b1 Hb1). }
  destruct (byte_eqb tp sStringArray).
  { apply mono_dmap, mono_container; [exact Hb1|]. intros e b2 Hb2 A. apply mono_strArrLoop; [lia|exact Hb2]. }
  destruct (byte_eqb tp sBool); [apply mono_dmap, mono_readByte|].
  destruct (byte_eqb tp sByte); [apply mono_dmap, mono_readByte|].
  destruct (byte_eqb tp sInt16); [apply mono_dmap, (mono_readUint suf 2 b1 Hb1)|].
  destruct (byte_eqb tp sInt32); [apply mono_dmap, mono_zig32|].
  destruct (byte_eqb tp sInt64); [apply mono_dmap, mono_zig64|].
  destruct (byte_eqb tp sFloat32); [apply mono_dmap, (mono_readUint suf 4 b1 Hb1)|].
  destruct (byte_eqb tp sFloat64); [apply mono_dmap, (mono_readUint suf 8 b1 Hb1)|].
  destruct (byte_eqb tp sMap).
  { apply mono_dmap, mono_container; [exact Hb1|]. intros e b2 Hb2 A. apply (mono_mapLoop suf f); auto. lia. }
  destruct (byte_eqb tp sArray).
  { apply mono_dmap, mono_container; [exact Hb1|]. intros e b2 Hb2 A. apply (mono_arrLoop suf f); auto. lia. }
  exact I.
Qed.

Lemma deserialize_extend p t suf v b' :
  p <> [] -> deserialize p t = (DOk v, b') ->
  exists b'', deserialize (p ++ suf) t = (DOk v, b'') /\ brpos b'' = brpos b'.
Proof.
  intros Hp Hd. destruct p as [|c p]; [congruence|]. unfold deserialize in *. cbn [app].
  assert (H : rem (createBuf (c :: p) BigE) < S (length (c :: p))) by (unfold rem; cbn; lia).
  assert (Hf : S (length (c :: p)) <= S (length ((c :: p) ++ suf))) by (rewrite app_length; lia).
  pose proof (mono_deser suf _ _ t _ Hf (createBuf_inv (c :: p) BigE) H) as M. rewrite Hd in M.
  cbn [mono] in M.
  replace (ext suf (createBuf (c :: p) BigE)) with (createBuf ((c :: p) ++ suf) BigE) in M
    by (unfold ext, createBuf; cbn; rewrite app_length; reflexivity).
  exists (ext suf b'). split; [exact M|reflexivity].
Qed.

Lemma truncated_fails v t p q :
  good v -> supported v = true -> fits v -> wire v = p ++ q -> p <> [] -> q <> [] ->
  exists e, fst (deserialize p t) = DErr e.
Proof.
  intros Hg Hs Hf Hw Hp Hq.
  destruct (roundtrip v t [] Hg Hs Hf) as (_ & b1 & E1 & E2). rewrite app_nil_r, Hw in E1.
  pose proof (deserialize_safe p t) as (S1 & S2 & S3 & S4).
  destruct (deserialize p t) as [[w|e| |] b'] eqn:E; cbn [fst snd] in *.
  - exfalso. destruct (deserialize_extend p t q w b' Hp E) as (b'' & F1 & F2).
    rewrite F1 in E1. injection E1 as _ <-.
    destruct S1 as (X1 & X2 & X3 & X4). cbn in X4. rewrite Hw, app_length in E2.
    destruct q; [congruence|cbn in *; lia].
  - exists e. reflexivity.
  - exfalso. destruct p as [|c p]; [congruence|]. unfold deserialize in E, E1. cbn [app] in E1.
    assert (H : rem (createBuf (c :: p) BigE) < S (length (c :: p))) by (unfold rem; cbn; lia).
    assert (Hfl : S (length (c :: p)) <= S (length (c :: p ++ q))) by (cbn; rewrite app_length; lia).
    pose proof (mono_deser q _ _ t _ Hfl (createBuf_inv (c :: p) BigE) H) as M. rewrite E in M.
    cbn [mono] in M.
    replace (ext q (createBuf (c :: p) BigE)) with (createBuf (c :: p ++ q) BigE) in M
      by (unfold ext, createBuf; cbn; rewrite app_length; reflexivity).
    rewrite M in E1. discriminate.
  - congruence.
Qed.

Lemma safe_bytes p t :
  let r := deserialize p t in
  (exists v, fst r = DOk v) \/ (exists e, fst r = DErr e) \/ (fst r = DPanic /\ In x14 p).
Proof.
  cbn zeta. pose proof (deserialize_safe p t) as (S1 & S2 & S3 & S4).
  destruct (deserialize p t) as [[v|e| |] b']; cbn [fst] in *; eauto; try congruence.
Qed.

(* ------------------------------------------------------------ repeated keys: the last one wins *)

Definition putAll (acc : list (value * value)) (l : list (value * value)) : list (value * value) :=
  fold_left (fun a p => mapPut a (fst p) (snd p)) l acc.

Lemma mapLoop_any f m : Forall (fun kx => dec_ok (fst kx) /\ dec_ok (snd kx)) m -> forall g acc pre rest endPos,
  length m < g ->
  Forall (fun kx => hashable (fst kx) = true /\ good (fst kx) /\ good (snd kx)) m ->
  forallb sup_pair m = true ->
  length (concat (map wpair m)) < f ->
  (N.of_nat (length (concat (map wpair m))) < 2 ^ 32)%N ->
  endPos = N.of_nat (length pre + length (concat (map wpair m))) ->
  mapLoop (deSerializeBuf f TNone) g endPos acc (atPos pre (concat (map wpair m) ++ rest) BigE)
  = (DOk (putAll acc (map decPair m)), atPos (pre ++ concat (map wpair m)) rest BigE).
Proof.
  induction 1 as [|[k x] m [Hk Hx] Hm IH]; intros g acc pre rest endPos Hg Hgood Hsup Hf Hl He;
    (destruct g as [|g]; [cbn [length] in Hg; lia|]);
    cbn [map concat mapLoop app forallb] in *; rewrite atPos_rpos.
  - destruct (N.ltb_spec (N.of_nat (length pre)) endPos) as [H|_]; [cbn [length] in He; lia|].
    destruct (N.eqb_spec (N.of_nat (length pre)) endPos) as [_|H]; [|cbn [length] in He; lia].
    rewrite !app_nil_r. reflexivity.
  - change (wpair (k, x)) with (wire k ++ wire x) in *.
    unfold sup_pair at 1 in Hsup. cbn [fst snd] in *.
    rewrite !app_length in *. pose proof (wire_pos x) as Hp. pose proof (wire_pos k) as Hp2.
    destruct (N.ltb_spec (N.of_nat (length pre)) endPos) as [_|H]; [|lia].
    inversion Hgood as [|? ? (G0 & G1 & G2) G3]; subst. cbn [fst snd] in *.
    apply andb_true_iff in Hsup as [S1 S2]. apply andb_true_iff in S1 as [S1 S3].
    apply andb_true_iff in S1 as [S0 S1].
    rewrite <- !app_assoc, Hk; [|exact G1|apply supIn_sup, S0|unfold fits; lia|lia].
    cbn [dbind]. rewrite Hx; [|exact G2|apply supIn_sup, S3|unfold fits; lia|lia].
    cbn [dbind]. rewrite !asDecodedFor_none, hashable_dec, G0.
    rewrite IH; auto; try lia.
    + rewrite <- !app_assoc. reflexivity.
    + cbn [length] in Hg. lia.
    + rewrite !app_length. f_equal. lia.
Qed.

Lemma decode_map_any m : Forall (fun kx => hashable (fst kx) = true /\ good (fst kx) /\ good (snd kx)) m ->
  forallb sup_pair m = true -> (N.of_nat (length (wire (VMap m))) < 2 ^ 32)%N ->
  fst (deserialize (wire (VMap m)) TNone) = DOk (VMap (putAll [] (map decPair m))).
Proof.
  intros Hg Hs Hf. unfold deserialize.
  assert (Hlen : exists f', length (wire (VMap m)) < S f' /\ S (length (wire (VMap m))) = S f') by (eexists; split; [|reflexivity]; lia).
  match goal with |- context [deSerializeBuf ?F] => replace F with (S (length (wire (VMap m)))) by (cbn; lia) end.
  match goal with |- context [deSerializeBuf _ _ ?b] => replace b with (atPos [] (wire (VMap m) ++ []) BigE) end.
  2:{ rewrite app_nil_r. reflexivity. }
  remember (length (wire (VMap m))) as L eqn:EL.
  cbn [wire] in EL, Hf |- *. change (concat (map _ m)) with (concat (map wpair m)) in *.
  cbn [deSerializeBuf app]. rewrite readByte_cons. cbn [liftRes dbind].
  match goal with |- context [if byte_eqb x14 sNull then _ else ?X] => change (if byte_eqb x14 sNull then _ else X) with (dmap VMap (container (fun e => mapLoop (deSerializeBuf L TNone) L e []) (atPos ([] ++ [x14]) (lenPrefixed (concat (map wpair m)) ++ []) BigE))) end.
  assert (Hpos : forall kx, 0 < length (wpair kx)).
  { intro kx. unfold wpair. rewrite app_length. pose proof (wire_pos (fst kx)). lia. }
  cbn [length] in EL, Hf. rewrite lenPrefixed_length in EL. 
  rewrite (container_app _ _ _ _ (putAll [] (map decPair m))).
  - reflexivity.
  - lia.
  - intro E. apply concat_nil_inv in E; [subst m; reflexivity|exact Hpos].
  - intros _. pose proof (length_concat_ge wpair m Hpos) as Lg. rewrite (mapLoop_any L m).
    + rewrite lp_assoc. reflexivity.
    + apply Forall_forall. intros kx _. split; apply good_supp_dec.
    + lia.
    + exact Hg.
    + exact Hs.
    + lia.
    + lia.
    + reflexivity.
Qed.

Lemma mapPut_str m k v : mapPut (str_keys m) (VStr k) v = str_keys (aset bs_eqb m k v).
Proof.
  induction m as [|[k' v'] m IH]; [reflexivity|].
  cbn [str_keys map mapPut aset fst snd key_eqb]. rewrite (bs_eqb_sym k k'). destruct (bs_eqb k' k) eqn:E.
  - apply bs_eqb_spec in E. subst k'. reflexivity.
  - cbn [map fst snd]. f_equal. exact IH.
Qed.

Lemma putAll_str l acc :
  putAll (str_keys acc) (map decPair (str_keys l)) =
  str_keys (fold_left (fun a p => aset bs_eqb a (fst p) (asDecoded (snd p))) l acc).
Proof.
  revert acc. induction l as [|[k v] l IH]; intro acc; [reflexivity|].
  cbn [str_keys map putAll fold_left fst snd decPair]. change (asDecoded (VStr k)) with (VStr k).
  rewrite mapPut_str. apply IH.
Qed.

Lemma fold_aset_get {A B} (g : A -> B) l acc k :
  aget bs_eqb (fold_left (fun a p => aset bs_eqb a (fst p) (g (snd p))) l acc) k =
  match last_value l k with Some x => Some (g x) | None => aget bs_eqb acc k end.
Proof.
  revert acc. induction l as [|[k' v] l IH]; intro acc; [reflexivity|].
  cbn [fold_left fst snd]. rewrite IH. unfold last_value. cbn [rev]. 
  assert (F : forall (a b : list (bs * A)), find (fun p => bs_eqb (fst p) k) (a ++ b) = match find (fun p => bs_eqb (fst p) k) a with Some p => Some p | None => find (fun p => bs_eqb (fst p) k) b end).
  { induction a as [|p a IHa]; intro b; [reflexivity|]. cbn [app find]. destruct (bs_eqb (fst p) k); [reflexivity|apply IHa]. }
  rewrite F. destruct (find _ (rev l)) as [p|]; [reflexivity|]. cbn [find fst snd].
  rewrite (aget_aset bs_eqb bs_eqb_spec). destruct (bs_eqb k' k) eqn:E.
  - apply bs_eqb_spec in E. subst. rewrite bs_eqb_refl. reflexivity.
  - assert (bs_eqb k k' = false) as ->; [|reflexivity]. apply bs_eqb_neq. intro H. subst. rewrite bs_eqb_refl in E. discriminate.
Qed.

Lemma fold_aset_nodup {A B} (g : A -> B) l acc : NoDup (akeys acc) ->
  NoDup (akeys (fold_left (fun a p => aset bs_eqb a (fst p) (g (snd p))) l acc)).
Proof.
  revert acc. induction l as [|[k' v] l IH]; intros acc H; [exact H|]. cbn [fold_left]. apply IH. apply (NoDup_aset bs_eqb bs_eqb_spec), H.
Qed.

Lemma repeated_keys m :
  Forall (fun p => good (snd p)) m -> forallb (fun p => supportedIn (snd p)) m = true -> fits (VMap (str_keys m)) ->
  exists d, fst (deserialize (wire (VMap (str_keys m))) TNone) = DOk (VMap (str_keys d)) /\ NoDup (map fst d) /\
    forall k, aget bs_eqb d k = match last_value m k with Some x => Some (asDecoded x) | None => None end.
Proof.
  intros Hg Hs Hf. eexists. split; [rewrite decode_map_any|].
  - change (@nil (value * value)) with (str_keys []). rewrite (putAll_str m []). reflexivity.
  - unfold str_keys. rewrite Forall_map. eapply Forall_impl; [|exact Hg]. intros [k v] H. cbn. auto.
  - rewrite forallb_forall in *. intros p Hin. unfold str_keys in Hin. apply in_map_iff in Hin as ([k v] & <- & Hin).
    specialize (Hs _ Hin). unfold sup_pair. cbn [fst snd supportedIn key_eqb] in *. rewrite bs_eqb_refl, Hs. reflexivity.
  - exact Hf.
  - split; [apply (fold_aset_nodup asDecoded); constructor|]. intro k. rewrite (fold_aset_get asDecoded). reflexivity.
Qed.

(* ------------------------------------------------------------ NaN and equality of keys *)
Lemma land_field x k w : N.land x (N.shiftl (N.ones w) k) = N.shiftl ((x / 2 ^ k) mod 2 ^ w) k.
Proof.
  rewrite <- N.land_ones, <- N.shiftr_div_pow2. apply N.bits_inj. intro n. rewrite N.land_spec. destruct (N.ltb_spec n k) as [H|H].
  - rewrite !N.shiftl_spec_low by exact H. apply andb_false_r.
  - rewrite !N.shiftl_spec_high' by exact H. rewrite N.land_spec, N.shiftr_spec'. f_equal. f_equal. lia.
Qed.
Lemma field_full x k w : (N.land x (N.shiftl (N.ones w) k) = N.shiftl (N.ones w) k)%N <-> ((x / 2 ^ k) mod 2 ^ w = 2 ^ w - 1)%N.
Proof.
  rewrite land_field. rewrite N.ones_equiv. rewrite <- N.sub_1_r.
  rewrite !N.shiftl_mul_pow2. assert (P : (2 ^ k <> 0)%N) by (apply N.pow_nonzero; discriminate). split; [intro H; apply N.mul_cancel_r in H; assumption|intros ->; reflexivity].
Qed.
Lemma isNaN32_spec x : isNaN32 x = true <-> nan32 x.
Proof.
  unfold isNaN32, nan32. rewrite andb_true_iff, negb_true_iff, N.eqb_eq, N.eqb_neq. change 2139095040%N with (N.shiftl (N.ones 8) 23) at 1 2.
  change 8388607%N with (N.ones 23). rewrite N.land_ones, field_full. reflexivity.
Qed.
Lemma isNaN64_spec x : isNaN64 x = true <-> nan64 x.
Proof.
  unfold isNaN64, nan64. rewrite andb_true_iff, negb_true_iff, N.eqb_eq, N.eqb_neq. change 9218868437227405312%N with (N.shiftl (N.ones 11) 52) at 1 2.
  change 4503599627370495%N with (N.ones 52). rewrite N.land_ones, field_full. reflexivity.
Qed.
Lemma isZero32_spec x : isZero32 x = true <-> (x mod 2 ^ 31 = 0)%N.
Proof. unfold isZero32. change 2147483647%N with (N.ones 31). rewrite N.land_ones. apply N.eqb_eq. Qed.
Lemma isZero64_spec x : isZero64 x = true <-> (x mod 2 ^ 63 = 0)%N.
Proof. unfold isZero64. change 9223372036854775807%N with (N.ones 63). rewrite N.land_ones. apply N.eqb_eq. Qed.
Lemma negb_iff b P : (b = true <-> P) -> (negb b = true <-> ~ P).
Proof. intros H. rewrite <- H. destruct b; cbn; intuition congruence. Qed.
Lemma key_eqb_spec a b : key_eqb a b = true <-> same_key a b.
Proof.
  destruct a, b; cbn [key_eqb same_key]; try (split; [discriminate|contradiction]); try tauto.
  - rewrite bs_eqb_spec. split; congruence.
  - rewrite Bool.eqb_true_iff. split; congruence.
  - rewrite byte_eqb_spec. split; congruence.
  - rewrite Z.eqb_eq. split; congruence.
  - rewrite Z.eqb_eq. split; congruence.
  - rewrite Z.eqb_eq. split; congruence.
  - rewrite Z.eqb_eq. split; congruence.
  - rewrite !andb_true_iff, orb_true_iff, andb_true_iff, N.eqb_eq, !isZero32_spec, !(negb_iff _ _ (isNaN32_spec _)). tauto.
  - rewrite !andb_true_iff, orb_true_iff, andb_true_iff, N.eqb_eq, !isZero64_spec, !(negb_iff _ _ (isNaN64_spec _)). tauto.
Qed.
Lemma quiet32_spec x : (~ nan32 x -> quiet32 x = x) /\ (nan32 x -> quiet32 x = N.setbit x 22).
Proof.
  unfold quiet32. split; intro H.
  - destruct (isNaN32 x) eqn:E; [|reflexivity]. destruct (H (proj1 (isNaN32_spec x) E)).
  - apply isNaN32_spec in H. rewrite H, N.setbit_spec'. reflexivity.
Qed.
