(* MetaProofs.v: proofs for C79. *)
From Verif Require Import Base Lists GoStrings GoStrings2 HolderProofs MetaModel MetaSpec.
Ltac Zify.zify_post_hook ::= idtac.
Open Scope Z_scope.

Lemma prefix_var prefix k v : ~ In x3d prefix -> hasPrefix (k ++ s2b "=" ++ v) prefix = hasPrefix k prefix.
Proof.
  revert k. induction prefix as [|p prefix IH]; intros k N; [destruct k; reflexivity|]. destruct k as [|x k].
  - change (s2b "=") with [x3d]. cbn [app hasPrefix]. destruct (byte_eqb x3d p) eqn:E; [|reflexivity]. apply byte_eqb_spec in E. subst. destruct N. left. reflexivity.
  - cbn [app hasPrefix]. rewrite IH; [reflexivity|]. intro H. apply N. right. exact H.
Qed.
Lemma envOne_var prefix m kv : ~ In x3d prefix -> plainVar kv -> envOne prefix m (var kv) = if hasPrefix (fst kv) prefix then aset bs_eqb m (fst kv) (snd kv) else m.
Proof.
  intros N (A & B). unfold envOne, var. rewrite prefix_var by exact N. destruct (hasPrefix _ _); [|reflexivity]. change (s2b "=") with [x3d]. rewrite splitStr_one.
  cbn [app]. rewrite splitOn_app by exact A. rewrite splitOn_none by exact B. reflexivity.
Qed.
Lemma env_fold prefix kvs : ~ In x3d prefix -> forall m k, (forall kv, In kv kvs -> plainVar kv) -> NoDup (map fst kvs) ->
  aget bs_eqb (fold_left (envOne prefix) (map var kvs) m) k = (if hasPrefix k prefix then orElse (aget bs_eqb kvs k) (aget bs_eqb m k) else aget bs_eqb m k).
Proof.
  intros N. induction kvs as [|(k0, v0) kvs IH]; intros m k P D; [cbn; destruct (hasPrefix _ _); reflexivity|]. cbn [map fold_left]. inversion D as [|? ? D1 D2]; subst.
  rewrite IH; [|intros kv H; apply P; right; exact H|exact D2]. rewrite (envOne_var prefix m (k0, v0) N) by (apply P; left; reflexivity). cbn [fst snd]. cbn [aget].
  destruct (hasPrefix k prefix) eqn:Hk.
  - destruct (bs_eqb k k0) eqn:E.
    + apply bs_eqb_spec in E. subst k0. rewrite Hk. rewrite (aget_aset bs_eqb bs_eqb_spec), bs_eqb_refl.
      destruct (aget bs_eqb kvs k) as [w|] eqn:G; [|reflexivity]. apply (aget_In bs_eqb bs_eqb_spec) in G. apply (in_map fst) in G. contradiction.
    + destruct (hasPrefix k0 prefix); [|reflexivity]. rewrite (aget_aset bs_eqb bs_eqb_spec), E. reflexivity.
  - destruct (hasPrefix k0 prefix) eqn:H0; [|reflexivity]. rewrite (aget_aset bs_eqb bs_eqb_spec). destruct (bs_eqb k k0) eqn:E; [|reflexivity].
    apply bs_eqb_spec in E. congruence.
Qed.
Lemma dyn_fold os : forall m k, aget bs_eqb (fold_left dynStep os m) k = lastChange k os (aget bs_eqb m k).
Proof.
  induction os as [|o os IH]; intros m k; [reflexivity|]. cbn [fold_left]. rewrite IH. destruct o as [k' v|k']; cbn [dynStep lastChange]; f_equal.
  - rewrite (aget_aset bs_eqb bs_eqb_spec), bs_eqb_sym. reflexivity.
  - rewrite (aget_adel bs_eqb bs_eqb_spec), bs_eqb_sym. reflexivity.
Qed.
Lemma putAll_get src : forall dst k, NoDup (map fst src) -> aget bs_eqb (putAll src dst) k = orElse (aget bs_eqb src k) (aget bs_eqb dst k).
Proof.
  unfold putAll. induction src as [|(k0, v0) src IH]; intros dst k D; [reflexivity|]. cbn [fold_left]. inversion D as [|? ? D1 D2]; subst. rewrite IH by exact D2. cbn [fst snd aget].
  rewrite (aget_aset bs_eqb bs_eqb_spec). destruct (bs_eqb k k0) eqn:E; [|reflexivity]. apply bs_eqb_spec in E. subst k0.
  destruct (aget bs_eqb src k) as [w|] eqn:G; [|reflexivity]. apply (aget_In bs_eqb bs_eqb_spec) in G. apply (in_map fst) in G. contradiction.
Qed.
Lemma nodup_fold {A} (f : meta -> A -> meta) l : (forall m x, NoDup (map fst m) -> NoDup (map fst (f m x))) -> forall m, NoDup (map fst m) -> NoDup (map fst (fold_left f l m)).
Proof. intro H. induction l as [|x l IH]; intros m D; [exact D|]. cbn. apply IH, H, D. Qed.
Lemma dyn_nodup os : NoDup (map fst (dynMeta os)).
Proof.
  apply nodup_fold; [|constructor]. intros m o D. destruct o; cbn [dynStep]; [apply NoDup_aset; [exact bs_eqb_spec|exact D]|apply NoDup_adel; exact D].
Qed.
Lemma env_nodup prefix envs : NoDup (map fst (envMeta prefix envs)).
Proof.
  apply nodup_fold; [|constructor]. intros m e D. unfold envOne. destruct (hasPrefix _ _); [|exact D]. destruct (splitStr _ _) as [|a [|b r]]; try exact D.
  apply NoDup_aset; [exact bs_eqb_spec|exact D].
Qed.
Lemma static_get prefix (params : meta) k : NoDup (map fst params) -> forall m : meta,
  aget bs_eqb (fold_left (fun (m : meta) (kv : bs * bs) => if hasPrefix (fst kv) defaultPrefix || hasPrefix (fst kv) prefix then aset bs_eqb m (fst kv) (snd kv) else m) params m) k =
  if hasPrefix k defaultPrefix || hasPrefix k prefix then orElse (aget bs_eqb params k) (aget bs_eqb m k) else aget bs_eqb m k.
Proof.
  induction params as [|(k0, v0) r IH]; intros D m; [cbn; destruct (_ || _); reflexivity|]. cbn [fold_left fst snd]. inversion D as [|? ? D1 D2]; subst. rewrite IH by exact D2. cbn [aget].
  destruct (bs_eqb k k0) eqn:E.
  - apply bs_eqb_spec in E. subst k0. destruct (hasPrefix k defaultPrefix || hasPrefix k prefix); [|reflexivity]. rewrite (aget_aset bs_eqb bs_eqb_spec), bs_eqb_refl.
    destruct (aget bs_eqb r k) as [w|] eqn:G; [|reflexivity]. apply (aget_In bs_eqb bs_eqb_spec) in G. apply (in_map fst) in G. contradiction.
  - assert (X : aget bs_eqb (if hasPrefix k0 defaultPrefix || hasPrefix k0 prefix then aset bs_eqb m k0 v0 else m) k = aget bs_eqb m k).
    { destruct (hasPrefix k0 defaultPrefix || hasPrefix k0 prefix); [|reflexivity]. rewrite (aget_aset bs_eqb bs_eqb_spec), E. reflexivity. }
    destruct (hasPrefix k defaultPrefix || hasPrefix k prefix); [f_equal|]; exact X.
Qed.

(* the cache *)
Record kinv (age : Z) (s : mst) : Prop := mkKinv {
  c_cache : forall k m x, aget bs_eqb (mCache s) k = Some (m, x) -> exists u, x = u + age /\ u <= mNow s /\ In (VSet k m u) (mLog s);
  c_set : forall k m u, In (VSet k m u) (mLog s) -> exists u', u' <= u /\ In (VAns k m u') (mLog s);
  c_pset : forall t a m, nth_error (mAsks s) t = Some a -> kPc a = PSet m -> exists u, u <= mNow s /\ In (VAns (eKey (kEp a)) m u) (mLog s);
  c_done : forall t a m, nth_error (mAsks s) t = Some a -> kPc a = PDone (OMeta m) -> exists u, u <= mNow s /\ In (VAns (eKey (kEp a)) m u) (mLog s);
  c_sup : forall t a, nth_error (mAsks s) t = Some a -> kPc a = PCall \/ kPc a = PWait -> supports (kEp a) = true;
  c_call : forall e u, In (VCall e u) (mLog s) -> supports e = true }.
Arguments c_cache {age s}. Arguments c_set {age s}. Arguments c_pset {age s}. Arguments c_done {age s}. Arguments c_sup {age s}. Arguments c_call {age s}.
Lemma kinv_init age : kinv age minit.
Proof. constructor; cbn; intros; try discriminate; try contradiction; destruct t; discriminate. Qed.
(* a step of one ask: the log grows, the cache may get one entry *)
Lemma kinv_step age s now cache no t a p evs : kinv age s -> mNow s <= now -> nth_error (mAsks s) t = Some a ->
  (forall k m x, aget bs_eqb cache k = Some (m, x) -> aget bs_eqb (mCache s) k = Some (m, x) \/ (k = eKey (kEp a) /\ x = now + age /\ In (VSet k m now) evs)) ->
  (forall k m u, In (VSet k m u) evs -> k = eKey (kEp a) /\ u = now /\ kPc a = PSet m) ->
  (forall m, p = PSet m -> In (VAns (eKey (kEp a)) m now) evs) ->
  (forall m, p = PDone (OMeta m) -> kPc a = PSet m) ->
  (p = PCall \/ p = PWait -> supports (kEp a) = true) ->
  (forall e u, In (VCall e u) evs -> e = kEp a /\ (kPc a = PCall \/ kPc a = PWait)) ->
  kinv age (mkMst now cache no (list_set (mAsks s) t (mkMask (kEp a) p)) (evs ++ mLog s)).
Proof.
  intros I T A C1 C2 C3 C4 C5 C6. constructor; cbn [mCache mNow mLog mAsks].
  - intros k m x H. destruct (C1 _ _ _ H) as [H'|(-> & -> & E)].
    + destruct (c_cache I _ _ _ H') as (u & U & V & W). exists u. split; [exact U|]. split; [lia|]. apply in_app_iff. right. exact W.
    + exists now. split; [reflexivity|]. split; [lia|]. apply in_app_iff. left. exact E.
  - intros k m u H. apply in_app_iff in H. destruct H as [H|H].
    + destruct (C2 _ _ _ H) as (-> & -> & P). destruct (c_pset I _ _ _ A P) as (u & U & V). exists u. split; [lia|]. apply in_app_iff. right. exact V.
    + destruct (c_set I _ _ _ H) as (u' & U & V). exists u'. split; [exact U|]. apply in_app_iff. right. exact V.
  - intros j b m B P. rewrite (upd _ _ A) in B. destruct (Nat.eqb j t).
    + injection B as <-. cbn [kPc kEp] in *. exists now. split; [lia|]. apply in_app_iff. left. apply C3, P.
    + destruct (c_pset I _ _ _ B P) as (u & U & V). exists u. split; [lia|]. apply in_app_iff. right. exact V.
  - intros j b m B P. rewrite (upd _ _ A) in B. destruct (Nat.eqb j t).
    + injection B as <-. cbn [kPc kEp] in *. destruct (c_pset I _ _ _ A (C4 _ P)) as (u & U & V). exists u. split; [lia|]. apply in_app_iff. right. exact V.
    + destruct (c_done I _ _ _ B P) as (u & U & V). exists u. split; [lia|]. apply in_app_iff. right. exact V.
  - intros j b B P. rewrite (upd _ _ A) in B. destruct (Nat.eqb j t); [|apply (c_sup I _ _ B P)]. injection B as <-. apply C5, P.
  - intros e u H. apply in_app_iff in H. destruct H as [H|H]; [|apply (c_call I _ _ H)]. destruct (C6 _ _ H) as (-> & P). apply (c_sup I _ _ A P).
Qed.
Lemma kstep_inv age s o s' : kstep age s o = Some s' -> kinv age s -> kinv age s'.
Proof.
  unfold kstep. intros H I. destruct (Z.ltb_spec (kNow o) (mNow s)) as [|T]; [discriminate H|]. destruct o as [e now|t now|t av now|t r now|t now|now]; cbn [kNow] in T; cbn [kstep1] in H.
  - injection H as <-. constructor; cbn [mCache mNow mLog mAsks]; try apply I.
    + intros k m x H. destruct (c_cache I _ _ _ H) as (u & U & V & W). exists u. split; [exact U|]. split; [lia|exact W].
    + intros t a m A P. destruct (app_new _ _ _ _ A) as [A'|(-> & ->)].
      * destruct (c_pset I _ _ _ A' P) as (u & U & V). exists u. split; [lia|exact V].
      * cbn [kPc] in P. destruct (aget _ _ _) as [(m0, x)|]; [destruct (fresh now x)|]; discriminate P.
    + intros t a m A P. destruct (app_new _ _ _ _ A) as [A'|(-> & ->)].
      * destruct (c_done I _ _ _ A' P) as (u & U & V). exists u. split; [lia|exact V].
      * cbn [kPc kEp] in *. destruct (aget bs_eqb (mCache s) (eKey e)) as [(m0, x)|] eqn:G; [destruct (fresh now x)|]; try discriminate P. injection P as ->.
        destruct (c_cache I _ _ _ G) as (u & U & V & W). destruct (c_set I _ _ _ W) as (u' & U' & V'). exists u'. split; [lia|exact V'].
    + intros t a A P. destruct (app_new _ _ _ _ A) as [A'|(-> & ->)]; [apply (c_sup I _ _ A' P)|]. cbn [kPc] in P.
      destruct (aget _ _ _) as [(m0, x)|]; [destruct (fresh now x)|]; destruct P as [P|P]; discriminate P.
  - destruct (nth_error (mAsks s) t) as [a|] eqn:A; [|discriminate H]. destruct (kPc a) eqn:P; try discriminate H.
    destruct (match aget bs_eqb (mNot s) (eKey (kEp a)) with Some exp => fresh now exp | None => false end).
    + injection H as <-. apply (kinv_step age s now (mCache s) (mNot s) t a (PDone ONot) [] I T A); try tauto; try (intros; discriminate); try (intros; contradiction).
      intros [X|X]; discriminate X.
    + destruct (supports (kEp a)) eqn:Su; injection H as <-.
      * apply (kinv_step age s now (mCache s) (mNot s) t a PCall [] I T A); try tauto; try (intros; discriminate); try (intros; contradiction).
      * apply (kinv_step age s now (mCache s) (aset bs_eqb (mNot s) (eKey (kEp a)) (now + notAge)) t a (PDone ONot) [VNot (eKey (kEp a)) now] I T A); try tauto; try (intros; discriminate); try (intros; contradiction).
        -- intros k m u [X|[]]. discriminate X.
        -- intros [X|X]; discriminate X.
        -- intros e u [X|[]]. discriminate X.
  - destruct (nth_error (mAsks s) t) as [a|] eqn:A; [|discriminate H]. destruct (kPc a) eqn:P; try discriminate H. destruct av; injection H as <-.
    + apply (kinv_step age s now (mCache s) (mNot s) t a PWait [VCall (kEp a) now] I T A); try tauto; try (intros; discriminate); try (intros; contradiction).
      * intros k m u [X|[]]. discriminate X.
      * intros _. apply (c_sup I _ _ A). tauto.
      * intros e u [X|[]]. injection X as <- <-. tauto.
    + apply (kinv_step age s now (mCache s) (mNot s) t a (PDone OErr) [] I T A); try tauto; try (intros; discriminate); try (intros; contradiction).
      intros [X|X]; discriminate X.
  - destruct (nth_error (mAsks s) t) as [a|] eqn:A; [|discriminate H]. destruct (kPc a) eqn:P; try discriminate H. destruct r as [| |m]; injection H as <-.
    + apply (kinv_step age s now (mCache s) (aset bs_eqb (mNot s) (eKey (kEp a)) (now + notAge)) t a (PDone ONot) [VNot (eKey (kEp a)) now] I T A); try tauto; try (intros; discriminate); try (intros; contradiction).
      * intros k m u [X|[]]. discriminate X.
      * intros [X|X]; discriminate X.
      * intros e u [X|[]]. discriminate X.
    + apply (kinv_step age s now (mCache s) (mNot s) t a (PDone OErr) [] I T A); try tauto; try (intros; discriminate); try (intros; contradiction).
      intros [X|X]; discriminate X.
    + apply (kinv_step age s now (mCache s) (mNot s) t a (PSet m) [VAns (eKey (kEp a)) m now] I T A); try tauto; try (intros; discriminate); try (intros; contradiction).
      * intros k m' u [X|[]]. discriminate X.
      * intros m' X. injection X as <-. left. reflexivity.
      * intros [X|X]; discriminate X.
      * intros e u [X|[]]. discriminate X.
  - destruct (nth_error (mAsks s) t) as [a|] eqn:A; [|discriminate H]. destruct (kPc a) as [| | |m|] eqn:P; try discriminate H. injection H as <-.
    apply (kinv_step age s now (aset bs_eqb (mCache s) (eKey (kEp a)) (m, now + age)) (mNot s) t a (PDone (OMeta m)) [VSet (eKey (kEp a)) m now] I T A); try (intros; discriminate).
    + intros k m' x X. rewrite (aget_aset bs_eqb bs_eqb_spec) in X. destruct (bs_eqb k (eKey (kEp a))) eqn:E; [|left; exact X]. apply bs_eqb_spec in E. subst k. injection X as <- <-.
      right. split; [reflexivity|]. split; [reflexivity|left; reflexivity].
    + intros k m' u [X|[]]. injection X as <- <- <-. tauto.
    + intros m' X. injection X as <-. exact P.
    + intros [X|X]; discriminate X.
    + intros e u [X|[]]. discriminate X.
  - injection H as <-. constructor; cbn [mCache mNow mLog mAsks]; try apply I.
    + intros k m x X. discriminate X.
    + intros t a m A P. destruct (c_pset I _ _ _ A P) as (u & U & V). exists u. split; [lia|exact V].
    + intros t a m A P. destruct (c_done I _ _ _ A P) as (u & U & V). exists u. split; [lia|exact V].
Qed.
Lemma kruns_inv age os : forall s s', kruns age s os = Some s' -> kinv age s -> kinv age s'.
Proof.
  induction os as [|o os IH]; intros s s' H I; cbn [kruns] in H; [injection H as <-; exact I|].
  destruct (kstep age s o) as [s1|] eqn:E; [|discriminate H]. apply (IH s1 s' H). apply (kstep_inv _ _ _ _ E I).
Qed.
Lemma from_cache age os s e now s' m : kruns age minit os = Some s -> kstep age s (KAsk e now) = Some s' -> ended s' (length (mAsks s)) e (OMeta m) ->
  exists u u', u' <= u /\ now <= u + age /\ In (VSet (eKey e) m u) (mLog s) /\ In (VAns (eKey e) m u') (mLog s).
Proof.
  intros R H E. pose proof (kruns_inv _ _ _ _ R (kinv_init age)) as I. unfold kstep in H. destruct (_ <? _); [discriminate H|]. cbn [kstep1] in H. injection H as <-.
  unfold ended in E. cbn [mAsks] in E. rewrite nth_error_app2, Nat.sub_diag in E by lia. cbn in E. injection E as E.
  destruct (aget bs_eqb (mCache s) (eKey e)) as [(m0, x)|] eqn:G; [destruct (fresh now x) eqn:F|]; try discriminate E. injection E as ->.
  destruct (c_cache I _ _ _ G) as (u & U & V & W). destruct (c_set I _ _ _ W) as (u' & U' & V'). exists u, u'. split; [exact U'|]. split; [|tauto].
  unfold fresh in F. apply negb_true_iff, Z.ltb_ge in F. lia.
Qed.
(* addresses known not to have a meta service *)
Definition marked (s : mst) : Prop := forall k u, In (VNot k u) (mLog s) -> exists x, aget bs_eqb (mNot s) k = Some x /\ u + notAge <= x.
Lemma marked_set s k now no : (forall k' u, In (VNot k' u) (mLog s) -> u <= now) -> marked s -> no = aset bs_eqb (mNot s) k (now + notAge) ->
  forall k' u, (VNot k now = VNot k' u \/ In (VNot k' u) (mLog s)) -> exists x, aget bs_eqb no k' = Some x /\ u + notAge <= x.
Proof.
  intros L M -> k' u [X|X].
  - injection X as <- <-. rewrite (aget_aset bs_eqb bs_eqb_spec), bs_eqb_refl. exists (now + notAge). split; [reflexivity|lia].
  - rewrite (aget_aset bs_eqb bs_eqb_spec). destruct (bs_eqb k' k); [exists (now + notAge); split; [reflexivity|]; specialize (L _ _ X); lia|apply M, X].
Qed.
Lemma marked_step age s o s' : kstep age s o = Some s' -> (forall n, o <> KClear n) ->
  (marked s /\ forall k u, In (VNot k u) (mLog s) -> u <= mNow s) -> (marked s' /\ forall k u, In (VNot k u) (mLog s') -> u <= mNow s').
Proof.
  unfold kstep. intros H NC (M & L). destruct (Z.ltb_spec (kNow o) (mNow s)) as [|T]; [discriminate H|].
  assert (Keep : forall now c asks, mNow s <= now -> marked (mkMst now c (mNot s) asks (mLog s)) /\ forall k u, In (VNot k u) (mLog s) -> u <= now).
  { intros now c asks Tn. split; [exact M|]. intros k u X. specialize (L _ _ X). lia. }
  assert (Keep1 : forall now c asks ev, mNow s <= now -> (forall k u, ev <> VNot k u) -> marked (mkMst now c (mNot s) asks (ev :: mLog s)) /\ forall k u, In (VNot k u) (ev :: mLog s) -> u <= now).
  { intros now c asks ev Tn N. split.
    - intros k u [X|X]; [destruct (N _ _ X)|apply M, X].
    - intros k u [X|X]; [destruct (N _ _ X)|]. specialize (L _ _ X). lia. }
  assert (Mark : forall now c asks k, mNow s <= now -> marked (mkMst now c (aset bs_eqb (mNot s) k (now + notAge)) asks (VNot k now :: mLog s)) /\ forall k' u, In (VNot k' u) (VNot k now :: mLog s) -> u <= now).
  { intros now c asks k Tn. assert (L' : forall k' u, In (VNot k' u) (mLog s) -> u <= now) by (intros k' u X; specialize (L _ _ X); lia). split.
    - intros k' u X. apply (marked_set s k now _ L' M eq_refl k' u X).
    - intros k' u [X|X]; [injection X as <- <-; lia|apply (L' _ _ X)]. }
  destruct o as [e now|t now|t av now|t r now|t now|now]; cbn [kNow] in T; cbn [kstep1] in H.
  - injection H as <-. apply Keep, T.
  - destruct (nth_error (mAsks s) t) as [a|]; [|discriminate H]. destruct (kPc a); try discriminate H. destruct (match aget _ _ _ with Some _ => _ | None => _ end); [|destruct (supports _)]; injection H as <-;
      [apply Keep, T|apply Keep, T|apply Mark, T].
  - destruct (nth_error (mAsks s) t) as [a|]; [|discriminate H]. destruct (kPc a); try discriminate H. destruct av; injection H as <-; [apply Keep1; [exact T|discriminate]|apply Keep, T].
  - destruct (nth_error (mAsks s) t) as [a|]; [|discriminate H]. destruct (kPc a); try discriminate H. destruct r; injection H as <-; [apply Mark, T|apply Keep, T|apply Keep1; [exact T|discriminate]].
  - destruct (nth_error (mAsks s) t) as [a|]; [|discriminate H]. destruct (kPc a); try discriminate H. injection H as <-. apply Keep1; [exact T|discriminate].
  - destruct (NC now eq_refl).
Qed.
Lemma marked_runs age os : forall s s', kruns age s os = Some s' -> (forall n, ~ In (KClear n) os) ->
  (marked s /\ forall k u, In (VNot k u) (mLog s) -> u <= mNow s) -> (marked s' /\ forall k u, In (VNot k u) (mLog s') -> u <= mNow s').
Proof.
  induction os as [|o os IH]; intros s s' H N M; cbn [kruns] in H; [injection H as <-; exact M|].
  destruct (kstep age s o) as [s1|] eqn:E; [|discriminate H]. apply (IH s1 s' H); [intros n X; apply (N n); right; exact X|].
  apply (marked_step _ _ _ _ E); [|exact M]. intros n ->. apply (N n). left. reflexivity.
Qed.
Lemma not_asked age os s k u t e now s' : kruns age minit os = Some s -> (forall n, ~ In (KClear n) os) -> In (VNot k u) (mLog s) -> now <= u + notAge ->
  nth_error (mAsks s) t = Some (mkMask e PSup) -> eKey e = k -> kstep age s (KSup t now) = Some s' -> ended s' t e ONot.
Proof.
  intros R N V L A E H. destruct (marked_runs _ _ _ _ R N) as (M & _); [split; intros ? ? []|]. destruct (M _ _ V) as (x & X & Le).
  unfold kstep in H. destruct (_ <? _); [discriminate H|]. cbn [kstep1] in H. rewrite A in H. cbn [kPc kEp] in H. rewrite E, X in H.
  unfold fresh in H. rewrite (proj2 (Z.ltb_ge x now)) in H by lia. cbn [negb] in H. injection H as <-. unfold ended. cbn [mAsks]. rewrite (upd _ _ A), Nat.eqb_refl. reflexivity.
Qed.
