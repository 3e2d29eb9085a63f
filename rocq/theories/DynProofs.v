(* DynProofs.v: proofs for C44, C45 and C73. *)
From Verif Require Import Base Strconv GoStrings GoStrings2 UrlModel UrlSpec UrlProofs DynModel DynSpec.
Ltac Zify.zify_post_hook ::= idtac.
Set Implicit Arguments.

Lemma nth_lt {A} (l : list A) i x : nth_error l i = Some x -> i < length l.
Proof. intro H. apply nth_error_Some. congruence. Qed.
Lemma set_same {A} (l : list A) i x : i < length l -> nth_error (list_set l i x) i = Some x.
Proof. intro H. rewrite list_set_nth_error by exact H. rewrite Nat.eqb_refl. reflexivity. Qed.
Lemma set_other {A} (l : list A) i j x : i < length l -> j <> i -> nth_error (list_set l i x) j = nth_error l j.
Proof. intros H N. rewrite list_set_nth_error by exact H. apply Nat.eqb_neq in N. rewrite N. reflexivity. Qed.
Lemma set_inv {A} (l : list A) i x j y : i < length l -> nth_error (list_set l i x) j = Some y -> (j = i /\ y = x) \/ (j <> i /\ nth_error l j = Some y).
Proof.
  intros H X. destruct (Nat.eq_dec j i) as [->|D].
  - rewrite set_same in X by exact H. injection X as <-. left. split; reflexivity.
  - rewrite set_other in X by assumption. right. split; assumption.
Qed.

Lemma ident_eq u : ident u = identity_of u.
Proof. unfold ident. apply (@getIdentity_ok (fresh u)); [apply fresh_coherent|left; reflexivity]. Qed.
Lemma identReg_eq u : identReg u = identity_of u ++ s2b "&registry=" ++ str_or u RegistryKey [].
Proof.
  unfold identReg, getIdentityWithRegistry. rewrite <- ident_eq. unfold ident. destruct (getIdentity (fresh u)) as [i c] eqn:E. cbn [fst].
  f_equal. f_equal. cbn [fresh cUrl]. apply getParam_str_or.
Qed.

Lemma suffixed_idem sf u : suffixed sf (suffixed sf u) = suffixed sf u.
Proof.
  unfold suffixed at 2 3. destruct (negb (bs_eqb sf []) && negb (hasSuffix (uGroup u) sf)) eqn:E.
  - unfold suffixed. cbn [withGroup uGroup]. replace (hasSuffix (uGroup u ++ sf) sf) with true; [rewrite andb_false_r; reflexivity|].
    symmetry. apply hasSuffix_spec. exists (uGroup u). reflexivity.
  - unfold suffixed. rewrite E. reflexivity.
Qed.

(* ---- contents *)
Definition cont (f : option content) : content := match f with Some c => c | None => ([], []) end.
Definition agree (c : content) (s : dst) (k : bs + bs) : Prop :=
  match k with
  | inl k => forall u, (In u (fst c) /\ identReg u = k) <-> aget bs_eqb (dReg s) k = Some u
  | inr k => forall u, (In u (snd c) /\ ident u = k) <-> aget bs_eqb (dSub s) k = Some u
  end.
Record wfc (sf : bs) (static : list url) (c : content) : Prop := {
  wc_reg : NoDup (map identReg (fst c)); wc_sub : NoDup (map ident (snd c));
  wc_ok : forall u, In u (fst c) -> suffixed sf u = u /\ urlExist u static = false }.
Record wfm (s : dst) : Prop := {
  wm_reg : NoDup (akeys (dReg s)); wm_sub : NoDup (akeys (dSub s));
  wm_rk : forall k u, aget bs_eqb (dReg s) k = Some u -> k = identReg u /\ suffixed (dRegSuffix s) u = u /\ urlExist u (dStatic s) = false;
  wm_sk : forall k u, aget bs_eqb (dSub s) k = Some u -> k = ident u }.

Lemma In_snd (m : list (bs * url)) u : In u (map snd m) <-> exists k, In (k, u) m.
Proof.
  rewrite in_map_iff. split.
  - intros [[k v] [E I]]. cbn in E. subst v. exists k. exact I.
  - intros [k I]. exists (k, u). split; [reflexivity|exact I].
Qed.
Lemma map_keys (f : url -> bs) (m : list (bs * url)) : (forall k u, In (k, u) m -> k = f u) -> map f (map snd m) = akeys m.
Proof.
  unfold akeys. rewrite map_map. intro H. apply map_ext_in. intros [k u] I. cbn [snd fst]. symmetry. exact (H k u I).
Qed.
Lemma agree_listing s : wfm s -> forall k, agree (listing s) s k.
Proof.
  intros W [k|k] u; cbn [agree listing fst snd]; rewrite In_snd; split.
  - intros [[k' I] E]. pose proof (In_aget bs_eqb bs_eqb_spec _ _ _ (wm_reg W) I) as G. destruct (wm_rk W _ G) as [X _]. congruence.
  - intro G. split; [exists k; exact (aget_In bs_eqb bs_eqb_spec _ _ _ G)|]. destruct (wm_rk W _ G) as [X _]. congruence.
  - intros [[k' I] E]. pose proof (In_aget bs_eqb bs_eqb_spec _ _ _ (wm_sub W) I) as G. pose proof (wm_sk W _ G) as X. congruence.
  - intro G. split; [exists k; exact (aget_In bs_eqb bs_eqb_spec _ _ _ G)|]. pose proof (wm_sk W _ G) as X. congruence.
Qed.
Lemma wfc_listing s : wfm s -> wfc (dRegSuffix s) (dStatic s) (listing s).
Proof.
  intro W. constructor; cbn [listing fst snd].
  - rewrite (map_keys identReg); [exact (wm_reg W)|]. intros k u I. exact (proj1 (wm_rk W _ (In_aget bs_eqb bs_eqb_spec _ _ _ (wm_reg W) I))).
  - rewrite (map_keys ident); [exact (wm_sub W)|]. intros k u I. exact (wm_sk W _ (In_aget bs_eqb bs_eqb_spec _ _ _ (wm_sub W) I)).
  - intros u I. apply In_snd in I as [k I]. exact (proj2 (wm_rk W _ (In_aget bs_eqb bs_eqb_spec _ _ _ (wm_reg W) I))).
Qed.

(* ---- the basic actions *)
Definition env_eq (s s' : dst) : Prop :=
  dRegSuffix s' = dRegSuffix s /\ dSubSuffix s' = dSubSuffix s /\ dStatic s' = dStatic s /\ dRefers s' = dRefers s.
Definition io_eq (s s' : dst) : Prop := dFile s' = dFile s /\ dSaving s' = dSaving s /\ dJobs s' = dJobs s.
Lemma env_refl s : env_eq s s. Proof. repeat split. Qed.
Lemma io_refl s : io_eq s s. Proof. repeat split. Qed.
Lemma env_trans a b c : env_eq a b -> env_eq b c -> env_eq a c.
Proof. unfold env_eq. intros [? [? [? ?]]] [? [? [? ?]]]. repeat split; congruence. Qed.
Lemma io_trans a b c : io_eq a b -> io_eq b c -> io_eq a c.
Proof. unfold io_eq. intros [? [? ?]] [? [? ?]]. repeat split; congruence. Qed.

Lemma doRegister_spec s u ok : let v := suffixed (dRegSuffix s) u in
  env_eq s (doRegister s u ok) /\ io_eq s (doRegister s u ok) /\ dSub (doRegister s u ok) = dSub s /\ dClusters (doRegister s u ok) = dClusters s /\
  ((dReg (doRegister s u ok) = dReg s /\ dExp (doRegister s u ok) = dExp s /\ (aget bs_eqb (dReg s) (identReg v) <> None \/ urlExist v (dStatic s) = true)) \/
   (dReg (doRegister s u ok) = aset bs_eqb (dReg s) (identReg v) v /\ aget bs_eqb (dReg s) (identReg v) = None /\ urlExist v (dStatic s) = false /\
    dExp (doRegister s u ok) = match aget bs_eqb (dExp s) (identReg v) with Some _ => dExp s | None => if ok then aset bs_eqb (dExp s) (identReg v) v else dExp s end)).
Proof.
  cbv zeta. unfold doRegister. destruct (aget bs_eqb (dReg s) (identReg (suffixed (dRegSuffix s) u))) eqn:E.
  { split; [apply env_refl|]. split; [apply io_refl|]. split; [reflexivity|]. split; [reflexivity|]. left. split; [reflexivity|]. split; [reflexivity|]. left. discriminate. }
  destruct (urlExist (suffixed (dRegSuffix s) u) (dStatic s)) eqn:X.
  { split; [apply env_refl|]. split; [apply io_refl|]. split; [reflexivity|]. split; [reflexivity|]. left. split; [reflexivity|]. split; [reflexivity|]. right. reflexivity. }
  unfold doExport. destruct (aget bs_eqb (dExp s) (identReg (suffixed (dRegSuffix s) u))) eqn:G; [|destruct ok];
    (split; [repeat split|]; split; [repeat split|]; split; [reflexivity|]; split; [reflexivity|]; right; repeat split; reflexivity).
Qed.
Lemma doUnregister_spec s u :
  env_eq s (doUnregister s u) /\ io_eq s (doUnregister s u) /\ dSub (doUnregister s u) = dSub s /\
  (forall k, aget bs_eqb (dReg (doUnregister s u)) k = if bs_eqb k (identReg u) then None else aget bs_eqb (dReg s) k) /\
  (NoDup (akeys (dReg s)) -> NoDup (akeys (dReg (doUnregister s u)))) /\
  (dExp (doUnregister s u) = dExp s \/ dExp (doUnregister s u) = adel bs_eqb (dExp s) (ident u)).
Proof.
  unfold doUnregister. destruct (aget bs_eqb (dReg s) (identReg u)) eqn:E.
  - assert (X : dReg (doUnexport s u) = dReg s /\ env_eq s (doUnexport s u) /\ io_eq s (doUnexport s u) /\ dSub (doUnexport s u) = dSub s /\
      (dExp (doUnexport s u) = dExp s \/ dExp (doUnexport s u) = adel bs_eqb (dExp s) (ident u))).
    { unfold doUnexport. destruct (urlExist u (dStatic s)); (split; [reflexivity|]; split; [repeat split|]; split; [repeat split|]; split; [reflexivity|]).
      - left; reflexivity. - right; reflexivity. }
    destruct X as [A [B [C [D F]]]]. split; [exact B|]. split; [exact C|]. split; [exact D|]. split; [|split; [|exact F]].
    + intro k. cbn [dReg]. rewrite A. apply (aget_adel bs_eqb bs_eqb_spec).
    + cbn [dReg]. rewrite A. apply NoDup_adel.
  - split; [apply env_refl|]. split; [apply io_refl|]. split; [reflexivity|]. split; [|split; [tauto|left; reflexivity]].
    intro k. destruct (bs_eqb k (identReg u)) eqn:K; [|reflexivity]. apply bs_eqb_spec in K. subst k. exact E.
Qed.
Lemma doSubscribe_spec s u :
  env_eq s (doSubscribe s u) /\ io_eq s (doSubscribe s u) /\ dReg (doSubscribe s u) = dReg s /\ dExp (doSubscribe s u) = dExp s /\
  ((dSub (doSubscribe s u) = dSub s /\ aget bs_eqb (dSub s) (ident u) <> None) \/
   (dSub (doSubscribe s u) = aset bs_eqb (dSub s) (ident u) u /\ aget bs_eqb (dSub s) (ident u) = None)).
Proof.
  unfold doSubscribe. destruct (aget bs_eqb (dSub s) (ident u)) eqn:E.
  - split; [apply env_refl|]. split; [apply io_refl|]. split; [reflexivity|]. split; [reflexivity|]. left. split; [reflexivity|discriminate].
  - split; [repeat split|]. split; [repeat split|]. split; [reflexivity|]. split; [reflexivity|]. right. split; reflexivity.
Qed.

(* what an action leaves alone *)
Definition others (s s' : dst) (k : bs + bs) : Prop := forall k', k' <> k ->
  match k' with inl x => aget bs_eqb (dReg s') x = aget bs_eqb (dReg s) x | inr x => aget bs_eqb (dSub s') x = aget bs_eqb (dSub s) x end.
Lemma reg_wf s u ok : wfm s -> wfm (doRegister s u ok) /\ others s (doRegister s u ok) (inl (identReg (suffixed (dRegSuffix s) u))).
Proof.
  intro W. destruct (doRegister_spec s u ok) as [[E1 [E2 [E3 E4]]] [_ [S [_ [[R [_ _]]|[R [N [X _]]]]]]]].
  - split.
    + constructor; rewrite ?R, ?S, ?E1, ?E3; apply W.
    + intros [k|k] D; [rewrite R|rewrite S]; reflexivity.
  - split.
    + constructor; rewrite ?R, ?S, ?E1, ?E3; try apply W.
      * apply NoDup_aset; [exact bs_eqb_spec|apply W].
      * intros k v G. rewrite (aget_aset bs_eqb bs_eqb_spec) in G. destruct (bs_eqb k (identReg (suffixed (dRegSuffix s) u))) eqn:K.
        -- injection G as <-. apply bs_eqb_spec in K. split; [exact K|]. split; [apply suffixed_idem|exact X].
        -- exact (wm_rk W _ G).
    + intros [k|k] D; [|rewrite S; reflexivity]. rewrite R, (aget_aset bs_eqb bs_eqb_spec).
      destruct (bs_eqb k (identReg (suffixed (dRegSuffix s) u))) eqn:K; [|reflexivity]. apply bs_eqb_spec in K. congruence.
Qed.
Lemma unreg_wf s u : wfm s -> wfm (doUnregister s u) /\ others s (doUnregister s u) (inl (identReg u)).
Proof.
  intro W. destruct (doUnregister_spec s u) as [[E1 [E2 [E3 E4]]] [_ [S [G [N _]]]]]. split.
  - constructor; rewrite ?S, ?E1, ?E3; try apply W; [exact (N (wm_reg W))|].
    intros k v. rewrite G. destruct (bs_eqb k (identReg u)); [discriminate|]. apply W.
  - intros [k|k] D; [|rewrite S; reflexivity]. rewrite G. destruct (bs_eqb k (identReg u)) eqn:K; [|reflexivity]. apply bs_eqb_spec in K. congruence.
Qed.
Lemma sub_wf s u : wfm s -> wfm (doSubscribe s u) /\ others s (doSubscribe s u) (inr (ident u)).
Proof.
  intro W. destruct (doSubscribe_spec s u) as [[E1 [E2 [E3 E4]]] [_ [R [_ [[S _]|[S N]]]]]].
  - split.
    + constructor; rewrite ?R, ?S, ?E1, ?E3; apply W.
    + intros [k|k] D; [rewrite R|rewrite S]; reflexivity.
  - split.
    + constructor; rewrite ?R, ?S, ?E1, ?E3; try apply W.
      * apply NoDup_aset; [exact bs_eqb_spec|apply W].
      * intros k v G. rewrite (aget_aset bs_eqb bs_eqb_spec) in G. destruct (bs_eqb k (ident u)) eqn:K.
        -- injection G as <-. apply bs_eqb_spec in K. exact K.
        -- exact (wm_sk W _ G).
    + intros [k|k] D; [rewrite R; reflexivity|]. rewrite S, (aget_aset bs_eqb bs_eqb_spec).
      destruct (bs_eqb k (ident u)) eqn:K; [|reflexivity]. apply bs_eqb_spec in K. congruence.
Qed.
Lemma agree_others s s' k c k' : others s s' k -> k' <> k -> agree c s k' -> agree c s' k'.
Proof. intros O D A. specialize (O k' D). destruct k' as [x|x]; intro u; cbn [agree] in *; rewrite O; apply A. Qed.

(* ---- recovery *)
Lemma recover_reg oks l : forall s, wfm s -> NoDup (map identReg l) ->
  (forall u, In u l -> suffixed (dRegSuffix s) u = u /\ urlExist u (dStatic s) = false /\ aget bs_eqb (dReg s) (identReg u) = None) ->
  let s' := fold_left (fun s u => doRegister s u (oks u)) l s in
  wfm s' /\ env_eq s s' /\ io_eq s s' /\ dSub s' = dSub s /\ dClusters s' = dClusters s /\
  (forall k u, aget bs_eqb (dReg s') k = Some u <-> aget bs_eqb (dReg s) k = Some u \/ (In u l /\ identReg u = k)) /\
  (forall k, aget bs_eqb (dExp s') k <> None <-> aget bs_eqb (dExp s) k <> None \/ exists u, In u l /\ oks u = true /\ identReg u = k).
Proof.
  induction l as [|u l IH]; intros s W N H; cbv zeta; cbn [fold_left].
  { split; [exact W|]. split; [apply env_refl|]. split; [apply io_refl|]. split; [reflexivity|]. split; [reflexivity|]. split.
    - intros k u. split; [tauto|]. intros [X|[[] _]]; exact X.
    - intro k. split; [tauto|]. intros [X|[u [[] _]]]; exact X. }
  cbn [map] in N. apply NoDup_cons_iff in N as [N1 N2]. destruct (H u (or_introl eq_refl)) as [Hs [Hx Hn]].
  pose proof (proj1 (reg_wf u (oks u) W)) as W1. pose proof (doRegister_spec s u (oks u)) as D. cbv zeta in D.
  destruct D as [E [I [S [C [[_ [_ B]]|[R [_ [_ X]]]]]]]].
  { exfalso. rewrite Hs in B. destruct B as [B|B]; congruence. }
  rewrite Hs in R, X. destruct E as [E1 [E2 [E3 E4]]].
  destruct (IH (doRegister s u (oks u)) W1 N2) as [W2 [E' [I' [S' [C' [G' X']]]]]].
  { intros v Hv. rewrite E1, E3. destruct (H v (or_intror Hv)) as [A1 [A2 A3]]. split; [exact A1|]. split; [exact A2|].
    rewrite R, (aget_aset bs_eqb bs_eqb_spec). destruct (bs_eqb (identReg v) (identReg u)) eqn:K; [|exact A3].
    apply bs_eqb_spec in K. exfalso. apply N1. rewrite <- K. apply in_map. exact Hv. }
  split; [exact W2|]. split; [eapply env_trans; [|exact E']; repeat split; assumption|]. split; [eapply io_trans; eassumption|].
  split; [congruence|]. split; [congruence|]. split.
  - intros k v. rewrite G', R, (aget_aset bs_eqb bs_eqb_spec). destruct (bs_eqb k (identReg u)) eqn:K.
    + apply bs_eqb_spec in K. subst k. rewrite Hn. split.
      * intros [Y|[Y1 Y2]]; [injection Y as <-; right; split; [left; reflexivity|reflexivity]|right; split; [right; exact Y1|exact Y2]].
      * intros [Y|[[<-|Y1] Y2]]; [discriminate Y|left; reflexivity|right; split; assumption].
    + apply bs_eqb_neq in K. split.
      * intros [Y|[Y1 Y2]]; [left; exact Y|right; split; [right; exact Y1|exact Y2]].
      * intros [Y|[[<-|Y1] Y2]]; [left; exact Y|congruence|right; split; assumption].
  - intro k. rewrite X', X. assert (Z : (match aget bs_eqb (dExp s) (identReg u) with Some _ => dExp s | None => if oks u then aset bs_eqb (dExp s) (identReg u) u else dExp s end) = dExp s /\ (aget bs_eqb (dExp s) (identReg u) <> None \/ oks u = false) \/
      (match aget bs_eqb (dExp s) (identReg u) with Some _ => dExp s | None => if oks u then aset bs_eqb (dExp s) (identReg u) u else dExp s end) = aset bs_eqb (dExp s) (identReg u) u /\ oks u = true).
    { destruct (aget bs_eqb (dExp s) (identReg u)) eqn:Q; [left; split; [reflexivity|left; discriminate]|]. destruct (oks u) eqn:O; [right; split; reflexivity|left; split; [reflexivity|right; reflexivity]]. }
    destruct Z as [[-> Z]|[-> Z]].
    + split.
      * intros [Y|[v [V1 [V2 V3]]]]; [left; exact Y|right; exists v; split; [right; exact V1|split; assumption]].
      * intros [Y|[v [[<-|V1] [V2 V3]]]]; [left; exact Y| |right; exists v; repeat split; assumption].
        destruct Z as [Z|Z]; [left; rewrite <- V3; exact Z|congruence].
    + rewrite (aget_aset bs_eqb bs_eqb_spec). destruct (bs_eqb k (identReg u)) eqn:K.
      * apply bs_eqb_spec in K. split; [|left; discriminate]. intros _. right. exists u. split; [left; reflexivity|]. split; [exact Z|congruence].
      * apply bs_eqb_neq in K. split.
        -- intros [Y|[v [V1 [V2 V3]]]]; [left; exact Y|right; exists v; split; [right; exact V1|split; assumption]].
        -- intros [Y|[v [[<-|V1] [V2 V3]]]]; [left; exact Y|congruence|right; exists v; repeat split; assumption].
Qed.
Lemma recover_sub l : forall s, wfm s -> NoDup (map ident l) -> (forall u, In u l -> aget bs_eqb (dSub s) (ident u) = None) ->
  let s' := fold_left doSubscribe l s in
  wfm s' /\ env_eq s s' /\ io_eq s s' /\ dReg s' = dReg s /\ dExp s' = dExp s /\
  (forall k u, aget bs_eqb (dSub s') k = Some u <-> aget bs_eqb (dSub s) k = Some u \/ (In u l /\ ident u = k)).
Proof.
  induction l as [|u l IH]; intros s W N H; cbv zeta; cbn [fold_left].
  { split; [exact W|]. split; [apply env_refl|]. split; [apply io_refl|]. split; [reflexivity|]. split; [reflexivity|].
    intros k u. split; [tauto|]. intros [X|[[] _]]; exact X. }
  cbn [map] in N. apply NoDup_cons_iff in N as [N1 N2]. pose proof (H u (or_introl eq_refl)) as Hn.
  pose proof (proj1 (sub_wf u W)) as W1. destruct (doSubscribe_spec s u) as [E [I [R [X [[_ B]|[S _]]]]]]; [congruence|].
  destruct (IH (doSubscribe s u) W1 N2) as [W2 [E' [I' [R' [X' G']]]]].
  { intros v Hv. rewrite S, (aget_aset bs_eqb bs_eqb_spec). destruct (bs_eqb (ident v) (ident u)) eqn:K; [|exact (H v (or_intror Hv))].
    apply bs_eqb_spec in K. exfalso. apply N1. rewrite <- K. apply in_map. exact Hv. }
  split; [exact W2|]. split; [eapply env_trans; eassumption|]. split; [eapply io_trans; eassumption|]. split; [congruence|]. split; [congruence|].
  intros k v. rewrite G', S, (aget_aset bs_eqb bs_eqb_spec). destruct (bs_eqb k (ident u)) eqn:K.
  - apply bs_eqb_spec in K. subst k. rewrite Hn. split.
    + intros [Y|[Y1 Y2]]; [injection Y as <-; right; split; [left; reflexivity|reflexivity]|right; split; [right; exact Y1|exact Y2]].
    + intros [Y|[[<-|Y1] Y2]]; [discriminate Y|left; reflexivity|right; split; assumption].
  - apply bs_eqb_neq in K. split.
    + intros [Y|[Y1 Y2]]; [left; exact Y|right; split; [right; exact Y1|exact Y2]].
    + intros [Y|[[<-|Y1] Y2]]; [left; exact Y|congruence|right; split; assumption].
Qed.

Lemma started_wf s : wfm (started s).
Proof. constructor; cbn; [constructor|constructor|intros k u X; discriminate X|intros k u X; discriminate X]. Qed.
Lemma static_exported l : forall m k,
  aget bs_eqb (fold_left (fun m u => match aget bs_eqb m (identReg u) with Some _ => m | None => aset bs_eqb m (identReg u) u end) l m) k <> None <->
  aget bs_eqb m k <> None \/ exists u, In u l /\ identReg u = k.
Proof.
  induction l as [|u l IH]; intros m k; cbn [fold_left].
  { split; [tauto|]. intros [X|[u [[] _]]]; exact X. }
  rewrite IH. destruct (aget bs_eqb m (identReg u)) eqn:E.
  - split.
    + intros [X|[v [V1 V2]]]; [left; exact X|right; exists v; split; [right; exact V1|exact V2]].
    + intros [X|[v [[<-|V1] V2]]]; [left; exact X|left; rewrite <- V2; congruence|right; exists v; split; assumption].
  - rewrite (aget_aset bs_eqb bs_eqb_spec). destruct (bs_eqb k (identReg u)) eqn:K.
    + apply bs_eqb_spec in K. split; [|left; discriminate]. intros _. right. exists u. split; [left; reflexivity|congruence].
    + apply bs_eqb_neq in K. split.
      * intros [X|[v [V1 V2]]]; [left; exact X|right; exists v; split; [right; exact V1|exact V2]].
      * intros [X|[v [[<-|V1] V2]]]; [left; exact X|congruence|right; exists v; split; assumption].
Qed.

Lemma restart_spec s oks : wfc (dRegSuffix s) (dStatic s) (cont (dFile s)) ->
  let s' := restart s true oks in
  wfm s' /\ env_eq s s' /\ dFile s' = dFile s /\ dSaving s' = None /\ dJobs s' = [] /\ (forall k, agree (cont (dFile s)) s' k) /\
  (forall k, exported s' k <-> configured s k \/ exists u, In u (fst (cont (dFile s))) /\ oks u = true /\ identReg u = k).
Proof.
  intro W. cbv zeta. unfold restart.
  assert (X : forall c, wfc (dRegSuffix s) (dStatic s) c ->
    let s' := recoverAll (started s) c oks in
    wfm s' /\ env_eq s s' /\ io_eq (started s) s' /\ (forall k, agree c s' k) /\
    (forall k, exported s' k <-> configured s k \/ exists u, In u (fst c) /\ oks u = true /\ identReg u = k)).
  { clear W. intros c W. cbv zeta. unfold recoverAll.
    destruct (@recover_reg oks (fst c) (started s) (started_wf s) (wc_reg W)) as [W1 [E1 [I1 [S1 [_ [G1 X1]]]]]].
    { intros u I. destruct (wc_ok W u I) as [A B]. split; [exact A|]. split; [exact B|reflexivity]. }
    set (s1 := fold_left (fun s u => doRegister s u (oks u)) (fst c) (started s)) in *.
    destruct (@recover_sub (snd c) s1 W1 (wc_sub W)) as [W2 [E2 [I2 [R2 [X2 G2]]]]].
    { intros u _. rewrite S1. reflexivity. }
    split; [exact W2|]. split; [exact (env_trans E1 E2)|]. split; [exact (io_trans I1 I2)|]. split.
    - intros [k|k] u; cbn [agree].
      + rewrite R2, G1. cbn [started dReg aget]. split; [tauto|]. intros [Y|Y]; [discriminate Y|exact Y].
      + rewrite G2, S1. cbn [started dSub aget]. split; [tauto|]. intros [Y|Y]; [discriminate Y|exact Y].
    - intro k. unfold exported. rewrite X2, X1. cbn [started dExp]. rewrite static_exported. unfold configured. split.
      + intros [[Y|Y]|Y]; [exfalso; apply Y; reflexivity|left; exact Y|right; exact Y].
      + intros [Y|Y]; [left; right; exact Y|right; exact Y]. }
  destruct (dFile s) as [c|] eqn:F.
  - destruct (X c W) as [W' [E [[I1 [I2 I3]] [A Y]]]]. split; [exact W'|]. split; [exact E|]. split; [rewrite I1; exact F|].
    split; [exact I2|]. split; [exact I3|]. split; [exact A|exact Y].
  - destruct (X ([], []) W) as [W' [E [I [A Y]]]]. split; [exact W'|]. split; [exact E|]. split; [exact F|].
    split; [reflexivity|]. split; [reflexivity|]. split; [exact A|exact Y].
Qed.

(* ---- every schedule *)
Definition good_todo (x : djob) : Prop := (jTodo x = [] /\ jMod x = []) \/ exists r, jTodo x = r ++ [Save].
Record dinv (s : dst) : Prop := {
  dv_wf : wfm s;
  dv_file : wfc (dRegSuffix s) (dStatic s) (cont (dFile s));
  dv_saving : forall j c t, dSaving s = Some (j, c, t) ->
    wfc (dRegSuffix s) (dStatic s) c /\ (exists x r, nth_error (dJobs s) j = Some x /\ jTodo x = Save :: r) /\
    (forall k, (forall i x, i <> j -> nth_error (dJobs s) i = Some x -> ~ In k (jMod x)) -> agree c s k);
  dv_agree : ~ being_written s -> forall k, ~ changing s k -> agree (cont (dFile s)) s k;
  dv_todo : forall j x, nth_error (dJobs s) j = Some x -> good_todo x }.

Lemma flat_ends {A} (f : A -> list act) l : (forall x, exists r, f x = r ++ [Save]) -> flat_map f l = [] \/ exists r, flat_map f l = r ++ [Save].
Proof.
  intro H. induction l as [|x l IH]; [left; reflexivity|right]. cbn [flat_map]. destruct (H x) as [r E]. rewrite E. destruct IH as [->|[r' ->]].
  - exists r. rewrite app_nil_r. reflexivity.
  - exists ((r ++ [Save]) ++ r'). rewrite app_assoc. reflexivity.
Qed.
Lemma plan_good sf r : good_todo (mkDjob (plan sf r) []).
Proof.
  unfold good_todo. cbn [jTodo jMod]. assert (X : plan sf r = [] \/ exists q, plan sf r = q ++ [Save]).
  { destruct r as [us|us|us]; cbn [plan]; apply flat_ends; intro x.
    - exists [DoReg (fst x) (snd x)]. reflexivity.
    - exists [DoUnreg x]. reflexivity.
    - destruct (negb (bs_eqb sf []) && negb (hasSuffix (uGroup x) sf)); [eexists [DoSub x; _]; reflexivity|exists [DoSub x]; reflexivity]. }
  destruct X as [->|X]; [left; split; reflexivity|right; exact X].
Qed.
Lemma good_tail a r m m' : good_todo (mkDjob (a :: r) m) -> a <> Save -> good_todo (mkDjob r m').
Proof.
  intros [[X _]|[q X]] N; cbn [jTodo] in X; [discriminate X|]. destruct q as [|b q]; cbn in X; [congruence|]. injection X as _ ->. right. exists q. reflexivity.
Qed.
Lemma good_save r m : good_todo (mkDjob (Save :: r) m) -> good_todo (mkDjob r []).
Proof.
  intros [[X _]|[q X]]; cbn [jTodo] in X; [discriminate X|]. destruct q as [|b q]; cbn in X.
  - injection X as ->. left. split; reflexivity.
  - injection X as _ ->. right. exists q. reflexivity.
Qed.

Lemma init_inv a b static refers : dinv (dinit a b static refers).
Proof.
  unfold dinit. constructor.
  - apply started_wf.
  - constructor; cbn; [constructor|constructor|intros u []].
  - intros j c t X. discriminate X.
  - intros _ [k|k] _ u; cbn; (split; [intros [[] _]|discriminate]).
  - intros [|j] x X; discriminate X.
Qed.
Lemma restart_inv s oks : dinv s -> dinv (restart s true oks).
Proof.
  intro V. destruct (restart_spec s oks (dv_file V)) as [W [[E1 [E2 [E3 E4]]] [F [S [J [A _]]]]]]. constructor.
  - exact W.
  - rewrite E1, E3, F. exact (dv_file V).
  - intros j c t X. congruence.
  - intros _ k _. rewrite F. apply A.
  - intros [|j] x X; rewrite J in X; discriminate X.
Qed.
(* a basic action of a job *)
Lemma act_inv s s' j x a r k :
  dinv s -> nth_error (dJobs s) j = Some x -> jTodo x = a :: r -> a <> Save ->
  env_eq s s' -> io_eq s s' -> wfm s' -> others s s' k ->
  dinv (setDJob s' j (mkDjob r (k :: jMod x))).
Proof.
  intros V J T NS [E1 [E2 [E3 E4]]] [F [SV JJ]] W O. pose proof (@nth_lt _ _ _ _ J) as L.
  assert (CH : forall k', ~ changing (setDJob s' j (mkDjob r (k :: jMod x))) k' -> k' <> k /\ ~ changing s k').
  { intros k' NC. split.
    - intros ->. apply NC. exists j, (mkDjob r (k :: jMod x)). split; [cbn [setDJob dJobs]; rewrite JJ; apply set_same; exact L|left; reflexivity].
    - intros [i [y [Y1 Y2]]]. apply NC. destruct (Nat.eq_dec i j) as [->|D].
      + exists j, (mkDjob r (k :: jMod x)). split; [cbn [setDJob dJobs]; rewrite JJ; apply set_same; exact L|]. right. congruence.
      + exists i, y. split; [|exact Y2]. cbn [setDJob dJobs]. rewrite JJ, set_other by assumption. exact Y1. }
  constructor.
  - destruct W as [W1 W2 W3 W4]. constructor; assumption.
  - cbn [setDJob dRegSuffix dStatic dFile]. rewrite E1, E3, F. exact (dv_file V).
  - intros i c t X. cbn [setDJob dSaving] in X. rewrite SV in X. destruct (dv_saving V X) as [A [[y [q [Y1 Y2]]] B]].
    cbn [setDJob dRegSuffix dStatic dJobs]. rewrite E1, E3, JJ. split; [exact A|].
    assert (D : i <> j) by (intros ->; rewrite J in Y1; injection Y1 as <-; congruence).
    split; [exists y, q; split; [rewrite set_other by assumption; exact Y1|exact Y2]|].
    intros k' H. assert (D' : k' <> k).
    { intros ->. apply (H j (mkDjob r (k :: jMod x))); [congruence|apply set_same; exact L|left; reflexivity]. }
    assert (Z : agree c s k').
    { apply B. intros i' z Di Hz Iz. destruct (Nat.eq_dec i' j) as [->|Dj].
      - apply (H j (mkDjob r (k :: jMod x))); [exact Di|apply set_same; exact L|]. right. congruence.
      - apply (H i' z Di); [rewrite set_other by assumption; exact Hz|exact Iz]. }
    pose proof (@agree_others s s' k _ _ O D' Z) as Q. destruct k'; exact Q.
  - intros NW k' NC. destruct (CH k' NC) as [D' NC']. cbn [setDJob dFile]. rewrite F.
    assert (NW' : ~ being_written s). { intros [i [c X]]. apply NW. exists i, c. cbn [setDJob dSaving]. rewrite SV. exact X. }
    pose proof (@agree_others s s' k _ _ O D' (dv_agree V NW' NC')) as Q. destruct k'; exact Q.
  - intros i y Y. cbn [setDJob dJobs] in Y. rewrite JJ in Y. destruct (set_inv _ _ _ L Y) as [[-> ->]|[D Y']].
    + pose proof (dv_todo V _ J) as G. destruct x as [td md]. cbn [jTodo jMod] in *. subst td. exact (good_tail (k :: md) G NS).
    + exact (dv_todo V _ Y').
Qed.
Lemma step_inv s o s' : dinv s -> recovering o -> dstep s o = Some s' -> dinv s'.
Proof.
  intros V RC H. destruct o as [q|j|rc oks]; cbn [dstep] in H.
  - injection H as <-. constructor.
    + destruct (dv_wf V) as [W1 W2 W3 W4]. constructor; assumption.
    + exact (dv_file V).
    + intros j c t X. destruct (dv_saving V X) as [A [[y [r [Y1 Y2]]] B]]. split; [exact A|]. cbn [dJobs]. split.
      * exists y, r. split; [|exact Y2]. rewrite nth_error_app1 by exact (@nth_lt _ _ _ _ Y1). exact Y1.
      * intros k' Hk. assert (Z : agree c s k').
        { apply B. intros i z D Hz. apply (Hk i z D). rewrite nth_error_app1 by exact (@nth_lt _ _ _ _ Hz). exact Hz. }
        destruct k'; exact Z.
    + intros NW k' NC. assert (Z : agree (cont (dFile s)) s k').
      { apply (dv_agree V NW). intros [i [y [Y1 Y2]]]. apply NC. exists i, y. cbn [dJobs]. split; [|exact Y2].
        rewrite nth_error_app1 by exact (@nth_lt _ _ _ _ Y1). exact Y1. }
      destruct k'; exact Z.
    + intros i y Y. cbn [dJobs] in Y. destruct (Nat.lt_ge_cases i (length (dJobs s))) as [L|L].
      * rewrite nth_error_app1 in Y by exact L. exact (dv_todo V _ Y).
      * rewrite nth_error_app2 in Y by exact L. destruct (i - length (dJobs s)) as [|[|n]]; [|discriminate Y|discriminate Y].
        injection Y as <-. apply plan_good.
  - destruct (nth_error (dJobs s) j) as [x|] eqn:J; [|discriminate H]. unfold jobStep in H.
    destruct (jTodo x) as [|a r] eqn:T; [discriminate H|]. pose proof (@nth_lt _ _ _ _ J) as L. destruct a as [u ok|u|u|].
    + injection H as <-. destruct (doRegister_spec s u ok) as [E [I _]]. destruct (reg_wf u ok (dv_wf V)) as [W O].
      eapply act_inv; try eassumption; discriminate.
    + injection H as <-. destruct (doUnregister_spec s u) as [E [I _]]. destruct (unreg_wf u (dv_wf V)) as [W O].
      eapply act_inv; try eassumption; discriminate.
    + injection H as <-. destruct (doSubscribe_spec s u) as [E [I _]]. destruct (sub_wf u (dv_wf V)) as [W O].
      eapply act_inv; try eassumption; discriminate.
    + destruct (dSaving s) as [[[i c] t]|] eqn:SV.
      * destruct (Nat.eqb i j) eqn:IJ; [|discriminate H]. apply Nat.eqb_eq in IJ. subst i. destruct (dv_saving V SV) as [A [_ B]].
        destruct t; injection H as <-.
        -- constructor.
           ++ destruct (dv_wf V) as [W1 W2 W3 W4]. constructor; assumption.
           ++ exact A.
           ++ intros i c' t' X. discriminate X.
           ++ intros _ k' NC. cbn [setDJob setFile dFile cont]. assert (Z : agree c s k').
              { apply B. intros i z D Hz Iz. apply NC. exists i, z. split; [|exact Iz]. cbn [setDJob setFile dJobs]. rewrite set_other by assumption. exact Hz. }
              destruct k'; exact Z.
           ++ intros i y Y. cbn [setDJob setFile dJobs] in Y. destruct (set_inv _ _ _ L Y) as [[-> ->]|[D Y']].
              ** pose proof (dv_todo V _ J) as G. destruct x as [td md]. cbn [jTodo] in T. subst td. exact (good_save G).
              ** exact (dv_todo V _ Y').
        -- constructor.
           ++ destruct (dv_wf V) as [W1 W2 W3 W4]. constructor; assumption.
           ++ constructor; cbn; [constructor|constructor|intros u []].
           ++ intros i c' t' X. cbn [setFile dSaving] in X. injection X as <- <- <-. split; [exact A|]. split; [exists x, r; split; assumption|].
              intros k' Hk. pose proof (B k' Hk) as Q. destruct k'; exact Q.
           ++ intros NW. exfalso. apply NW. exists j, c. reflexivity.
           ++ exact (dv_todo V).
      * injection H as <-. constructor.
        -- destruct (dv_wf V) as [W1 W2 W3 W4]. constructor; assumption.
        -- exact (dv_file V).
        -- intros i c t X. cbn [setFile dSaving] in X. injection X as <- <- <-. split; [exact (wfc_listing (dv_wf V))|].
           split; [exists x, r; split; assumption|]. intros k' _. pose proof (agree_listing (dv_wf V) k') as Q. destruct k'; exact Q.
        -- intros _ k' NC. assert (NW : ~ being_written s). { intros [i [c X]]. congruence. }
           pose proof (dv_agree V NW NC) as Q. destruct k'; exact Q.
        -- exact (dv_todo V).
  - injection H as <-. cbn [recovering] in RC. subst rc. exact (restart_inv oks V).
Qed.
Lemma runs_inv os : forall s s', dinv s -> Forall recovering os -> druns s os = Some s' -> dinv s'.
Proof.
  induction os as [|o os IH]; intros s s' V F H; cbn [druns] in H; [injection H as <-; exact V|].
  destruct (dstep s o) as [s1|] eqn:E; [|discriminate H]. inversion F as [|? ? F1 F2]; subst. exact (IH _ _ (step_inv _ V F1 E) F2 H).
Qed.

Lemma in_listing_reg s u : wfm s -> registered s u <-> aget bs_eqb (dReg s) (identReg u) = Some u.
Proof. intro W. rewrite <- (agree_listing W (inl (identReg u)) u). unfold registered. tauto. Qed.
Lemma in_listing_sub s u : wfm s -> subscribed s u <-> aget bs_eqb (dSub s) (ident u) = Some u.
Proof. intro W. rewrite <- (agree_listing W (inr (ident u)) u). unfold subscribed. tauto. Qed.

Lemma survives rsf ssf static refers os s oks :
  Forall recovering os -> druns (dinit rsf ssf static refers) os = Some s -> ~ being_written s ->
  (forall u, ~ changing s (inl (identReg u)) -> (registered (restart s true oks) u <-> registered s u)) /\
  (forall u, ~ changing s (inr (ident u)) -> (subscribed (restart s true oks) u <-> subscribed s u)).
Proof.
  intros F H NW. pose proof (@runs_inv os _ s (init_inv rsf ssf static refers) F H) as V. destruct (restart_spec s oks (dv_file V)) as [W [_ [_ [_ [_ [A _]]]]]].
  split; intros u NC.
  - rewrite (in_listing_reg _ W), (in_listing_reg _ (dv_wf V)). rewrite <- (A (inl (identReg u)) u). exact (dv_agree V NW NC u).
  - rewrite (in_listing_sub _ W), (in_listing_sub _ (dv_wf V)). rewrite <- (A (inr (ident u)) u). exact (dv_agree V NW NC u).
Qed.
Lemma answered_saved rsf ssf static refers os s j x :
  Forall recovering os -> druns (dinit rsf ssf static refers) os = Some s -> nth_error (dJobs s) j = Some x -> jTodo x = [] -> jMod x = [].
Proof.
  intros F H J T. pose proof (@runs_inv os _ s (init_inv rsf ssf static refers) F H) as V. destruct (dv_todo V _ J) as [[_ X]|[r X]]; [exact X|].
  rewrite T in X. destruct r; discriminate X.
Qed.
Lemma answered_quiet rsf ssf static refers os s :
  Forall recovering os -> druns (dinit rsf ssf static refers) os = Some s -> all_answered s -> ~ being_written s /\ forall k, ~ changing s k.
Proof.
  intros F H Q. pose proof (@runs_inv os _ s (init_inv rsf ssf static refers) F H) as V. unfold all_answered in Q. rewrite Forall_forall in Q. split.
  - intros [j [c X]]. destruct (dv_saving V X) as [_ [[x [r [Y1 Y2]]] _]]. pose proof (Q x (nth_error_In _ _ Y1)) as Z. congruence.
  - intros k [j [x [Y1 Y2]]]. pose proof (Q x (nth_error_In _ _ Y1)) as Z. rewrite (@answered_saved rsf ssf static refers os s j x F H Y1 Z) in Y2. exact Y2.
Qed.

(* ---- exports *)
Definition marker : bs := s2b "&registry=".
Lemma identReg_marked u : contains (identReg u) marker = true.
Proof. rewrite identReg_eq. apply contains_spec. exists (identity_of u), (str_or u RegistryKey []). reflexivity. Qed.
Definition marked (s : dst) : Prop := forall k, exported s k -> contains k marker = true.
Record uninv (s : dst) : Prop := {
  un_keys : marked s;
  un_jobs : forall j x u, nth_error (dJobs s) j = Some x -> In (DoUnreg u) (jTodo x) -> contains (ident u) marker = false }.
Lemma register_marked s u ok : marked s -> marked (doRegister s u ok).
Proof.
  intros M k. unfold exported. destruct (doRegister_spec s u ok) as [_ [_ [_ [_ [[_ [X _]]|[_ [_ [_ X]]]]]]]]; rewrite X; [apply M|].
  destruct (aget bs_eqb (dExp s) (identReg (suffixed (dRegSuffix s) u))); [apply M|]. destruct ok; [|apply M].
  rewrite (aget_aset bs_eqb bs_eqb_spec). destruct (bs_eqb k (identReg (suffixed (dRegSuffix s) u))) eqn:K; [|apply M].
  apply bs_eqb_spec in K. subst k. intros _. apply identReg_marked.
Qed.
Lemma subscribe_marked s u : marked s -> marked (doSubscribe s u).
Proof. intros M k. unfold exported. destruct (doSubscribe_spec s u) as [_ [_ [_ [X _]]]]. rewrite X. apply M. Qed.
Lemma started_marked s : marked (started s).
Proof.
  intros k H. unfold exported in H. cbn [started dExp] in H. apply static_exported in H as [H|[u [_ <-]]]; [exfalso; apply H; reflexivity|apply identReg_marked].
Qed.
Lemma recoverAll_marked s c oks : marked s -> marked (recoverAll s c oks) /\ dJobs (recoverAll s c oks) = dJobs s.
Proof.
  intro M. unfold recoverAll.
  assert (A : forall l s, marked s -> marked (fold_left (fun s u => doRegister s u (oks u)) l s) /\ dJobs (fold_left (fun s u => doRegister s u (oks u)) l s) = dJobs s).
  { induction l as [|u l IH]; intros s0 M0; [split; [exact M0|reflexivity]|]. cbn [fold_left]. destruct (IH _ (register_marked u (oks u) M0)) as [X Y].
    split; [exact X|]. rewrite Y. apply (doRegister_spec s0 u (oks u)). }
  assert (B : forall l s, marked s -> marked (fold_left doSubscribe l s) /\ dJobs (fold_left doSubscribe l s) = dJobs s).
  { induction l as [|u l IH]; intros s0 M0; [split; [exact M0|reflexivity]|]. cbn [fold_left]. destruct (IH _ (subscribe_marked u M0)) as [X Y].
    split; [exact X|]. rewrite Y. apply (doSubscribe_spec s0 u). }
  destruct (A (fst c) s M) as [M1 J1]. destruct (B (snd c) _ M1) as [M2 J2]. split; [exact M2|congruence].
Qed.
Lemma restart_un s r oks : uninv (restart s r oks).
Proof.
  assert (X : marked (restart s r oks) /\ dJobs (restart s r oks) = []).
  { unfold restart. destruct r; [destruct (dFile s) as [c|]|].
    - exact (recoverAll_marked c oks (@started_marked s)).
    - split; [apply started_marked|reflexivity].
    - split; [apply started_marked|reflexivity]. }
  destruct X as [M J]. constructor; [exact M|]. intros [|j] x u H; rewrite J in H; discriminate H.
Qed.
Lemma plan_unreg sf r u : In (DoUnreg u) (plan sf r) -> exists us, r = Unregister us /\ In u us.
Proof.
  destruct r as [us|us|us]; cbn [plan]; intro H; apply in_flat_map in H as [x [I H]].
  - destruct H as [H|[H|[]]]; discriminate H.
  - destruct H as [H|[H|[]]]; [|discriminate H]. injection H as <-. exists us. split; [reflexivity|exact I].
  - destruct (negb (bs_eqb sf []) && negb (hasSuffix (uGroup x) sf)).
    + destruct H as [H|[H|[H|[]]]]; discriminate H.
    + destruct H as [H|[H|[]]]; discriminate H.
Qed.
Lemma step_un s o s' : uninv s -> ordinary o -> dstep s o = Some s' ->
  uninv s' /\ (no_crash o -> forall k u, aget bs_eqb (dExp s) k = Some u -> aget bs_eqb (dExp s') k = Some u).
Proof.
  intros V O H. destruct o as [q|j|rc oks]; cbn [dstep] in H.
  - injection H as <-. split; [|intros _ k u G; exact G]. constructor; [exact (un_keys V)|].
    intros i y u Y I. cbn [dJobs] in Y. destruct (Nat.lt_ge_cases i (length (dJobs s))) as [L|L].
    + rewrite nth_error_app1 in Y by exact L. exact (@un_jobs s V _ _ u Y I).
    + rewrite nth_error_app2 in Y by exact L. destruct (i - length (dJobs s)) as [|[|n]]; [|discriminate Y|discriminate Y].
      injection Y as <-. cbn [jTodo] in I. apply plan_unreg in I as [us [-> I]]. cbn [ordinary] in O. rewrite Forall_forall in O. exact (O u I).
  - destruct (nth_error (dJobs s) j) as [x|] eqn:J; [|discriminate H]. unfold jobStep in H.
    destruct (jTodo x) as [|a r] eqn:T; [discriminate H|]. pose proof (@nth_lt _ _ _ _ J) as L.
    assert (JJ : forall y m, jTodo y = a :: r \/ jTodo y = r -> jMod y = m -> forall js, js = list_set (dJobs s) j y -> forall i z u, nth_error js i = Some z -> In (DoUnreg u) (jTodo z) -> contains (ident u) marker = false).
    { intros y m Ty _ js -> i z u Hz Iz. destruct (set_inv _ _ _ L Hz) as [[-> ->]|[D Hz']]; [|exact (@un_jobs s V _ _ u Hz' Iz)].
      apply (@un_jobs s V _ _ u J). rewrite T. destruct Ty as [Ty|Ty]; rewrite Ty in Iz; [exact Iz|right; exact Iz]. }
    destruct a as [u ok|u|u|].
    + injection H as <-. destruct (doRegister_spec s u ok) as [_ [[_ [_ I]] _]]. split.
      * constructor; [exact (register_marked u ok (un_keys V))|]. eapply JJ; [|reflexivity|cbn [setDJob dJobs]; rewrite I; reflexivity]. right. reflexivity.
      * intros _ k v G. cbn [setDJob dExp]. destruct (doRegister_spec s u ok) as [_ [_ [_ [_ [[_ [X _]]|[_ [_ [_ X]]]]]]]]; rewrite X; [exact G|].
        destruct (aget bs_eqb (dExp s) (identReg (suffixed (dRegSuffix s) u))) eqn:Q; [exact G|]. destruct ok; [|exact G].
        rewrite (aget_aset bs_eqb bs_eqb_spec). destruct (bs_eqb k (identReg (suffixed (dRegSuffix s) u))) eqn:K; [|exact G].
        apply bs_eqb_spec in K. congruence.
    + injection H as <-. destruct (doUnregister_spec s u) as [_ [[_ [_ I]] [_ [_ [_ X]]]]].
      assert (NM : contains (ident u) marker = false). { apply (@un_jobs s V _ _ u J). rewrite T. left. reflexivity. }
      assert (Y : forall k, aget bs_eqb (dExp (doUnregister s u)) k = aget bs_eqb (dExp s) k).
      { intro k. destruct X as [X|X]; rewrite X; [reflexivity|]. rewrite (aget_adel bs_eqb bs_eqb_spec). destruct (bs_eqb k (ident u)) eqn:K; [|reflexivity].
        apply bs_eqb_spec in K. subst k. destruct (aget bs_eqb (dExp s) (ident u)) eqn:G; [|reflexivity]. exfalso.
        assert (M : contains (ident u) marker = true) by (apply (un_keys V); unfold exported; congruence). congruence. }
      split.
      * constructor; [|eapply JJ; [|reflexivity|cbn [setDJob dJobs]; rewrite I; reflexivity]; right; reflexivity].
        intros k E. apply (un_keys V). unfold exported in *. cbn [setDJob dExp] in E. rewrite Y in E. exact E.
      * intros _ k v G. cbn [setDJob dExp]. rewrite Y. exact G.
    + injection H as <-. destruct (doSubscribe_spec s u) as [_ [[_ [_ I]] [_ [X _]]]]. split.
      * constructor; [exact (subscribe_marked u (un_keys V))|]. eapply JJ; [|reflexivity|cbn [setDJob dJobs]; rewrite I; reflexivity]. right. reflexivity.
      * intros _ k v G. cbn [setDJob dExp]. rewrite X. exact G.
    + destruct (dSaving s) as [[[i c] t]|].
      * destruct (Nat.eqb i j); [|discriminate H]. destruct t; injection H as <-.
        -- split; [|intros _ k v G; exact G]. constructor; [exact (un_keys V)|]. eapply JJ; [|reflexivity|reflexivity]. right. reflexivity.
        -- split; [|intros _ k v G; exact G]. constructor; [exact (un_keys V)|exact (un_jobs V)].
      * injection H as <-. split; [|intros _ k v G; exact G]. constructor; [exact (un_keys V)|exact (un_jobs V)].
  - injection H as <-. split; [apply restart_un|intros []].
Qed.
Lemma runs_un os : forall s s', uninv s -> Forall ordinary os -> druns s os = Some s' ->
  uninv s' /\ (Forall no_crash os -> forall k u, aget bs_eqb (dExp s) k = Some u -> aget bs_eqb (dExp s') k = Some u).
Proof.
  induction os as [|o os IH]; intros s s' V F H; cbn [druns] in H; [injection H as <-; split; [exact V|tauto]|].
  destruct (dstep s o) as [s1|] eqn:E; [|discriminate H]. inversion F as [|? ? F1 F2]; subst. destruct (step_un _ V F1 E) as [V1 X1].
  destruct (IH _ _ V1 F2 H) as [V2 X2]. split; [exact V2|]. intros N k u G. inversion N as [|? ? N1 N2]; subst. exact (X2 N2 k u (X1 N1 k u G)).
Qed.
Lemma never_unexported rsf ssf static refers os1 s1 os2 s2 k u :
  Forall ordinary (os1 ++ os2) -> Forall no_crash os2 ->
  druns (dinit rsf ssf static refers) os1 = Some s1 -> druns s1 os2 = Some s2 ->
  aget bs_eqb (dExp s1) k = Some u -> aget bs_eqb (dExp s2) k = Some u.
Proof.
  intros F N H1 H2 G. apply Forall_app in F as [F1 F2].
  assert (V : uninv (dinit rsf ssf static refers)).
  { pose proof (@restart_un (mkDst rsf ssf static refers [] [] [] [] None None []) false (fun _ => false)) as X. exact X. }
  destruct (@runs_un os1 _ s1 V F1 H1) as [V1 _]. destruct (@runs_un os2 s1 s2 V1 F2 H2) as [_ X]. exact (X N k u G).
Qed.
Lemma unregister_unlisted rsf ssf static refers os s j x u r s' :
  Forall recovering os -> druns (dinit rsf ssf static refers) os = Some s ->
  nth_error (dJobs s) j = Some x -> jTodo x = DoUnreg u :: r -> dstep s (JobStep j) = Some s' ->
  forall v, identReg v = identReg u -> ~ registered s' v.
Proof.
  intros F H J T ST v E R. pose proof (@runs_inv os _ s (init_inv rsf ssf static refers) F H) as V.
  assert (W : wfm s') by exact (dv_wf (@step_inv s (JobStep j) s' V Logic.I ST)). apply (in_listing_reg _ W) in R.
  cbn [dstep] in ST. rewrite J in ST. unfold jobStep in ST. rewrite T in ST. injection ST as <-. cbn [setDJob dReg] in R.
  destruct (doUnregister_spec s u) as [_ [_ [_ [G _]]]]. rewrite G, E, bs_eqb_refl in R. discriminate R.
Qed.
Lemma exported_after rsf ssf static refers os s oks k :
  Forall recovering os -> druns (dinit rsf ssf static refers) os = Some s -> ~ being_written s -> ~ changing s (inl k) ->
  exported (restart s true oks) k <-> configured s k \/ exists u, registered s u /\ oks u = true /\ identReg u = k.
Proof.
  intros F H NW NC. pose proof (@runs_inv os _ s (init_inv rsf ssf static refers) F H) as V.
  destruct (restart_spec s oks (dv_file V)) as [_ [_ [_ [_ [_ [_ X]]]]]]. rewrite X. pose proof (dv_agree V NW NC) as A. cbn [agree] in A. split.
  - intros [C|[u [U1 [U2 U3]]]]; [left; exact C|right]. exists u. split; [|split; assumption]. apply (in_listing_reg _ (dv_wf V)). rewrite U3. apply A. split; assumption.
  - intros [C|[u [U1 [U2 U3]]]]; [left; exact C|right]. exists u. split; [|split; assumption]. apply (in_listing_reg _ (dv_wf V)) in U1. rewrite U3 in U1. apply A in U1. apply U1.
Qed.

(* ---- status *)
Record tinv (s : tst) : Prop := {
  tv_file : tFile s = None \/ tFile s = Some [] \/ tFile s = Some savedStatus;
  tv_done : (exists x, In x (tJobs s) /\ finished x) -> Forall status_written (tJobs s) -> tFile s = Some savedStatus }.
Lemma In_set {A} (l : list A) i x y : In y (list_set l i x) -> y = x \/ In y l.
Proof.
  revert i. induction l as [|a l IH]; intros [|i] H; cbn [list_set] in H; try (destruct H; fail).
  - destruct H as [H|H]; [left; symmetry; exact H|right; right; exact H].
  - destruct H as [H|H]; [right; left; exact H|]. destruct (IH _ H) as [X|X]; [left; exact X|right; right; exact X].
Qed.
Lemma set_others_written l j (x y : bool * spc) : nth_error l j = Some x -> status_written x -> Forall status_written (list_set l j y) -> Forall status_written l.
Proof.
  intros J W F. apply Forall_forall. intros z I. apply In_nth_error in I as [i I]. destruct (Nat.eq_dec i j) as [->|D]; [congruence|].
  rewrite Forall_forall in F. apply F. apply (nth_error_In _ i). rewrite set_other; [exact I|exact (@nth_lt _ _ _ _ J)|exact D].
Qed.
Lemma tstep_inv s o s' : tinv s -> tstep s o = Some s' -> tinv s'.
Proof.
  intros V H. destruct o as [b|j|rc]; cbn [tstep] in H.
  - injection H as <-. constructor; [exact (tv_file V)|]. cbn [tJobs tFile]. intros [x [I F]] W. apply Forall_app in W as [W _]. apply (tv_done V); [|exact W].
    apply in_app_iff in I as [I|[<-|[]]]; [exists x; split; assumption|discriminate F].
  - destruct (nth_error (tJobs s) j) as [[b p]|] eqn:J; [|discriminate H]. destruct p; [| | | |discriminate H]; injection H as <-.
    + constructor; [exact (tv_file V)|]. cbn [tJobs tFile]. intros [x [I F]] W. apply (tv_done V).
      * destruct (In_set _ _ _ _ I) as [->|I']; [discriminate F|exists x; split; assumption].
      * eapply set_others_written; [exact J|discriminate|exact W].
    + constructor; [exact (tv_file V)|]. cbn [tJobs tFile]. intros [x [I F]] W. apply (tv_done V).
      * destruct (In_set _ _ _ _ I) as [->|I']; [discriminate F|exists x; split; assumption].
      * eapply set_others_written; [exact J|discriminate|exact W].
    + constructor; [right; left; reflexivity|]. cbn [tJobs tFile]. intros _ W. exfalso. rewrite Forall_forall in W.
      assert (X : status_written (b, STruncated)). { apply W. apply (nth_error_In _ j). apply set_same. exact (@nth_lt _ _ _ _ J). }
      apply X. reflexivity.
    + constructor; [right; right; reflexivity|]. intros _ _. reflexivity.
  - injection H as <-. constructor; [exact (tv_file V)|]. intros [x [[] _]].
Qed.
Lemma truns_inv os : forall s s', tinv s -> truns s os = Some s' -> tinv s'.
Proof.
  induction os as [|o os IH]; intros s s' V H; cbn [truns] in H; [injection H as <-; exact V|].
  destruct (tstep s o) as [s1|] eqn:E; [|discriminate H]. exact (IH _ _ (tstep_inv _ V E) H).
Qed.
Lemma tinit_inv : tinv tinit.
Proof. constructor; [left; reflexivity|]. intros [x [[] _]]. Qed.
Lemma recovered_status os s x : truns tinit os = Some s -> In x (tJobs s) -> finished x -> Forall status_written (tJobs s) ->
  exists s', tstep s (TCrash true) = Some s' /\ tStatus s' = 200%Z /\ tServices s' = true.
Proof.
  intros H I F W. pose proof (@truns_inv os _ s tinit_inv H) as V. cbn [tstep]. rewrite (tv_done V (ex_intro _ x (conj I F)) W).
  eexists. split; [reflexivity|]. cbn [tStatus tServices]. split; vm_compute; reflexivity.
Qed.

(* ---- clusters of subscriptions *)
Definition cinv (rf : list url) (s : dst) : Prop :=
  dRefers s = rf /\ (forall k u, In (k, u) (dSub s) -> k = ident u) /\ NoDup (akeys (dSub s)) /\ NoDup (map ident (dClusters s)) /\ (forall u, In u (dClusters s) <-> In u (map snd (dSub s)) /\ urlExist u rf = false).
Lemma cinv_same rf s s' : dRefers s' = dRefers s -> dSub s' = dSub s -> dClusters s' = dClusters s -> cinv rf s -> cinv rf s'.
Proof. unfold cinv. intros -> -> ->. auto. Qed.
Lemma cinv_sub rf s u : cinv rf s -> cinv rf (doSubscribe s u).
Proof.
  intros (R & K & N & D & E). unfold doSubscribe. destruct (aget bs_eqb (dSub s) (ident u)) as [v|] eqn:A; [repeat split; try assumption; apply E; assumption|].
  assert (NK : ~ In (ident u) (akeys (dSub s))) by (apply (aget_None bs_eqb bs_eqb_spec); exact A).
  assert (S : forall x, In x (map snd (aset bs_eqb (dSub s) (ident u) u)) <-> In x (map snd (dSub s)) \/ x = u).
  { intro x. rewrite !In_snd. split.
    - intros [k I]. apply (In_aget bs_eqb bs_eqb_spec) in I; [|apply NoDup_aset; [exact bs_eqb_spec|exact N]]. rewrite (aget_aset bs_eqb bs_eqb_spec) in I. destruct (bs_eqb k (ident u)); [injection I as <-; auto|].
      left. exists k. apply (aget_In bs_eqb bs_eqb_spec). exact I.
    - intros [[k I]| ->].
      + exists k. apply (aget_In bs_eqb bs_eqb_spec). rewrite (aget_aset bs_eqb bs_eqb_spec). destruct (bs_eqb k (ident u)) eqn:B; [|apply (In_aget bs_eqb bs_eqb_spec); assumption].
        apply bs_eqb_spec in B. subst k. exfalso. apply NK. apply in_map_iff. exists (ident u, x). auto.
      + exists (ident u). apply (aget_In bs_eqb bs_eqb_spec). rewrite (aget_aset bs_eqb bs_eqb_spec), bs_eqb_refl. reflexivity. }
  split; [exact R|]. cbn [dSub dClusters dRefers]. split; [|split; [apply NoDup_aset; [exact bs_eqb_spec|exact N]|]].
  - intros k x I. apply (In_aget bs_eqb bs_eqb_spec) in I; [|apply NoDup_aset; [exact bs_eqb_spec|exact N]]. rewrite (aget_aset bs_eqb bs_eqb_spec) in I. destruct (bs_eqb k (ident u)) eqn:B.
    + injection I as <-. apply bs_eqb_spec in B. exact B.
    + apply K. apply (aget_In bs_eqb bs_eqb_spec). exact I.
  - rewrite R. destruct (urlExist u rf) eqn:X.
    + split; [exact D|]. intro x. rewrite E, S. split; [tauto|]. intros [[I| ->] Y]; [auto|congruence].
    + assert (NC : ~ In (ident u) (map ident (dClusters s))).
      { intro I. apply in_map_iff in I as (x & Ix & I). apply E in I as [I _]. apply In_snd in I as [k I]. pose proof (K _ _ I) as Kx. apply NK. apply in_map_iff. exists (k, x). split; [cbn [fst]; rewrite Kx; exact Ix|exact I]. }
      split.
      * rewrite map_app. cbn [map]. apply (Permutation.Permutation_NoDup (Permutation.Permutation_cons_append _ _)). constructor; assumption.
      * intro x. rewrite in_app_iff, E, S. cbn [In]. split; [intros [[I Y]|[<-|[]]]; auto|]. intros [[I| ->] Y]; auto.
Qed.
Lemma cinv_reg rf s u ok : cinv rf s -> cinv rf (doRegister s u ok).
Proof.
  apply cinv_same; unfold doRegister; destruct (aget bs_eqb (dReg s) _); try reflexivity; destruct (urlExist _ (dStatic s)); try reflexivity; unfold doExport; cbn; destruct (aget bs_eqb (dExp s) _); try reflexivity; destruct ok; reflexivity.
Qed.
Lemma cinv_unreg rf s u : cinv rf s -> cinv rf (doUnregister s u).
Proof.
  apply cinv_same; unfold doUnregister; destruct (aget bs_eqb (dReg s) _); try reflexivity; unfold doUnexport; destruct (urlExist u (dStatic s)); reflexivity.
Qed.
Lemma cinv_started rf s : dRefers s = rf -> cinv rf (started s).
Proof. intro R. split; [exact R|]. split; [intros k u []|]. split; [constructor|]. split; [constructor|]. intro u. cbn. tauto. Qed.
Lemma cinv_restart rf s r oks : dRefers s = rf -> cinv rf (restart s r oks).
Proof.
  intro R. unfold restart. destruct r; [|exact (cinv_started _ R)]. destruct (dFile s) as [c|]; [|exact (cinv_started _ R)]. unfold recoverAll.
  assert (A : forall l s, cinv rf s -> cinv rf (fold_left (fun s u => doRegister s u (oks u)) l s)) by (induction l as [|u l IH]; intros s0 C; [exact C|]; cbn [fold_left]; apply IH, cinv_reg, C).
  assert (B : forall l s, cinv rf s -> cinv rf (fold_left doSubscribe l s)) by (induction l as [|u l IH]; intros s0 C; [exact C|]; cbn [fold_left]; apply IH, cinv_sub, C).
  apply B, A, cinv_started, R.
Qed.
Lemma cinv_step rf s o s' : cinv rf s -> dstep s o = Some s' -> cinv rf s'.
Proof.
  intros C H. destruct o as [r|j|r oks]; cbn [dstep] in H.
  - injection H as <-. revert C. apply cinv_same; reflexivity.
  - destruct (nth_error (dJobs s) j) as [x|]; [|discriminate H]. unfold jobStep in H. destruct (jTodo x) as [|[u ok|u|u|] t]; [discriminate H| | | |].
    + injection H as <-. apply (cinv_same (s := doRegister s u ok)); try reflexivity. apply cinv_reg, C.
    + injection H as <-. apply (cinv_same (s := doUnregister s u)); try reflexivity. apply cinv_unreg, C.
    + injection H as <-. apply (cinv_same (s := doSubscribe s u)); try reflexivity. apply cinv_sub, C.
    + destruct (dSaving s) as [[[i c] b]|]; [|injection H as <-; revert C; apply cinv_same; reflexivity]. destruct (Nat.eqb i j); [|discriminate H]. destruct b; injection H as <-; revert C; apply cinv_same; reflexivity.
  - injection H as <-. apply cinv_restart. apply C.
Qed.
Lemma one_cluster rsf ssf st rf os s : druns (dinit rsf ssf st rf) os = Some s ->
  NoDup (map ident (dClusters s)) /\ (forall u, In u (dClusters s) <-> subscribed s u /\ ~ exists r, In r rf /\ ident r = ident u).
Proof.
  assert (G : forall os s0 s, cinv rf s0 -> druns s0 os = Some s -> cinv rf s).
  { clear. induction os as [|o os IH]; intros s0 s C H; cbn [druns] in H; [injection H as <-; exact C|]. destruct (dstep s0 o) as [s1|] eqn:E; [|discriminate H]. exact (IH _ _ (cinv_step _ C E) H). }
  intro H. apply G in H; [|apply cinv_started; reflexivity]. destruct H as (_ & _ & _ & D & E). split; [exact D|]. intro u. rewrite E. unfold subscribed, listing. cbn [snd].
  assert (X : urlExist u rf = false <-> ~ exists r, In r rf /\ ident r = ident u).
  { unfold urlExist. split.
    - intros F (r & I & J). assert (T : existsb (fun v => bs_eqb (ident u) (ident v)) rf = true) by (apply existsb_exists; exists r; rewrite J, bs_eqb_refl; auto). congruence.
    - intro N. destruct (existsb _ rf) eqn:T; [|reflexivity]. apply existsb_exists in T as (r & I & J). apply bs_eqb_spec in J. contradiction N. exists r. auto. }
  rewrite X. tauto.
Qed.

Lemma unavailable_first os : forall s, truns tinit os = Some s -> ~ In (TCall true) os -> ~ In (TCrash true) os -> tStatus s = 503%Z /\ tServices s = false.
Proof.
  assert (G : forall os s s', truns s os = Some s' -> ~ In (TCall true) os -> ~ In (TCrash true) os ->
    tStatus s = 503%Z -> tServices s = false -> (forall x, In x (tJobs s) -> fst x = false) -> tStatus s' = 503%Z /\ tServices s' = false).
  { clear os. induction os as [|o os IH]; intros s s' H N1 N2 A B C; cbn [truns] in H; [injection H as <-; auto|].
    destruct (tstep s o) as [s1|] eqn:E; [|discriminate H]. assert (M1 : ~ In (TCall true) os) by (intro X; apply N1; right; exact X).
    assert (M2 : ~ In (TCrash true) os) by (intro X; apply N2; right; exact X). apply (IH s1 s' H M1 M2); clear IH H; destruct o as [[]|j|[]]; cbn [tstep] in E;
      try (exfalso; apply N1; left; reflexivity); try (exfalso; apply N2; left; reflexivity);
      try (injection E as <-; cbn [tStatus tServices tJobs]; auto; try reflexivity; fail).
    - destruct (nth_error (tJobs s) j) as [[b c]|] eqn:J; [|discriminate E]. apply nth_error_In in J. apply C in J. cbn [fst] in J. subst b. destruct c; try discriminate E; injection E as <-; cbn [tStatus]; auto.
    - destruct (nth_error (tJobs s) j) as [[b c]|] eqn:J; [|discriminate E]. apply nth_error_In in J. apply C in J. cbn [fst] in J. subst b. destruct c; try discriminate E; injection E as <-; cbn [tServices]; auto.
    - injection E as <-. cbn [tJobs]. intros x I. apply in_app_or in I as [I|[<-|[]]]; auto.
    - destruct (nth_error (tJobs s) j) as [[b c]|] eqn:J; [|discriminate E]. pose proof (nth_error_In _ _ J) as K. apply C in K. cbn [fst] in K. subst b.
      assert (L : forall v, (forall x, In x (list_set (tJobs s) j (false, v)) -> fst x = false)).
      { intros v x I. apply In_nth_error in I as (i & I). rewrite list_set_nth_error in I by (apply nth_error_Some; congruence). destruct (Nat.eqb i j); [injection I as <-; reflexivity|]. apply C. exact (nth_error_In _ _ I). }
      destruct c; try discriminate E; injection E as <-; cbn [tJobs]; apply L.
    - injection E as <-. cbn [tJobs]. intros x []. }
  intros s H N1 N2. apply (G os tinit s H N1 N2); try reflexivity. intros x [].
Qed.
