(* MsProofs.v: proofs about the server context. *)
From Verif Require Import Base Strconv GoStrings GoStrings2 UrlModel UrlSpec UrlProofs ServerModel ServerSpec ServerProofs MsModel MsSpec.
From Coq Require Import Permutation Lia.
Ltac Zify.zify_post_hook ::= idtac.

Lemma getParam_text u k : getParam u k [] = text u k.
Proof. rewrite getParam_str_or. unfold str_or, text. destruct (param u k) as [[|x r]|]; reflexivity. Qed.
Lemma pgetD_text u k : pgetD (uParams u) k = text u k.
Proof. unfold pgetD, text. rewrite pget_param. reflexivity. Qed.
Lemma trimSplit_pieces e sep : sep <> [] -> forall x, In x (trimSplit e sep) -> x <> [].
Proof.
  intros H x I. rewrite (trimSplit_spec e sep H) in I. apply filter_In in I. destruct I as [_ N]. intros ->. cbn in N. discriminate N.
Qed.
Lemma exportText_setting u : exportText u = setting u.
Proof.
  unfold exportText, setting. rewrite getParam_text. pose proof (trimSplit_pieces (text u (s2b "export")) (s2b ":") ltac:(discriminate)) as P.
  destruct (text u (s2b "export")) as [|x r] eqn:E; [reflexivity|]. cbn [bs_empty]. destruct (trimSplit (x :: r) (s2b ":")) as [|a [|b [|c l]]]; try reflexivity.
  destruct a as [|y t]; [exfalso; exact (P [] (or_introl eq_refl) eq_refl)|reflexivity].
Qed.
Lemma serverKey_spot u : serverKey u (snd (setting u)) = spot u.
Proof. unfold serverKey, spot. rewrite !getParam_text. destruct (hasPrefix _ _); [reflexivity|]. destruct (text u (s2b "unixSock")); reflexivity. Qed.
Lemma providerName_asked u : providerName u = asked_provider u.
Proof. unfold providerName, asked_provider. rewrite !getParam_text. destruct (text u (s2b "provider")); [|reflexivity]. destruct (text u (s2b "proxy")); reflexivity. Qed.
Lemma text_params u w k : uParams u = uParams w -> text u k = text w k.
Proof. intro E. unfold text, param. rewrite E. reflexivity. Qed.
Lemma asked_params u w : uParams u = uParams w -> asked_provider u = asked_provider w.
Proof. intro E. unfold asked_provider. rewrite !(text_params u w) by exact E. reflexivity. Qed.
Lemma listenAddr_settled V u : listenAddr (settled V u) = listens_at V u.
Proof.
  unfold listenAddr, listens_at. rewrite getParam_text, pgetD_text. change (text (settled V u)) with (text u). destruct (text u (s2b "unixSock")); reflexivity.
Qed.
Lemma isSame_text u w k : isSame (uParams u) (uParams w) k [] = bs_eqb (text u k) (text w k).
Proof.
  unfold isSame, text. rewrite <- !pget_param. destruct (uParams u), (uParams w); try reflexivity; try (cbn [pget]; destruct (aget _ _ _); reflexivity).
Qed.
Lemma canShare_text u w : canShare u w = bs_eqb (uProtocol u) (uProtocol w) && bs_eqb (text u (s2b "serialization")) (text w (s2b "serialization")).
Proof. unfold canShare. rewrite isSame_text. destruct (bs_eqb (uProtocol u) (uProtocol w)); reflexivity. Qed.

Lemma putParam_protocol u kv : uProtocol (ServerModel.putParam u kv) = uProtocol u.
Proof. reflexivity. Qed.
Lemma exportUrl_protocol X u : uProtocol (exportUrl X u) = uProtocol u.
Proof.
  unfold exportUrl. cbv zeta. rewrite putParam_protocol. destruct (getBoolValue u URLRegisterMeta false); [|reflexivity].
  revert u. induction (x_meta X) as [|m r IH]; intro u; [reflexivity|]. cbn [fold_left]. rewrite IH. reflexivity.
Qed.
Lemma announced_protocol V u : uProtocol (announced V u) = fst (setting u).
Proof. unfold announced. rewrite exportUrl_protocol. reflexivity. Qed.

Lemma evOf_regs V w rs : flat_map (evOf V) (map (fun r => Reg r w) rs) = map (fun r => Register (v_rid V r) w) rs.
Proof. induction rs as [|r rs IH]; [reflexivity|]. cbn [map flat_map evOf app]. rewrite IH. reflexivity. Qed.

(* ---- one export *)
Definition regEvents (V : menv) (u : url) : list mev :=
  match configured (v_x V) (announced V u) with Some rs => map (fun r => Register (v_rid V r) (announced V u)) rs | None => [] end.
Definition regsOf (V : menv) (u : url) : list nat := match configured (v_x V) (announced V u) with Some rs => rs | None => [] end.

Lemma doExport_eq V s k u : doExport V s k (settled V u) =
  mkMst (aset bs_eqb (c_urls s) k (announced V u)) (c_impls s) (c_servers s) (fold_left (keepReg V) (regsOf V u) (c_regs s)) (c_status s) (c_log s ++ regEvents V u).
Proof.
  unfold doExport, export, initExp, regEvents, regsOf. cbn [e_exported e_prov]. cbv zeta. rewrite chosen_configured. fold (announced V u).
  destruct (configured (v_x V) (announced V u)) as [rs|]; cbn [e_url e_log e_regs app]; unfold say, setUrl; cbn [c_urls c_impls c_servers c_regs c_status c_log fold_left flat_map].
  - rewrite evOf_regs. reflexivity.
  - reflexivity.
Qed.

Definition after (V : menv) (s : mst) (k : bs) (u : url) (a : bs) (sv : msrv) (ev : list mev) : mst :=
  mkMst (aset bs_eqb (aset bs_eqb (c_urls s) k (settled V u)) k (announced V u)) (c_impls s) (aset bs_eqb (c_servers s) a sv)
        (fold_left (keepReg V) (regsOf V u) (c_regs s)) (c_status s) ((c_log s ++ ev) ++ regEvents V u).

Lemma exportOne_eq V lis s k u im : aget bs_eqb (c_urls s) k = Some u -> aget bs_eqb (c_impls s) (text u (s2b "ref")) = Some im ->
  exportOne V lis s k =
  match spot u with
  | None => setUrl s k (mkUrl (fst (setting u)) (uHost u) (uPort u) (uPath u) (uGroup u) (uParams u))
  | Some (a, z) =>
      if negb (v_prov V (asked_provider u)) then setUrl s k (settled V u)
      else match aget bs_eqb (c_servers s) a with
           | None => if negb (v_srv V (fst (setting u))) then setUrl s k (settled V u)
                     else after V s k u a (mkSrv k (lis k) (if lis k then [(uPath u, (k, im))] else [])) [Listen (listens_at V u) (lis k)]
           | Some sv =>
               match aget bs_eqb (aset bs_eqb (c_urls s) k (settled V u)) (m_owner sv) with
               | None => setUrl s k (settled V u)
               | Some w => if canShare (settled V u) w && m_ok sv
                           then after V s k u a (mkSrv (m_owner sv) true (aset bs_eqb (m_table sv) (uPath u) (k, im))) []
                           else setUrl s k (settled V u)
               end
           end
  end.
Proof.
  intros U I. unfold exportOne. rewrite U, pgetD_text, I, exportText_setting. destruct (setting u) as [pr po] eqn:S.
  replace (MsModel.serverKey u po) with (spot u) by (rewrite <- serverKey_spot, S; reflexivity). cbn [fst]. destruct (spot u) as [[a z]|] eqn:P; [|reflexivity].
  assert (E2 : mkUrl pr (if bs_empty (uHost u) then v_ip V else uHost u) z (uPath u) (uGroup u) (uParams u) = settled V u).
  { unfold settled. rewrite S, P. destruct (uHost u); reflexivity. }
  rewrite E2, providerName_asked, (asked_params (settled V u) u eq_refl). cbv zeta. cbn [setUrl c_servers c_urls].
  destruct (negb (v_prov V (asked_provider u))); [reflexivity|]. destruct (aget bs_eqb (c_servers s) a) as [sv|].
  - destruct (aget bs_eqb (aset bs_eqb (c_urls s) k (settled V u)) (m_owner sv)) as [w|]; [|reflexivity].
    destruct (canShare (settled V u) w); [|reflexivity]. destruct (m_ok sv); [|reflexivity]. cbn [andb]. rewrite doExport_eq. unfold after, setServer, setUrl.
    cbn [c_urls c_impls c_servers c_regs c_status c_log]. rewrite app_nil_r. reflexivity.
  - destruct (negb (v_srv V pr)); [reflexivity|]. rewrite doExport_eq, listenAddr_settled. reflexivity.
Qed.

(* ---- registries remembered *)
Lemma keepRegs V rs : forall m, NoDup (akeys m) -> NoDup (akeys (fold_left (keepReg V) rs m)) /\
  (forall r, In r (akeys (fold_left (keepReg V) rs m)) <-> In r (akeys m) \/ In r (map (v_rid V) rs)).
Proof.
  induction rs as [|x rs IH]; intros m N; [split; [exact N|intro r; cbn; tauto]|]. cbn [fold_left map].
  assert (N1 : NoDup (akeys (keepReg V m x))). { unfold keepReg. destruct (aget bs_eqb m (v_rid V x)); [exact N|apply (NoDup_aset bs_eqb bs_eqb_spec), N]. }
  assert (K : forall r, In r (akeys (keepReg V m x)) <-> In r (akeys m) \/ r = v_rid V x).
  { intro r. unfold keepReg. destruct (aget bs_eqb m (v_rid V x)) eqn:A.
    - split; [tauto|]. intros [H| ->]; [exact H|]. apply aget_In in A; [|exact bs_eqb_spec]. unfold akeys. apply in_map_iff. exists (v_rid V x, n). auto.
    - rewrite (akeys_aset bs_eqb). destruct (existsb (bs_eqb (v_rid V x)) (akeys m)) eqn:E.
      + apply existsb_eqb_In in E; [|exact bs_eqb_spec]. apply aget_None in A; [|exact bs_eqb_spec]. contradiction.
      + rewrite in_app_iff. cbn [In]. intuition congruence. }
  destruct (IH _ N1) as [I1 I2]. split; [exact I1|]. intro r. rewrite I2, K. cbn [In]. intuition congruence.
Qed.

(* ---- the specification along a prefix *)
Section run.
  Variables (V : menv) (lis : bs -> bool) (urls : list (bs * url)) (impls : list (bs * nat)).
  Local Notation cand := (candidate V urls impls).
  Local Notation hold := (holder V urls impls).
  Local Notation expd := (exported V lis urls impls).

  Lemma find_app {A} (f : A -> bool) l1 l2 : find f (l1 ++ l2) = match find f l1 with Some x => Some x | None => find f l2 end.
  Proof. induction l1 as [|x l1 IH]; [reflexivity|]. cbn [app find]. destruct (f x); [reflexivity|exact IH]. Qed.

  Lemma hold_app d k a : hold (d ++ [k]) a = match hold d a with Some h => Some h | None => if cand k && placed urls k a then Some k else None end.
  Proof. unfold holder. rewrite find_app. cbn [find]. destruct (find _ d); [reflexivity|]. destruct (cand k && placed urls k a); reflexivity. Qed.
  Lemma hold_In d a h : hold d a = Some h -> In h d /\ cand h = true /\ placed urls h a = true.
  Proof. unfold holder. intro H. apply find_some in H. destruct H as [I H]. apply andb_true_iff in H. tauto. Qed.
  Lemma hold_none d a k : hold d a = None -> In k d -> cand k = true -> placed urls k a = false.
  Proof. unfold holder. intros H I C. pose proof (find_none _ _ H k I) as F. cbv beta in F. rewrite C in F. exact F. Qed.
  Lemma cand_inv k : cand k = true -> exists u im a z, aget bs_eqb urls k = Some u /\ aget bs_eqb impls (text u (s2b "ref")) = Some im /\ impl_of urls impls k = Some im /\
    spot u = Some (a, z) /\ v_prov V (asked_provider u) = true /\ v_srv V (fst (setting u)) = true.
  Proof.
    unfold candidate, impl_of. destruct (aget bs_eqb urls k) as [u|] eqn:U; [|discriminate]. destruct (aget bs_eqb impls (text u (s2b "ref"))) as [im|] eqn:I; [|discriminate].
    destruct (spot u) as [[a z]|] eqn:P; [|discriminate]. intro H. apply andb_true_iff in H. destruct H. exists u, im, a, z. repeat split; assumption.
  Qed.
  Lemma placed_place k a : placed urls k a = true <-> place_of urls k = Some a.
  Proof.
    unfold placed, place_of. destruct (aget bs_eqb urls k) as [u|]; [|split; discriminate]. destruct (spot u) as [[b z]|]; cbn [option_map fst]; [|split; discriminate].
    rewrite bs_eqb_spec. split; congruence.
  Qed.

  Lemma exp_placed d k a : place_of urls k = Some a -> expd d k =
    match hold d a with Some h => bs_eqb k h || (negb (bs_eqb k h) && cand k && lis h && agree V urls k h) | None => false end.
  Proof. intro P. unfold exported, opens, joins. rewrite P. destruct (hold d a); reflexivity. Qed.
  Lemma exp_unplaced d k : place_of urls k = None -> expd d k = false.
  Proof. intro P. unfold exported, opens, joins. rewrite P. reflexivity. Qed.

  Lemma exp_stable d k j : ~ In k d -> In j d -> expd (d ++ [k]) j = expd d j.
  Proof.
    intros N J. destruct (place_of urls j) as [a|] eqn:P; [|rewrite !exp_unplaced by exact P; reflexivity]. rewrite !(exp_placed _ j a P), hold_app.
    destruct (hold d a) as [h|] eqn:H; [reflexivity|]. destruct (cand k && placed urls k a); [|reflexivity].
    destruct (bs_eqb j k) eqn:E; [apply bs_eqb_spec in E; subst; contradiction|]. cbn [orb negb andb]. destruct (cand j) eqn:C; [|reflexivity].
    apply placed_place in P. rewrite (hold_none d a j H J C) in P. discriminate P.
  Qed.
  Lemma exp_cand d k : expd d k = true -> cand k = true.
  Proof.
    destruct (place_of urls k) as [a|] eqn:P; [|rewrite exp_unplaced by exact P; discriminate]. rewrite (exp_placed d k a P). destruct (hold d a) as [h|] eqn:H; [|discriminate].
    destruct (bs_eqb k h) eqn:E; [apply bs_eqb_spec in E; subst; intros _; apply (hold_In d a h H)|]. cbn [orb negb andb]. destruct (cand k); [reflexivity|discriminate].
  Qed.
  Lemma exp_filter d k : ~ In k d -> filter (expd (d ++ [k])) (d ++ [k]) = filter (expd d) d ++ (if expd (d ++ [k]) k then [k] else []).
  Proof. intro N. rewrite filter_app. f_equal. apply filter_ext_in. intros j J. apply exp_stable; assumption. Qed.

  Lemma opens_stable d k j : ~ In k d -> In j d -> opens V urls impls (d ++ [k]) j = opens V urls impls d j.
  Proof.
    intros N J. unfold opens. destruct (place_of urls j) as [a|]; [|reflexivity]. rewrite hold_app. destruct (hold d a); [reflexivity|].
    destruct (cand k && placed urls k a); [|reflexivity]. apply bs_eqb_neq. congruence.
  Qed.
  Lemma opens_filter d k : ~ In k d -> filter (opens V urls impls (d ++ [k])) (d ++ [k]) = filter (opens V urls impls d) d ++ (if opens V urls impls (d ++ [k]) k then [k] else []).
  Proof. intro N. rewrite filter_app. f_equal. apply filter_ext_in. intros j J. apply opens_stable; assumption. Qed.

  Lemma find_ext_in {A} (f g : A -> bool) l : (forall x, In x l -> f x = g x) -> find f l = find g l.
  Proof. induction l as [|x l IH]; intro H; [reflexivity|]. cbn [find]. rewrite (H x (or_introl eq_refl)), IH; [reflexivity|intros y Y; apply H; right; exact Y]. Qed.

  Local Notation lisAt d a := (match hold d a with Some h => lis h | None => false end).
  Lemma serving_app d k a p : ~ In k d -> serving V lis urls impls (d ++ [k]) a p =
    if expd (d ++ [k]) k && placed urls k a && path_is urls k p && lisAt (d ++ [k]) a then option_map (fun i => (k, i)) (impl_of urls impls k)
    else serving V lis urls impls d a p.
  Proof.
    intro N. unfold serving. rewrite rev_app_distr. cbn [rev app find]. destruct (expd (d ++ [k]) k && placed urls k a && path_is urls k p && lisAt (d ++ [k]) a); [reflexivity|].
    rewrite (find_ext_in _ (fun j => expd d j && placed urls j a && path_is urls j p && lisAt d a)); [reflexivity|].
    intros j J. apply in_rev in J. rewrite exp_stable by assumption. rewrite hold_app. destruct (hold d a) as [h|] eqn:H; [reflexivity|].
    destruct (expd d j) eqn:E; [|reflexivity]. destruct (placed urls j a) eqn:P; [|reflexivity]. exfalso.
    pose proof (exp_cand _ _ E) as C. rewrite (hold_none d a j H J C) in P. discriminate P.
  Qed.

  (* ---- the invariant *)
  Record inv (s0 : mst) (d : list bs) (s : mst) : Prop := {
    i_impls : c_impls s = impls;
    i_status : c_status s = c_status s0;
    i_urls : forall k, ~ In k d -> aget bs_eqb (c_urls s) k = aget bs_eqb urls k;
    i_none : forall a, hold d a = None -> aget bs_eqb (c_servers s) a = None;
    i_some : forall a h, hold d a = Some h -> exists sv, aget bs_eqb (c_servers s) a = Some sv /\ m_owner sv = h /\ m_ok sv = lis h /\
               forall p, aget bs_eqb (m_table sv) p = serving V lis urls impls d a p;
    i_owner : forall a h w, hold d a = Some h -> aget bs_eqb urls h = Some w -> aget bs_eqb (c_urls s) h = Some (announced V w);
    i_reg : filter is_register (c_log s) = filter is_register (c_log s0) ++ flat_map (registrations V urls) (filter (expd d) d);
    i_lis : filter is_listen (c_log s) = filter is_listen (c_log s0) ++ flat_map (listening V lis urls) (filter (opens V urls impls d) d);
    i_rest : filter (fun e => negb (is_register e) && negb (is_listen e)) (c_log s) = filter (fun e => negb (is_register e) && negb (is_listen e)) (c_log s0);
    i_nodup : NoDup (akeys (c_regs s));
    i_regs : forall r, In r (akeys (c_regs s)) <-> exists u, In (Register r u) (flat_map (registrations V urls) (filter (expd d) d))
  }.

  Lemma regEvents_registrations k u : aget bs_eqb urls k = Some u -> registrations V urls k = regEvents V u.
  Proof. intro U. unfold registrations. rewrite U. reflexivity. Qed.
  Lemma regEvents_filter u : filter is_register (regEvents V u) = regEvents V u /\ filter is_listen (regEvents V u) = [] /\
    filter (fun e => negb (is_register e) && negb (is_listen e)) (regEvents V u) = [].
  Proof.
    unfold regEvents. destruct (configured (v_x V) (announced V u)) as [rs|]; [|repeat split].
    induction rs as [|r rs (I1 & I2 & I3)]; [repeat split|]. cbn [map filter is_register is_listen negb andb]. rewrite I1, I2, I3. repeat split.
  Qed.
  Lemma regEvents_regs u r : (exists w, In (Register r w) (regEvents V u)) <-> In r (map (v_rid V) (regsOf V u)).
  Proof.
    unfold regEvents, regsOf. destruct (configured (v_x V) (announced V u)) as [rs|]; [|split; [intros [w []]|intros []]]. rewrite in_map_iff. split.
    - intros [w I]. apply in_map_iff in I. destruct I as (x & E & I). injection E as <- <-. exists x. auto.
    - intros (x & <- & I). exists (announced V u). apply in_map_iff. exists x. auto.
  Qed.

  (* a step that leaves everything but the url of k *)
  Lemma inv_quiet s0 d s k u' : inv s0 d s -> ~ In k d -> expd (d ++ [k]) k = false -> inv s0 (d ++ [k]) s -> inv s0 (d ++ [k]) (setUrl s k u').
  Proof.
    intros _ N X [A B C D E F G H H2 J K]. constructor; try assumption.
    - intros j NJ. cbn [setUrl c_urls]. rewrite (aget_aset bs_eqb bs_eqb_spec). rewrite (proj2 (bs_eqb_neq j k)); [apply C, NJ|]. intros ->. apply NJ, in_or_app. right. left. reflexivity.
    - intros a h w HH W. cbn [setUrl c_urls]. rewrite (aget_aset bs_eqb bs_eqb_spec). destruct (bs_eqb h k) eqn:Q; [|apply (F a h w HH W)].
      apply bs_eqb_spec in Q. subst h. exfalso. destruct (hold_In _ _ _ HH) as (_ & _ & P). apply placed_place in P. rewrite (exp_placed _ k a P), HH, bs_eqb_refl in X. discriminate X.
  Qed.
  Lemma inv_skip s0 d s k : inv s0 d s -> ~ In k d -> expd (d ++ [k]) k = false -> inv s0 (d ++ [k]) s.
  Proof.
    intros [A B C D E F G H H2 J K] N X.
    assert (HH : forall a, hold (d ++ [k]) a = hold d a).
    { intro a. rewrite hold_app. destruct (hold d a) eqn:Ha; [reflexivity|]. destruct (cand k && placed urls k a) eqn:Q; [|reflexivity]. exfalso.
      apply andb_true_iff in Q. destruct Q as [Q1 Q2]. pose proof Q2 as P. apply placed_place in P. rewrite (exp_placed _ k a P), hold_app, Ha, Q1, Q2 in X. cbn [andb] in X. rewrite bs_eqb_refl in X. discriminate X. }
    assert (OP : opens V urls impls (d ++ [k]) k = false). { unfold exported in X. apply orb_false_iff in X. tauto. }
    constructor; try assumption.
    - intros j NJ. apply C. intro I. apply NJ, in_or_app. left. exact I.
    - intros a Q. rewrite HH in Q. apply D, Q.
    - intros a h Q. rewrite HH in Q. destruct (E a h Q) as (sv & E1 & E2 & E3 & E4). exists sv. repeat split; try assumption. intro p. rewrite serving_app by exact N. rewrite X. apply E4.
    - intros a h w Q. rewrite HH in Q. apply (F a h w Q).
    - rewrite exp_filter, X, app_nil_r by exact N. exact G.
    - rewrite opens_filter, OP, app_nil_r by exact N. exact H.
    - rewrite exp_filter, X, app_nil_r by exact N. exact K.
  Qed.

  Lemma serving_none d a p : hold d a = None -> serving V lis urls impls d a p = None.
  Proof.
    intro H. unfold serving. rewrite H. destruct (find _ (rev d)) as [j|] eqn:F; [|reflexivity]. apply find_some in F. destruct F as [_ F]. rewrite andb_false_r in F. discriminate F.
  Qed.
  Lemma serving_deaf d a p h : hold d a = Some h -> lis h = false -> serving V lis urls impls d a p = None.
  Proof.
    intros H L. unfold serving. rewrite H, L. destruct (find _ (rev d)) as [j|] eqn:F; [|reflexivity]. apply find_some in F. destruct F as [_ F]. rewrite andb_false_r in F. discriminate F.
  Qed.

  (* a step that exports k *)
  Lemma inv_export s0 d s k u im a z sv ev : inv s0 d s -> ~ In k d -> cand k = true -> expd (d ++ [k]) k = true ->
    aget bs_eqb urls k = Some u -> impl_of urls impls k = Some im -> spot u = Some (a, z) ->
    hold (d ++ [k]) a = Some (m_owner sv) -> m_ok sv = lis (m_owner sv) ->
    (forall p, aget bs_eqb (m_table sv) p = if bs_eqb p (uPath u) && lis (m_owner sv) then Some (k, im) else serving V lis urls impls d a p) ->
    filter is_register ev = [] -> filter is_listen ev = (if opens V urls impls (d ++ [k]) k then listening V lis urls k else []) ->
    filter (fun e => negb (is_register e) && negb (is_listen e)) ev = [] ->
    inv s0 (d ++ [k]) (after V s k u a sv ev).
  Proof.
    intros [A B C D E F G H H2 J K] N Ck X U Ik P HO MO T E1 E2 E3.
    assert (Pk : placed urls k a = true). { unfold placed. rewrite U, P. apply bs_eqb_refl. }
    assert (Pl : forall b, placed urls k b = bs_eqb b a). { intro b. unfold placed. rewrite U, P. reflexivity. }
    assert (HB : forall b, b <> a -> hold (d ++ [k]) b = hold d b).
    { intros b Nb. rewrite hold_app, Pl, (proj2 (bs_eqb_neq b a) Nb), andb_false_r. destruct (hold d b); reflexivity. }
    assert (SB : forall b p, b <> a -> serving V lis urls impls (d ++ [k]) b p = serving V lis urls impls d b p).
    { intros b p Nb. rewrite serving_app by exact N. rewrite Pl, (proj2 (bs_eqb_neq b a) Nb), andb_false_r. reflexivity. }
    destruct (regEvents_filter u) as (R1 & R2 & R3).
    unfold after. constructor; cbn [c_urls c_impls c_servers c_regs c_status c_log].
    - exact A.
    - exact B.
    - intros j NJ. assert (Q : bs_eqb j k = false). { apply bs_eqb_neq. intros ->. apply NJ, in_or_app. right. left. reflexivity. }
      rewrite !(aget_aset bs_eqb bs_eqb_spec), Q. apply C. intro I. apply NJ, in_or_app. left. exact I.
    - intros b Hb. rewrite (aget_aset bs_eqb bs_eqb_spec). destruct (bs_eqb b a) eqn:Q; [apply bs_eqb_spec in Q; subst b; rewrite HO in Hb; discriminate Hb|].
      apply bs_eqb_neq in Q. rewrite HB in Hb by exact Q. apply D, Hb.
    - intros b h Hb. rewrite (aget_aset bs_eqb bs_eqb_spec). destruct (bs_eqb b a) eqn:Q.
      + apply bs_eqb_spec in Q. subst b. exists sv. split; [reflexivity|]. rewrite HO in Hb. injection Hb as <-. split; [reflexivity|]. split; [exact MO|].
        intro p. rewrite T, serving_app by exact N. rewrite X, Pk, HO, Ik. unfold path_is. rewrite U. cbn [andb option_map]. reflexivity.
      + apply bs_eqb_neq in Q. rewrite HB in Hb by exact Q. destruct (E b h Hb) as (sv' & E4 & E5 & E6 & E7). exists sv'. repeat split; try assumption. intro p. rewrite SB by exact Q. apply E7.
    - intros b h w Hb W. rewrite !(aget_aset bs_eqb bs_eqb_spec). destruct (bs_eqb h k) eqn:Q; [apply bs_eqb_spec in Q; subst h; congruence|].
      rewrite hold_app in Hb. destruct (hold d b) as [h'|] eqn:Hb'; [injection Hb as <-; apply (F b h' w Hb' W)|]. destruct (cand k && placed urls k b); [|discriminate Hb].
      injection Hb as <-. rewrite bs_eqb_refl in Q. discriminate Q.
    - rewrite (exp_filter d k N), X, !filter_app, E1, R1, app_nil_r, G, flat_map_app. cbn [flat_map]. rewrite (regEvents_registrations k u U), app_nil_r, app_assoc. reflexivity.
    - rewrite (opens_filter d k N), !filter_app, E2, R2, app_nil_r, H, flat_map_app. rewrite <- app_assoc. f_equal. f_equal.
      destruct (opens V urls impls (d ++ [k]) k); cbn [flat_map]; [rewrite app_nil_r|]; reflexivity.
    - rewrite !filter_app, E3, R3, !app_nil_r. exact H2.
    - apply keepRegs, J.
    - intro r. rewrite (proj2 (keepRegs V (regsOf V u) (c_regs s) J)), K, <- regEvents_regs, exp_filter, X, flat_map_app by exact N. cbn [flat_map]. rewrite (regEvents_registrations k u U), app_nil_r.
      split.
      + intros [[w I]|[w I]]; exists w; apply in_or_app; auto.
      + intros [w I]. apply in_app_or in I. destruct I; [left|right]; exists w; assumption.
  Qed.

  Lemma step_inv s0 d s k : inv s0 d s -> ~ In k d -> inv s0 (d ++ [k]) (exportOne V lis s k).
  Proof.
    intros I N. pose proof I as [A B C D E F G H H2 J K].
    assert (SK : expd (d ++ [k]) k = false -> inv s0 (d ++ [k]) s) by (apply inv_skip; assumption).
    assert (SQ : forall u', expd (d ++ [k]) k = false -> inv s0 (d ++ [k]) (setUrl s k u')). { intros u' X. apply (inv_quiet s0 d); auto. }
    assert (NC : cand k = false -> expd (d ++ [k]) k = false). { intro Q. destruct (expd (d ++ [k]) k) eqn:X; [apply exp_cand in X; congruence|reflexivity]. }
    destruct (aget bs_eqb urls k) as [u|] eqn:U.
    2: { unfold exportOne. rewrite (C k N), U. apply SK, NC. unfold candidate. rewrite U. reflexivity. }
    destruct (aget bs_eqb impls (text u (s2b "ref"))) as [im|] eqn:IM.
    2: { unfold exportOne. rewrite (C k N), U, A, pgetD_text, IM. apply SK, NC. unfold candidate, impl_of. rewrite U, IM. reflexivity. }
    assert (IO : impl_of urls impls k = Some im) by (unfold impl_of; rewrite U; exact IM).
    rewrite (exportOne_eq V lis s k u im); [|rewrite (C k N); exact U|rewrite A; exact IM]. destruct (spot u) as [[a z]|] eqn:P.
    2: { apply SQ, NC. unfold candidate. rewrite U, IO, P. reflexivity. }
    assert (CE : cand k = v_prov V (asked_provider u) && v_srv V (fst (setting u))) by (unfold candidate; rewrite U, IO, P; reflexivity).
    assert (PL : place_of urls k = Some a) by (unfold place_of; rewrite U, P; reflexivity). pose proof (proj2 (placed_place k a) PL) as PK.
    destruct (v_prov V (asked_provider u)) eqn:VP; cbn [negb andb] in *; [|apply SQ, NC, CE].
    destruct (hold d a) as [h|] eqn:HD.
    - destruct (E a h HD) as (sv & S1 & S2 & S3 & S4). rewrite S1. destruct (hold_In _ _ _ HD) as (HI & HC & HP).
      destruct (cand_inv h HC) as (w & ih & b & y & W & _ & _ & _ & _ & WS).
      assert (KH : bs_eqb k h = false). { apply bs_eqb_neq. intros ->. contradiction. }
      assert (HK : bs_eqb h k = false). { apply bs_eqb_neq. intros ->. contradiction. }
      rewrite S2, (aget_aset bs_eqb bs_eqb_spec), HK, (F a h w HD W), canShare_text, announced_protocol. cbn [settled uProtocol]. change (text (settled V u)) with (text u).
      assert (XE : expd (d ++ [k]) k = cand k && lis h && agree V urls k h). { rewrite (exp_placed _ k a PL), hold_app, HD, KH. reflexivity. }
      assert (AG : agree V urls k h = bs_eqb (fst (setting u)) (fst (setting w)) && bs_eqb (text u (s2b "serialization")) (text (announced V w) (s2b "serialization"))).
      { unfold agree. rewrite U, W. reflexivity. }
      rewrite <- AG, S3. destruct (agree V urls k h) eqn:Q; cbn [andb].
      + assert (CK : cand k = true). { rewrite CE. symmetry in AG. apply andb_true_iff in AG. destruct AG as [AG _]. apply bs_eqb_spec in AG. rewrite AG. exact WS. }
        rewrite CK, andb_true_r in XE. cbn [andb] in XE. destruct (lis h) eqn:L; [|apply SQ, XE].
        apply (inv_export s0 d s k u im a z); try assumption; cbn [m_owner m_ok m_table]; try reflexivity.
        * rewrite hold_app, HD. reflexivity.
        * symmetry. exact L.
        * intro p. rewrite L, andb_true_r, (aget_aset bs_eqb bs_eqb_spec), S4. reflexivity.
        * unfold opens. rewrite PL, hold_app, HD, KH. reflexivity.
      + apply SQ. rewrite XE, andb_false_r. reflexivity.
    - rewrite (D a HD). destruct (v_srv V (fst (setting u))) eqn:VS; cbn [negb]; [|apply SQ, NC, CE].
      assert (XE : expd (d ++ [k]) k = true). { rewrite (exp_placed _ k a PL), hold_app, HD, CE, PK. cbn [andb]. rewrite bs_eqb_refl. reflexivity. }
      apply (inv_export s0 d s k u im a z); try assumption; cbn [m_owner m_ok m_table]; try reflexivity.
      * rewrite hold_app, HD, CE, PK. reflexivity.
      * intro p. rewrite (serving_none d a p HD). destruct (lis k); cbn [aget]; [|rewrite andb_false_r; reflexivity]. rewrite andb_true_r. destruct (bs_eqb p (uPath u)); reflexivity.
      * unfold opens. rewrite PL, hold_app, HD, CE, PK. cbn [andb]. rewrite bs_eqb_refl. unfold listening. rewrite U. reflexivity.
  Qed.

  Lemma start_inv s0 : c_urls s0 = urls -> c_impls s0 = impls -> c_servers s0 = [] -> c_regs s0 = [] ->
    forall ord, NoDup ord -> inv s0 ord (start V lis ord s0).
  Proof.
    intros U I S R. assert (Z : inv s0 [] s0).
    { constructor; try assumption; try reflexivity.
      - intros k _. rewrite U. reflexivity.
      - intros a _. rewrite S. reflexivity.
      - intros a h Q. discriminate Q.
      - intros a h w Q. discriminate Q.
      - rewrite app_nil_r. reflexivity.
      - rewrite app_nil_r. reflexivity.
      - rewrite R. constructor.
      - intro r. rewrite R. split; [intros []|intros [u []]]. }
    unfold start. intro ord. induction ord as [|k ord IH] using rev_ind; intro ND; [exact Z|]. rewrite fold_left_app. cbn [fold_left].
    assert (ND1 : NoDup ord /\ ~ In k ord). { apply NoDup_remove in ND. rewrite app_nil_r in ND. exact ND. }
    apply step_inv; [apply IH|]; apply ND1.
  Qed.
End run.

(* ---- registering implementations *)
Lemma configured_refb urls ref : existsb (fun ku : bs * url => match uParams (snd ku) with Some _ => bs_eqb ref (pgetD (uParams (snd ku)) (s2b "ref")) | None => false end) urls = true <-> configured_ref urls ref.
Proof.
  rewrite existsb_exists. unfold configured_ref. split.
  - intros ([k u] & I & H). cbn [snd] in H. exists k, u. split; [exact I|]. rewrite pgetD_text in H. destruct (uParams u); [|discriminate H]. split; [discriminate|]. apply bs_eqb_spec in H. congruence.
  - intros (k & u & I & N & T). exists (k, u). split; [exact I|]. cbn [snd]. rewrite pgetD_text, T. destruct (uParams u); [apply bs_eqb_refl|contradiction].
Qed.
Lemma call_name_if sid type : (if bs_empty sid then type else sid) = call_name sid type.
Proof. destruct sid; reflexivity. Qed.

Lemma loaded_fields urls calls : let s := loaded urls calls in c_urls s = urls /\ c_servers s = [] /\ c_regs s = [] /\ c_status s = 0%Z /\ c_log s = [].
Proof.
  unfold loaded. assert (G : forall s, let t := fold_left (fun s c => fst (registerService s (fst c) (snd c))) calls s in
    c_urls t = c_urls s /\ c_servers t = c_servers s /\ c_regs t = c_regs s /\ c_status t = c_status s /\ c_log t = c_log s).
  { induction calls as [|c r IH]; intro s; [repeat split|]. cbn [fold_left]. destruct (IH (fst (registerService s (fst c) (snd c)))) as (A & B & C & D & E). cbv zeta. rewrite A, B, C, D, E.
    unfold registerService. destruct (fst c); try (repeat split; fail). destruct (existsb _ (c_urls s)); repeat split. }
  exact (G (minit urls)).
Qed.

Lemma loaded_impls urls calls ref : (configured_ref urls ref -> aget bs_eqb (c_impls (loaded urls calls)) ref = last_given calls ref None) /\
  (~ configured_ref urls ref -> aget bs_eqb (c_impls (loaded urls calls)) ref = None).
Proof.
  unfold loaded. assert (G : forall s, c_urls s = urls -> let t := fold_left (fun s c => fst (registerService s (fst c) (snd c))) calls s in
    (configured_ref urls ref -> aget bs_eqb (c_impls t) ref = last_given calls ref (aget bs_eqb (c_impls s) ref)) /\
    (~ configured_ref urls ref -> aget bs_eqb (c_impls t) ref = aget bs_eqb (c_impls s) ref)).
  { induction calls as [|[a sid] r IH]; intros s U; [split; reflexivity|]. cbn [fold_left fst snd last_given].
    destruct a as [| | |im ty]; try (apply (IH s U); fail). cbv zeta. remember (fst (registerService s (APtr im ty) sid)) as s1 eqn:S1.
    unfold registerService in S1. cbv zeta in S1. rewrite call_name_if, U in S1. destruct (existsb _ urls) eqn:X; cbn [fst] in S1.
    - assert (U1 : c_urls s1 = urls) by (rewrite S1; reflexivity). destruct (IH s1 U1) as [I1 I2].
      assert (A1 : aget bs_eqb (c_impls s1) ref = if bs_eqb ref (call_name sid ty) then Some im else aget bs_eqb (c_impls s) ref) by (rewrite S1; cbn [c_impls]; apply (aget_aset bs_eqb bs_eqb_spec)).
      apply configured_refb in X. split; intro Q.
      + rewrite I1, A1 by exact Q. rewrite (bs_eqb_sym ref). destruct (bs_eqb (call_name sid ty) ref); reflexivity.
      + rewrite I2, A1 by exact Q. destruct (bs_eqb ref (call_name sid ty)) eqn:E; [apply bs_eqb_spec in E; subst ref; contradiction|reflexivity].
    - subst s1. destruct (IH s U) as [I1 I2]. split; intro Q; [rewrite I1 by exact Q|apply I2, Q]. destruct (bs_eqb (call_name sid ty) ref) eqn:E; [|reflexivity].
      apply bs_eqb_spec in E. rewrite E in X. apply configured_refb in Q. congruence. }
  exact (G (minit urls) eq_refl).
Qed.

(* ---- telling the registries *)
Lemma tell_all f pan ord : (forall r, In r ord -> pan r = false) -> tell f pan ord = map f ord.
Proof. induction ord as [|r l IH]; intro H; [reflexivity|]. cbn [tell map]. rewrite (H r (or_introl eq_refl)), IH; [reflexivity|intros x X; apply H; right; exact X]. Qed.
Lemma tell_prefix f pan ord : exists l, tell f pan ord = map f l /\ (exists r, ord = l ++ r) /\
  (l = ord \/ exists l' r, l = l' ++ [r] /\ pan r = true).
Proof.
  induction ord as [|r l (m & E & (q & Q) & O)]; [exists []; split; [reflexivity|]; split; [exists []; reflexivity|left; reflexivity]|].
  cbn [tell]. destruct (pan r) eqn:P.
  - exists [r]. split; [reflexivity|]. split; [exists l; reflexivity|]. right. exists [], r. split; [reflexivity|exact P].
  - exists (r :: m). rewrite E. split; [reflexivity|]. split; [exists q; rewrite Q; reflexivity|]. destruct O as [->|(l' & x & -> & X)]; [left; reflexivity|right]. exists (r :: l'), x. split; [reflexivity|exact X].
Qed.

(* ---- a configuration whose services fit together *)
Lemma fits_exported V lis urls impls ord : fits V lis urls impls -> (forall k, In k ord <-> exists u, aget bs_eqb urls k = Some u) ->
  forall k u, aget bs_eqb urls k = Some u -> exported V lis urls impls ord k = true.
Proof.
  intros [F1 F2] KO k u U. destruct (F1 k u U) as [C L]. destruct (cand_inv V urls impls k C) as (u' & im & a & z & U' & _ & _ & P & _). rewrite U in U'. injection U' as <-.
  assert (PL : place_of urls k = Some a) by (unfold place_of; rewrite U, P; reflexivity). rewrite (exp_placed V lis urls impls ord k a PL).
  destruct (holder V urls impls ord a) as [h|] eqn:H.
  - destruct (bs_eqb k h) eqn:E; [reflexivity|]. cbn [orb negb andb]. apply bs_eqb_neq in E. rewrite C. destruct (hold_In _ lis _ _ _ _ _ H) as (HI & HC & HP).
    apply KO in HI. destruct HI as [w W]. rewrite (proj2 (F1 h w W)). cbn [andb]. unfold agree. rewrite U, W. apply placed_place in HP. unfold place_of in HP. rewrite W in HP.
    destruct (spot w) as [[b y]|] eqn:SW; [|discriminate HP]. injection HP as Hb. destruct (F2 k h u w a b z y U W E P SW (eq_sym Hb)) as (G1 & G2 & _). rewrite G1, G2, !bs_eqb_refl. reflexivity.
  - exfalso. assert (I : In k ord) by (apply KO; exists u; exact U). pose proof (hold_none _ _ _ _ _ _ H I C) as X. apply placed_place in PL. congruence.
Qed.

Lemma fits_serving V lis urls impls ord : fits V lis urls impls -> NoDup ord -> (forall k, In k ord <-> exists u, aget bs_eqb urls k = Some u) ->
  forall k u a z, aget bs_eqb urls k = Some u -> spot u = Some (a, z) ->
  exists im, impl_of urls impls k = Some im /\ serving V lis urls impls ord a (uPath u) = Some (k, im) /\ exists h, holder V urls impls ord a = Some h /\ lis h = true.
Proof.
  intros F ND KO k u a z U P. pose proof F as [F1 F2]. destruct (F1 k u U) as [C L]. destruct (cand_inv V urls impls k C) as (u' & im & b & y & U' & _ & IO & _). rewrite U in U'. injection U' as <-.
  exists im. split; [exact IO|]. pose proof (fits_exported V lis urls impls ord F KO k u U) as X.
  assert (PL : place_of urls k = Some a) by (unfold place_of; rewrite U, P; reflexivity). pose proof X as X0. rewrite (exp_placed V lis urls impls ord k a PL) in X0.
  destruct (holder V urls impls ord a) as [h|] eqn:H; [|discriminate X0]. assert (LH : lis h = true). { destruct (hold_In _ lis _ _ _ _ _ H) as (HI & _). apply KO in HI. destruct HI as [w W]. apply (F1 h w W). }
  split; [|exists h; auto]. unfold serving. rewrite H. destruct (find _ (rev ord)) as [j|] eqn:Fi.
  - apply find_some in Fi. destruct Fi as [J Q]. apply andb_true_iff in Q. destruct Q as [Q _]. apply andb_true_iff in Q. destruct Q as [Q Q3]. apply andb_true_iff in Q. destruct Q as [_ Q2].
    apply in_rev, KO in J. destruct J as [w W]. unfold path_is in Q3. rewrite W in Q3. apply bs_eqb_spec in Q3. apply placed_place in Q2. unfold place_of in Q2. rewrite W in Q2.
    destruct (spot w) as [[b' y']|] eqn:SW; [|discriminate Q2]. injection Q2 as Hb. destruct (bs_eqb k j) eqn:E; [apply bs_eqb_spec in E; subst j; rewrite IO; reflexivity|].
    apply bs_eqb_neq in E. destruct (F2 k j u w a b' z y' U W E P SW (eq_sym Hb)) as (_ & _ & G). congruence.
  - exfalso. assert (I : In k (rev ord)) by (apply -> in_rev; apply KO; exists u; exact U). pose proof (find_none _ _ Fi k I) as Q. cbv beta in Q.
    apply placed_place in PL. rewrite X, PL, LH in Q. unfold path_is in Q. rewrite U, bs_eqb_refl in Q. discriminate Q.
Qed.
