(* ClusterProofs.v: proofs of C21 and C22. *)
From Coq Require Import Permutation.
From Verif Require Import Base Lists GoStrings GoStrings2 UrlModel UrlSpec LbModel LbProofs CoreProofs ClusterModel ClusterSpec.
Ltac Zify.zify_post_hook ::= idtac.

(* ---------------------------------------------------------------- C22 *)
Lemma hasPrefix_ex s p : hasPrefix s p = true <-> exists t, s = p ++ t.
Proof. apply hasPrefix_spec. Qed.

Lemma ruleMatch_spec nl pre nets host :
  ruleMatch nl (mkFr pre nets) host = true <->
  (exists p, In p pre /\ exists t, host = p ++ t) \/ (exists n ip, In n nets /\ nIp nl host = Some ip /\ nIn nl n ip = true).
Proof.
  unfold ruleMatch. cbn [frPrefixes frNets]. destruct (existsb (hasPrefix host) pre) eqn:E.
  - split; [intros _; left|reflexivity]. apply existsb_exists in E as (p & Hp & E). exists p. split; [exact Hp|]. apply hasPrefix_ex. exact E.
  - assert (Hno : ~ exists p, In p pre /\ exists t, host = p ++ t).
    { intros (p & Hp & Ht). apply hasPrefix_ex in Ht. assert (existsb (hasPrefix host) pre = true); [|congruence].
      apply existsb_exists. exists p. auto. }
    destruct nets as [|n0 nets].
    + split; [intro H; discriminate H|]. intros [H|(n & ip & [] & _)]. tauto.
    + destruct (nIp nl host) as [ip|] eqn:Ei.
      * rewrite existsb_exists. split.
        -- intros (n & Hn & H). right. exists n, ip. auto.
        -- intros [H|(n & ip' & Hn & Hi & H)]; [tauto|]. injection Hi as <-. exists n. auto.
      * split; [intro H; discriminate H|]. intros [H|(n & ip & Hn & Hi & _)]; [tauto|discriminate Hi].
Qed.

Definition parseStep nl (fr : frule) (item : bs) : frule :=
  if contains item (s2b "/")
  then match nCidr nl item with None => fr | Some n => mkFr (frPrefixes fr) (frNets fr ++ [n]) end
  else mkFr (frPrefixes fr ++ [item]) (frNets fr).
Lemma parse_items nl host items : forall fr,
  ruleMatch nl (fold_left (parseStep nl) items fr) host = true <->
  ruleMatch nl fr host = true \/ exists item, In item items /\ item_matches nl item host.
Proof.
  induction items as [|it items IH]; intros fr; cbn [fold_left].
  - split; [tauto|]. intros [H|(i & [] & _)]. exact H.
  - rewrite IH.
    assert (S : ruleMatch nl (parseStep nl fr it) host = true <-> ruleMatch nl fr host = true \/ item_matches nl it host).
    { unfold parseStep, item_matches. destruct fr as [pre nets]. destruct (contains it (s2b "/")) eqn:Ec.
      - destruct (nCidr nl it) as [n|] eqn:En; cbn [frPrefixes frNets].
        + rewrite !ruleMatch_spec. split.
          * intros [H|(n' & ip & Hin & H1 & H2)]; [tauto|]. apply in_app_or in Hin as [Hin|[<-|[]]].
            -- left. right. exists n', ip. auto.
            -- right. exists n, ip. auto.
          * intros [[H|(n' & ip & Hin & H1 & H2)]|(n' & ip & Hn & H1 & H2)]; [tauto| |].
            -- right. exists n', ip. rewrite in_app_iff. auto.
            -- injection Hn as <-. right. exists n, ip. rewrite in_app_iff. cbn. auto.
        + split; [tauto|]. intros [H|(n' & ip & Hn & _)]; [exact H|discriminate Hn].
      - cbn [frPrefixes frNets]. rewrite !ruleMatch_spec. split.
        + intros [(p & Hin & Ht)|H]; [|tauto]. apply in_app_or in Hin as [Hin|[<-|[]]]; [left; left; eauto|tauto].
        + intros [[(p & Hin & Ht)|H]|H]; [|tauto|].
          * left. exists p. rewrite in_app_iff. auto.
          * left. exists it. rewrite in_app_iff. cbn. auto. }
    rewrite S. split.
    + intros [[H|H]|(i & Hi & H)]; [tauto|right; exists it; cbn; auto|right; exists i; cbn; auto].
    + intros [H|(i & [<-|Hi] & H)]; [tauto|tauto|]. right. eauto.
Qed.
Lemma parseRule_spec nl c host : ruleMatch nl (parseRule nl (fcRule c)) host = true <-> config_matches nl c host.
Proof.
  unfold parseRule. change (fun fr item => _) with (parseStep nl). rewrite parse_items. unfold config_matches. split; [|tauto].
  intros [H|H]; [|exact H]. discriminate H.
Qed.

Definition addCfg nl (f : rfilter) (c : fconfig) : rfilter :=
  let fr := parseRule nl (fcRule c) in
  if bs_eqb (fcMode c) excludeMode then mkRf (rfExclude f ++ [fr]) (rfInclude f) else mkRf (rfExclude f) (rfInclude f ++ [fr]).
Lemma newRefers_rules nl l : forall f,
  rfExclude (fold_left (addCfg nl) l f) = rfExclude f ++ map (fun c => parseRule nl (fcRule c)) (filter (fun c => bs_eqb (fcMode c) excludeMode) l) /\
  rfInclude (fold_left (addCfg nl) l f) = rfInclude f ++ map (fun c => parseRule nl (fcRule c)) (filter (fun c => negb (bs_eqb (fcMode c) excludeMode)) l).
Proof.
  induction l as [|c l IH]; intro f; cbn [fold_left filter map]; [rewrite !app_nil_r; auto|].
  destruct (IH (addCfg nl f c)) as [E1 E2]. rewrite E1, E2. unfold addCfg.
  destruct (bs_eqb (fcMode c) excludeMode); cbn [rfExclude rfInclude negb map]; rewrite <- ?app_assoc; auto.
Qed.
Lemma existsb_map_rule nl host g l :
  existsb (fun fr => ruleMatch nl fr host) (map (fun c => parseRule nl (fcRule c)) (filter g l)) = true <->
  exists c, In c l /\ g c = true /\ config_matches nl c host.
Proof.
  rewrite existsb_exists. split.
  - intros (fr & Hin & H). apply in_map_iff in Hin as (c & <- & Hc). apply filter_In in Hc as [Hc Hg]. apply parseRule_spec in H. eauto.
  - intros (c & Hc & Hg & H). eexists. split; [apply in_map_iff; exists c; split; [reflexivity|apply filter_In; auto]|]. apply parseRule_spec. exact H.
Qed.
Lemma keepHost_spec nl l host : keepHost nl (newRefersFilter nl l) host = true <->
  (forall c, In c l -> fcMode c = excludeMode -> ~ config_matches nl c host) /\
  ((forall c, In c l -> fcMode c = excludeMode) \/ exists c, In c l /\ fcMode c <> excludeMode /\ config_matches nl c host).
Proof.
  unfold newRefersFilter. change (fun f c => _) with (addCfg nl). unfold keepHost. destruct (newRefers_rules nl l (mkRf [] [])) as [E1 E2].
  rewrite E1, E2. cbn [rfExclude rfInclude app].
  destruct (existsb _ (map _ (filter (fun c => bs_eqb (fcMode c) excludeMode) l))) eqn:Ee.
  - apply existsb_map_rule in Ee as (c & Hc & Hm & H). apply bs_eqb_spec in Hm. split; [intro X; discriminate X|]. intros [X _]. exfalso. eapply X; eauto.
  - assert (Hex : forall c, In c l -> fcMode c = excludeMode -> ~ config_matches nl c host).
    { intros c Hc Hm H. match type of Ee with ?x = false => assert (x = true); [|congruence] end. apply existsb_map_rule.
      exists c. split; [exact Hc|]. split; [apply bs_eqb_spec; exact Hm|exact H]. }
    destruct (filter (fun c => negb (bs_eqb (fcMode c) excludeMode)) l) as [|c0 r] eqn:Ei.
    + cbn [map]. split; [|reflexivity]. intros _. split; [exact Hex|]. left. intros c Hc. destruct (bs_eqb (fcMode c) excludeMode) eqn:Em; [apply bs_eqb_spec; exact Em|].
      assert (In c (filter (fun c => negb (bs_eqb (fcMode c) excludeMode)) l)) by (apply filter_In; rewrite Em; auto). rewrite Ei in H. destruct H.
    + cbn [map]. change (parseRule nl (fcRule c0) :: map _ r) with (map (fun c => parseRule nl (fcRule c)) (c0 :: r)). rewrite <- Ei, existsb_map_rule.
      split.
      * intros (c & Hc & Hm & H). split; [exact Hex|]. right. exists c. split; [exact Hc|]. split; [|exact H].
        intro X. apply bs_eqb_spec in X. rewrite X in Hm. discriminate Hm.
      * intros [_ [H|(c & Hc & Hm & H)]].
        -- assert (In c0 (filter (fun c => negb (bs_eqb (fcMode c) excludeMode)) l)) by (rewrite Ei; left; reflexivity).
           apply filter_In in H0 as [H0 H1]. apply H, bs_eqb_spec in H0. rewrite H0 in H1. discriminate H1.
        -- exists c. split; [exact Hc|]. split; [|exact H]. destruct (bs_eqb (fcMode c) excludeMode) eqn:Em; [apply bs_eqb_spec in Em; tauto|reflexivity].
Qed.
Lemma applies_spec u c :
  negb (negb (bs_eqb (fcGroup c) []) && negb (bs_eqb (fcGroup c) (uGroup u))) &&
  negb (negb (bs_eqb (fcService c) []) && negb (bs_eqb (fcService c) (uPath u))) = true <-> config_applies u c.
Proof.
  unfold config_applies. rewrite <- !bs_eqb_spec.
  destruct (bs_eqb (fcGroup c) []), (bs_eqb (fcGroup c) (uGroup u)), (bs_eqb (fcService c) []), (bs_eqb (fcService c) (uPath u)); cbn; intuition discriminate.
Qed.
Lemma parse_filters nl l u : 
  match parseRefersFilters nl l u with
  | None => forall c, In c l -> ~ config_applies u c
  | Some f => forall host, keepHost nl f host = true <-> host_allowed nl l u host
  end.
Proof.
  unfold parseRefersFilters. set (g := fun c : fconfig => _ && _). destruct (filter g l) as [|c0 r] eqn:E.
  - intros c Hc Ha. apply applies_spec in Ha. assert (In c (filter g l)) by (apply filter_In; auto). rewrite E in H. destruct H.
  - intro host. rewrite <- E, keepHost_spec. unfold host_allowed.
    assert (G : forall c, In c (filter g l) <-> In c l /\ config_applies u c).
    { intro c. rewrite filter_In. unfold g. rewrite applies_spec. reflexivity. }
    split; intros [H1 H2]; split.
    + intros c Hc Ha. apply H1. apply G. auto.
    + destruct H2 as [H2|(c & Hc & H)]; [left; intros c Hc Ha; apply H2, G; auto|]. right. exists c. apply G in Hc. tauto.
    + intros c Hc. apply G in Hc. apply H1; tauto.
    + destruct H2 as [H2|(c & Hc & H)]; [left; intros c Hc; apply G in Hc; apply H2; tauto|]. right. exists c. rewrite G. tauto.
Qed.

(* ---------------------------------------------------------------- C21 *)
Lemma applySwaps_perm {A} sw : forall l : list A, Permutation (applySwaps sw l) l.
Proof.
  induction sw as [|[i j] sw IH]; intro l; cbn; [reflexivity|]. unfold applySwaps in IH. rewrite IH. apply swap_perm.
Qed.
Lemma concat_perm {A} (l l' : list (list A)) : Permutation l l' -> Permutation (concat l) (concat l').
Proof.
  induction 1; cbn; [reflexivity|apply Permutation_app_head; assumption| |etransitivity; eauto].
  rewrite !app_assoc. apply Permutation_app_tail, Permutation_app_comm.
Qed.
Lemma filter_perm {A} (f : A -> bool) l l' : Permutation l l' -> Permutation (filter f l) (filter f l').
Proof.
  induction 1; cbn; [reflexivity| | |etransitivity; eauto].
  - destruct (f x); [constructor|]; assumption.
  - destruct (f y), (f x); try reflexivity; constructor.
Qed.
Definition good_refers nl (f : option rfilter) (known refers : list ep) : Prop :=
  match f with
  | None => Permutation refers known
  | Some f => (filterRefersBy nl (fun e => uHost (epUrl e)) f known <> [] /\
               Permutation refers (filterRefersBy nl (fun e => uHost (epUrl e)) f known)) \/
              (filterRefersBy nl (fun e => uHost (epUrl e)) f known = [] /\ Permutation refers known)
  end.
Lemma refersOf_good nl f rr s1 s2 : good_refers nl f (concat (map snd rr)) (refersOf nl f rr s1 s2).
Proof.
  unfold refersOf, good_refers. assert (P : Permutation (concat (map snd (applySwaps s1 rr))) (concat (map snd rr))).
  { apply concat_perm, Permutation_map, applySwaps_perm. }
  destruct f as [f|].
  - pose proof (filter_perm (fun e => keepHost nl f (uHost (epUrl e))) _ _ P) as Q. unfold filterRefersBy.
    destruct (filter (fun e : ep => keepHost nl f (uHost (epUrl e))) (concat (map snd (applySwaps s1 rr)))) as [|x r].
    + right. split; [apply Permutation_nil; exact Q|]. rewrite applySwaps_perm. exact P.
    + left. split; [intro X; rewrite X in Q; apply Permutation_sym, Permutation_nil in Q; discriminate Q|]. rewrite applySwaps_perm. exact Q.
  - rewrite applySwaps_perm. exact P.
Qed.
Lemma good_refers_nonempty nl f known refers : good_refers nl f known refers -> (refers <> [] <-> known <> []).
Proof.
  assert (P : forall a b : list ep, Permutation a b -> (a <> [] <-> b <> [])).
  { intros a b H. split; intros X ->; [apply Permutation_sym in H|]; apply Permutation_nil in H; auto. }
  destruct f as [f|]; cbn; [|apply P].
  intros [[H1 H2]|[H1 H2]]; [|apply P; exact H2]. rewrite (P _ _ H2). split; [|auto]. intros _ ->. apply H1. reflexivity.
Qed.

Lemma mergeInto_ident u ps : uProtocol u <> s2b "direct" -> identity_of (mergeInto u ps) = identity_of u.
Proof.
  intro H. unfold identity_of, mergeInto, withParams. cbn [uProtocol uHost uPort uPath uGroup].
  destruct (bs_eqb (uProtocol u) (s2b "direct")) eqn:E; [apply bs_eqb_spec in E; tauto|reflexivity].
Qed.
Lemma canServe_not_direct u cu : uProtocol cu <> s2b "direct" -> canServe u cu = true -> uProtocol u <> s2b "direct".
Proof.
  unfold canServe. intros H. destruct (canServeProtocol u cu) eqn:E; cbn [negb]; [intros _|intro X; discriminate X].
  unfold canServeProtocol in E. intro D. rewrite D in E.
  replace (bs_eqb (s2b "direct") (s2b "motan2")) with false in E by reflexivity.
  replace (bs_eqb (s2b "direct") (s2b "local")) with false in E by reflexivity.
  rewrite andb_false_r, orb_false_r in E. apply bs_eqb_spec in E. congruence.
Qed.

(* values of a map that are overwritten are lost *)
Lemma aset_lost (m : list (bs * ep)) k v : exists lost, Permutation (v :: map snd m) (map snd (aset bs_eqb m k v) ++ lost).
Proof.
  induction m as [|[k0 v0] m IH]; cbn; [exists []; reflexivity|].
  destruct (bs_eqb k k0); cbn.
  - exists [v0]. apply perm_skip. apply Permutation_cons_append.
  - destruct IH as [lost IH]. exists lost. rewrite perm_swap. apply perm_skip. exact IH.
Qed.
Definition emStep (m : list (bs * ep)) (e : ep) := aset bs_eqb m (ident e) e.
Lemma endpointMap_lost eps : exists lost, Permutation eps (map snd (endpointMap eps) ++ lost).
Proof.
  unfold endpointMap. change (fun m e => _) with emStep.
  enough (G : forall m, exists lost, Permutation (map snd m ++ eps) (map snd (fold_left emStep eps m) ++ lost)) by apply (G []).
  induction eps as [|e eps IH]; intro m; cbn [fold_left]; [exists []; reflexivity|].
  destruct (IH (emStep m e)) as [l1 H1]. destruct (aset_lost m (ident e) e) as [l2 H2]. fold (emStep m e) in H2.
  exists (l1 ++ l2). rewrite app_assoc, <- H1. rewrite <- Permutation_middle.
  change (e :: map snd m ++ eps) with ((e :: map snd m) ++ eps). rewrite H2. rewrite <- !app_assoc. apply Permutation_app_head, Permutation_app_comm.
Qed.
Lemma endpointMap_keys eps : NoDup (akeys (endpointMap eps)) /\ (forall k e, In (k, e) (endpointMap eps) -> ident e = k) /\
  (forall e, In e eps -> In (ident e) (akeys (endpointMap eps))).
Proof.
  unfold endpointMap. change (fun m e => _) with emStep.
  enough (G : forall m, NoDup (akeys m) -> (forall k e, In (k, e) m -> ident e = k) ->
     NoDup (akeys (fold_left emStep eps m)) /\ (forall k e, In (k, e) (fold_left emStep eps m) -> ident e = k) /\
     (forall i, In i (akeys m) \/ In i (map ident eps) -> In i (akeys (fold_left emStep eps m)))).
  { destruct (G []) as (G1 & G2 & G3); [constructor|intros k e []|]. repeat split; auto. intros e H. apply G3. right. apply in_map. exact H. }
  induction eps as [|e eps IH]; intros m Hn Hk; cbn [fold_left map In].
  - repeat split; auto. intros i [H|[]]. exact H.
  - destruct (IH (emStep m e)) as (G1 & G2 & G3).
    + apply NoDup_aset; [exact bs_eqb_spec|exact Hn].
    + intros k e' Hin. apply (In_aget bs_eqb bs_eqb_spec) in Hin; [|apply NoDup_aset; [exact bs_eqb_spec|exact Hn]].
      unfold emStep in Hin. rewrite (aget_aset bs_eqb bs_eqb_spec) in Hin. destruct (bs_eqb k (ident e)) eqn:E.
      * injection Hin as <-. apply bs_eqb_spec in E. auto.
      * apply (aget_In bs_eqb bs_eqb_spec) in Hin. eauto.
    + repeat split; auto. intros i Hi. apply G3. unfold emStep. rewrite akeys_aset.
      destruct (existsb (bs_eqb (ident e)) (akeys m)) eqn:Ex.
      * apply (existsb_eqb_In bs_eqb bs_eqb_spec) in Ex. destruct Hi as [Hi|[<-|Hi]]; auto.
      * rewrite in_app_iff. cbn. tauto.
Qed.
Lemma endpointMap_nodup eps : NoDup (map ident eps) -> map snd (endpointMap eps) = eps.
Proof.
  unfold endpointMap. change (fun m e => _) with emStep.
  enough (G : forall m, akeys m = map ident (map snd m) -> NoDup (map ident (map snd m ++ eps)) -> map snd (fold_left emStep eps m) = map snd m ++ eps).
  { intro H. rewrite (G []); auto. }
  induction eps as [|e eps IH]; intros m Hk Hn; cbn [fold_left]; [rewrite app_nil_r; reflexivity|].
  assert (Hni : ~ In (ident e) (akeys m)).
  { rewrite Hk. rewrite map_app in Hn. cbn in Hn. apply NoDup_remove_2 in Hn. rewrite in_app_iff in Hn. tauto. }
  rewrite IH; unfold emStep; rewrite (aset_new m _ e Hni), ?map_app; cbn [map snd]; rewrite <- ?app_assoc; [reflexivity| |].
  - unfold akeys in *. rewrite ?map_app. cbn [map fst snd]. rewrite Hk. reflexivity.
  - rewrite ?map_app in *. cbn [map snd app] in *. rewrite <- ?app_assoc. exact Hn.
Qed.

Lemma adel_split {V} (m : list (bs * V)) k v : NoDup (akeys m) -> aget bs_eqb m k = Some v ->
  Permutation (map snd m) (v :: map snd (adel bs_eqb m k)).
Proof.
  induction m as [|[k0 v0] m IH]; cbn [aget]; [intros _ H; discriminate H|]. cbn [akeys map fst]. intros Hn H. inversion Hn; subst.
  unfold adel. cbn [filter fst]. destruct (bs_eqb k k0) eqn:E; cbn [negb].
  - injection H as ->. apply bs_eqb_spec in E. subst k0. cbn [map snd]. apply perm_skip.
    replace (filter (fun kv => negb (bs_eqb k (fst kv))) m) with m; [reflexivity|].
    symmetry. fold (adel bs_eqb m k). clear - H2. induction m as [|[k1 v1] m IHm]; [reflexivity|]. unfold adel. cbn [filter fst].
    destruct (bs_eqb k k1) eqn:E; [apply bs_eqb_spec in E; subst; exfalso; apply H2; left; reflexivity|]. cbn [negb]. f_equal. apply IHm.
    intro X. apply H2. right. exact X.
  - cbn [map snd]. rewrite perm_swap. apply perm_skip. apply IH; assumption.
Qed.
Lemma adel_absent {V} (m : list (bs * V)) k : aget bs_eqb m k = None -> adel bs_eqb m k = m.
Proof.
  induction m as [|[k0 v0] m IH]; cbn [aget]; [reflexivity|]. unfold adel. cbn [filter fst]. destruct (bs_eqb k k0); [intro H; discriminate H|].
  cbn [negb]. intro H. f_equal. apply IH. exact H.
Qed.
Lemma aset_split {V} (m : list (bs * V)) k v : NoDup (akeys m) -> Permutation (map snd (aset bs_eqb m k v)) (v :: map snd (adel bs_eqb m k)).
Proof.
  induction m as [|[k0 v0] m IH]; cbn [aset]; [reflexivity|]. cbn [akeys map fst]. intros Hn. inversion Hn; subst.
  unfold adel. cbn [filter fst]. destruct (bs_eqb k k0) eqn:E; cbn [negb map snd].
  - apply bs_eqb_spec in E. subst k0. fold (adel bs_eqb m k). rewrite adel_absent; [reflexivity|]. apply (aget_None bs_eqb bs_eqb_spec). assumption.
  - rewrite perm_swap. apply perm_skip. apply IH. assumption.
Qed.
Lemma adel_split_opt {V} (m : list (bs * list V)) k : NoDup (akeys m) ->
  Permutation (concat (map snd m)) ((match aget bs_eqb m k with Some l => l | None => [] end) ++ concat (map snd (adel bs_eqb m k))).
Proof.
  intro Hn. destruct (aget bs_eqb m k) as [l|] eqn:E.
  - change (l ++ concat ?x) with (concat (l :: x)). apply concat_perm, adel_split; assumption.
  - rewrite adel_absent by exact E. reflexivity.
Qed.

(* ---- the loop of a notification *)
Lemma loop_spec cu mk urls : uProtocol cu <> s2b "direct" -> forall m next acc eps rest next',
  NoDup (akeys m) -> (forall k e, In (k, e) m -> ident e = k) ->
  notifyLoop cu mk urls m next acc = (eps, rest, next') ->
  exists new, eps = acc ++ new /\ next <= next' /\
    (has_endpoints mk cu -> map ident new = usable cu urls) /\
    Permutation (map epObj (new ++ map snd rest)) (map epObj (map snd m) ++ seq next (next' - next)) /\
    (forall e, In e new -> In e (map snd m) \/ next <= epObj e) /\
    (forall e, In e (map snd rest) -> In e (map snd m)) /\
    (forall k e, In (k, e) m -> In k (usable cu urls) -> In e new) /\
    (forall e, In e new -> In (ident e) (usable cu urls)).
Proof.
  intro Hd. induction urls as [|[u|] urls IH]; intros m next acc eps rest next' Hn Hk; cbn [notifyLoop usable].
  - intro H. injection H as <- <- <-. exists []. rewrite app_nil_r, Nat.sub_diag. cbn [seq app]. rewrite app_nil_r.
    split; [reflexivity|]. split; [lia|]. split; [reflexivity|]. split; [reflexivity|]. split; [intros e []|]. split; [auto|]. split; [intros k e _ []|intros e []].
  - destruct (canServe u cu) eqn:Ec; cbn [negb]; [|intro H; exact (IH _ _ _ _ _ _ Hn Hk H)].
    destruct (aget bs_eqb m (identity_of u)) as [e0|] eqn:Eg.
    + intro H. apply IH in H; [|apply NoDup_adel; exact Hn|].
      2:{ intros k e Hin. apply (In_adel bs_eqb bs_eqb_spec) in Hin as [Hin _]. eauto. }
      pose proof (aget_In bs_eqb bs_eqb_spec _ _ _ Eg) as Hin0. pose proof (Hk _ _ Hin0) as Hid.
      destruct H as (new & -> & Hle & Hids & Hp & Hn1 & Hr & Hre & Hus). exists (e0 :: new). rewrite <- app_assoc. cbn [app].
      split; [reflexivity|]. split; [exact Hle|]. split; [|split; [|split; [|split; [|split]]]].
      * intro Hm. cbn [map]. rewrite Hids by exact Hm. rewrite Hid. reflexivity.
      * cbn [map]. rewrite Hp. change (epObj e0 :: map epObj ?x ++ ?y) with ((map epObj (e0 :: x)) ++ y).
        apply Permutation_app_tail. apply Permutation_map. symmetry. apply adel_split; assumption.
      * intros e [<-|He]; [left; apply in_map_iff; exists (identity_of u, e0); auto|]. destruct (Hn1 e He) as [H|H]; [left|right; exact H].
        apply in_map_iff in H as ([k e'] & E & H). cbn in E. subst e'. apply (In_adel bs_eqb bs_eqb_spec) in H as [H _]. apply in_map_iff. exists (k, e). auto.
      * intros e He. apply Hr in He. apply in_map_iff in He as ([k e'] & E & H). cbn in E. subst e'. apply (In_adel bs_eqb bs_eqb_spec) in H as [H _]. apply in_map_iff. exists (k, e). auto.
      * intros k e He Hu. destruct (bs_eqb k (identity_of u)) eqn:E.
        -- apply bs_eqb_spec in E. subst k. left. apply (In_aget bs_eqb bs_eqb_spec) in He; [|exact Hn]. congruence.
        -- right. apply (Hre k); [apply (In_adel bs_eqb bs_eqb_spec); split; [exact He|]|].
           ++ intros ->. rewrite eqb_refl_bs in E. discriminate E.
           ++ destruct Hu as [Hu|Hu]; [rewrite Hu, eqb_refl_bs in E; discriminate E|exact Hu].
      * intros e [<-|He]; [left; auto|right; apply Hus; exact He].
    + assert (Hno : forall e, ~ In (identity_of u, e) m).
      { intros e He. apply (In_aget bs_eqb bs_eqb_spec) in He; [congruence|exact Hn]. }
      destruct (mk (uProtocol u)) eqn:Em; intro H.
      * apply IH in H; [|exact Hn|exact Hk]. destruct H as (new & -> & Hle & Hids & Hp & Hn1 & Hr & Hre & Hus).
        assert (Hid : ident (mkEp next (mergeInto u (uParams cu))) = identity_of u).
        { unfold ident. cbn [epUrl]. apply mergeInto_ident. eapply canServe_not_direct; eauto. }
        exists (mkEp next (mergeInto u (uParams cu)) :: new). rewrite <- app_assoc. cbn [app].
        split; [reflexivity|]. split; [lia|]. split; [|split; [|split; [|split; [|split]]]].
        -- intro Hm. cbn [map]. rewrite Hids by exact Hm. rewrite Hid. reflexivity.
        -- cbn [map epObj]. rewrite Hp. replace (next' - next) with (S (next' - S next)) by lia. cbn [seq]. apply Permutation_middle.
        -- intros e [<-|He]; [right; cbn; lia|]. destruct (Hn1 e He) as [H|H]; [left; exact H|right; lia].
        -- exact Hr.
        -- intros k e He Hu. right. apply (Hre k); [exact He|]. destruct Hu as [<-|Hu]; [exfalso; eapply Hno; eauto|exact Hu].
        -- intros e [<-|He]; [left; auto|right; apply Hus; exact He].
      * apply IH in H; [|exact Hn|exact Hk]. destruct H as (new & -> & Hle & Hids & Hp & Hn1 & Hr & Hre & Hus). exists new.
        split; [reflexivity|]. split; [exact Hle|]. split; [|split; [exact Hp|split; [exact Hn1|split; [exact Hr|split]]]].
        -- intro Hm. rewrite (Hm u Ec) in Em. discriminate Em.
        -- intros k e He Hu. apply (Hre k); [exact He|]. destruct Hu as [<-|Hu]; [exfalso; eapply Hno; eauto|exact Hu].
        -- intros e He. right. apply Hus. exact He.
  - intro H. exact (IH _ _ _ _ _ _ Hn Hk H).
Qed.

Lemma processWeight_nodes urls : snd (processWeight urls) = nodes urls.
Proof.
  unfold processWeight, nodes. destruct (rev urls) as [|[u|] r]; [reflexivity| |reflexivity].
  change RuleProtocol with (s2b "rule"). destruct (bs_eqb (uProtocol u) (s2b "rule")); reflexivity.
Qed.

Definition objs (l : list ep) : list nat := map epObj l.
Definition inv nl (c : cl) : Prop :=
  NoDup (akeys (clRR c)) /\ (forall reg l, In (reg, l) (clRR c) -> l <> []) /\
  NoDup (objs (known c ++ clDead c)) /\ (forall e, In e (known c ++ clDead c) -> epObj e < clNext c) /\
  good_refers nl (clFilter c) (known c) (clRefers c).
Lemma list_of_known nl c reg e : inv nl c -> In e (list_of c reg) -> In e (known c).
Proof.
  intros (Hn & _) H. unfold known. eapply Permutation_in; [symmetry; apply (adel_split_opt (clRR c) reg Hn)|]. apply in_or_app. left. exact H.
Qed.
Lemma endpointMap_in eps e : In e (map snd (endpointMap eps)) -> In e eps.
Proof.
  intro H. destruct (endpointMap_lost eps) as [lost P]. eapply Permutation_in; [symmetry; exact P|]. apply in_or_app. left. exact H.
Qed.

Lemma notify_spec nl mk c reg urls s1 s2 : uProtocol (clUrl c) <> s2b "direct" -> inv nl c ->
  let c' := clNotify nl mk c reg urls s1 s2 in
  exists eps lost,
    clUrl c' = clUrl c /\ clFilter c' = clFilter c /\ clNext c <= clNext c' /\
    (has_endpoints mk (clUrl c) -> map ident eps = usable (clUrl c) (nodes urls)) /\
    (forall e, In e eps -> In e (list_of c reg) \/ clNext c <= epObj e) /\
    (forall e, In e eps -> In (ident e) (usable (clUrl c) (nodes urls))) /\
    (forall e, In e (list_of c reg) -> In (ident e) (usable (clUrl c) (nodes urls)) -> exists e', In e' (list_of c reg) /\ ident e' = ident e /\ In e' eps) /\
    (NoDup (map ident (list_of c reg)) -> lost = []) /\
    Permutation (objs (known c' ++ clDead c') ++ objs lost) (objs (known c ++ clDead c) ++ seq (clNext c) (clNext c' - clNext c)) /\
    clRR c' = (match eps with [] => if 1 <? length (clRR c) then adel bs_eqb (clRR c) reg else clRR c | _ => aset bs_eqb (clRR c) reg eps end) /\
    good_refers nl (clFilter c') (known c') (clRefers c').
Proof.
  intros Hd (Hn & Hne & Hno & Hlt & Hg) c'. pose proof (processWeight_nodes urls) as Hw. subst c'. unfold clNotify.
  destruct (processWeight urls) as [w us]. cbn [snd] in Hw. subst us.
  fold (list_of c reg). set (m := endpointMap (list_of c reg)).
  destruct (notifyLoop (clUrl c) mk (nodes urls) m (clNext c) []) as [[eps rest] next'] eqn:El.
  destruct (endpointMap_keys (list_of c reg)) as (K1 & K2 & K3). fold m in K1, K2, K3.
  destruct (loop_spec _ _ _ Hd _ _ _ _ _ _ K1 K2 El) as (new & E & Hle & Hids & Hp & Hn1 & Hr & Hre & Hus). cbn [app] in E. subst new.
  destruct (endpointMap_lost (list_of c reg)) as [lost HL]. fold m in HL.
  assert (Hlost : NoDup (map ident (list_of c reg)) -> lost = []).
  { intro H. apply endpointMap_nodup in H. fold m in H. rewrite H in HL. apply Permutation_length in HL. rewrite app_length in HL. destruct lost; [reflexivity|cbn in HL; lia]. }
  assert (Hold : forall e, In e (map snd m) -> In e (list_of c reg)) by (intros e; apply endpointMap_in).
  pose proof (adel_split_opt (clRR c) reg Hn) as HP. fold (list_of c reg) in HP. set (P := concat (map snd (adel bs_eqb (clRR c) reg))) in *.
  assert (Hvlt : forall e, In e (map snd m) -> epObj e < clNext c).
  { intros e He. apply Hlt. apply in_or_app. left. unfold known. eapply Permutation_in; [symmetry; exact HP|]. apply in_or_app. left. apply Hold. exact He. }
  assert (Hreuse : forall e, In e (list_of c reg) -> In (ident e) (usable (clUrl c) (nodes urls)) -> exists e', In e' (list_of c reg) /\ ident e' = ident e /\ In e' eps).
  { intros e He Hu. apply K3 in He. apply in_map_iff in He as ([k e'] & E & Hin). cbn in E. exists e'.
    split; [apply Hold; apply in_map_iff; exists (k, e'); auto|]. split; [rewrite (K2 _ _ Hin); exact E|]. subst k. apply (Hre (ident e)); assumption. }
  assert (Hgo : forall kn, Permutation kn (eps ++ P) ->
    Permutation (objs (kn ++ clDead c ++ map snd rest) ++ objs lost) (objs (known c ++ clDead c) ++ seq (clNext c) (next' - clNext c))).
  { intros kn Hkn.
    assert (H1 : Permutation (objs (kn ++ clDead c ++ map snd rest) ++ objs lost) (objs (eps ++ map snd rest) ++ objs (lost ++ P ++ clDead c))).
    { unfold objs. rewrite <- !map_app. apply Permutation_map. rewrite Hkn. rewrite <- !app_assoc. apply Permutation_app_head.
      rewrite (app_assoc P), (Permutation_app_comm (P ++ clDead c)), <- !app_assoc. reflexivity. }
    rewrite H1. unfold objs at 1. rewrite Hp. 
    assert (H2 : Permutation (objs (known c ++ clDead c)) (map epObj (map snd m) ++ objs (lost ++ P ++ clDead c))).
    { unfold objs. rewrite <- !map_app. apply Permutation_map. unfold known. rewrite HP, HL, <- !app_assoc. reflexivity. }
    rewrite H2. rewrite <- !app_assoc. apply Permutation_app_head. apply Permutation_app_comm. }
  assert (Hn1' : forall e, In e eps -> In e (list_of c reg) \/ clNext c <= epObj e).
  { intros e He. destruct (Hn1 e He); auto. }
  destruct eps as [|e0 eps].
  - destruct (1 <? length (clRR c)) eqn:E1.
    + exists [], lost. cbn [clUrl clFilter clNext clRR clRefers clDead known]. unfold known at 1. cbn [clRR].
      do 8 (split; [solve [auto]|]). split; [apply Hgo; reflexivity|]. split; [reflexivity|]. apply refersOf_good.
    + assert (next' = clNext c).
      { destruct (Nat.eq_dec next' (clNext c)) as [|Hx]; [assumption|exfalso]. cbn [app] in Hp.
        assert (Hin : In (clNext c) (map epObj (map snd rest))).
        { eapply Permutation_in; [symmetry; exact Hp|]. apply in_or_app. right. apply in_seq. lia. }
        apply in_map_iff in Hin as (e & Ee & Hin). apply Hr, Hvlt in Hin. lia. }
      subst next'. exists [], []. cbn [clUrl clFilter clNext clRR clRefers clDead known]. unfold known at 1. cbn [clRR].
      do 8 (split; [solve [auto]|]). rewrite Nat.sub_diag. cbn [seq objs map]. split; [reflexivity|]. split; [reflexivity|]. exact Hg.
  - exists (e0 :: eps), lost. cbn [clUrl clFilter clNext clRR clRefers clDead known]. unfold known at 1. cbn [clRR].
    do 8 (split; [solve [auto]|]). split.
    + apply Hgo. change ((e0 :: eps) ++ P) with (concat ((e0 :: eps) :: map snd (adel bs_eqb (clRR c) reg))). apply concat_perm, aset_split. exact Hn.
    + split; [reflexivity|]. apply refersOf_good.
Qed.

Lemma NoDup_app_l {A} (l l' : list A) : NoDup (l ++ l') -> NoDup l.
Proof.
  induction l as [|a l IH]; cbn; intro H; [constructor|]. inversion H; subst. constructor; [intro X; apply H2, in_or_app; auto|auto].
Qed.
Lemma NoDup_app_intro {A} (l l' : list A) : NoDup l -> NoDup l' -> (forall x, In x l -> ~ In x l') -> NoDup (l ++ l').
Proof.
  induction l as [|a l IH]; cbn; intros H H' Hd; [exact H'|]. inversion H; subst. constructor.
  - intro X. apply in_app_or in X as [X|X]; [auto|]. apply (Hd a); auto.
  - apply IH; auto.
Qed.
Lemma adel_In_len {V} (m : list (bs * V)) k : NoDup (akeys m) -> length (adel bs_eqb m k) + 1 >= length m.
Proof.
  intro Hn. destruct (aget bs_eqb m k) as [v|] eqn:E.
  - pose proof (Permutation_length (adel_split m k v Hn E)) as H. cbn in H. rewrite !map_length in H. lia.
  - rewrite adel_absent by exact E. lia.
Qed.

Lemma inv_notify nl mk c reg urls s1 s2 : uProtocol (clUrl c) <> s2b "direct" -> inv nl c -> inv nl (clNotify nl mk c reg urls s1 s2).
Proof.
  intros Hd Hi. destruct (notify_spec nl mk c reg urls s1 s2 Hd Hi) as (eps & lost & Hu & Hf & Hle & _ & _ & _ & _ & _ & HP & HR & Hg).
  set (c' := clNotify nl mk c reg urls s1 s2) in *. destruct Hi as (Hn & Hne & Hno & Hlt & _).
  split; [|split; [|split; [|split]]].
  - rewrite HR. destruct eps; [destruct (1 <? length (clRR c)); [apply NoDup_adel; exact Hn|exact Hn]|apply NoDup_aset; [exact bs_eqb_spec|exact Hn]].
  - intros r l. rewrite HR. destruct eps as [|e0 eps]; [destruct (1 <? length (clRR c))|].
    + rewrite (In_adel bs_eqb bs_eqb_spec). intros [H _]. eauto.
    + eauto.
    + intro H. apply (In_aget bs_eqb bs_eqb_spec) in H; [|apply NoDup_aset; [exact bs_eqb_spec|exact Hn]]. rewrite (aget_aset bs_eqb bs_eqb_spec) in H.
      destruct (bs_eqb r reg); [injection H as <-; intro X; discriminate X|]. apply (aget_In bs_eqb bs_eqb_spec) in H. eauto.
  - apply (NoDup_app_l _ (objs lost)). eapply Permutation_NoDup; [symmetry; exact HP|]. apply NoDup_app_intro; [exact Hno|apply seq_NoDup|].
    intros x Hx Hs. apply in_seq in Hs. apply in_map_iff in Hx as (e & <- & He). apply Hlt in He. lia.
  - intros e He. assert (H : In (epObj e) (objs (known c ++ clDead c) ++ seq (clNext c) (clNext c' - clNext c))).
    { eapply Permutation_in; [exact HP|]. apply in_or_app. left. apply in_map. exact He. }
    apply in_app_or in H as [H|H]; [|apply in_seq in H; lia]. apply in_map_iff in H as (e' & E & He'). apply Hlt in He'. lia.
  - exact Hg.
Qed.
Lemma setFilter_same nl c f s1 s2 : let c' := clSetFilter nl c f s1 s2 in
  clUrl c' = clUrl c /\ clRR c' = clRR c /\ clNext c' = clNext c /\ clDead c' = clDead c /\ (good_refers nl (clFilter c) (known c) (clRefers c) -> good_refers nl (clFilter c') (known c') (clRefers c')).
Proof.
  unfold clSetFilter. destruct f as [f|], (clFilter c) as [g|] eqn:E; cbn [clUrl clRR clNext clDead clFilter clRefers];
    repeat (split; [reflexivity|]); try (intros _; apply refersOf_good).
  intro H. rewrite E. exact H.
Qed.
Lemma step_spec nl mk c o : uProtocol (clUrl c) <> s2b "direct" -> inv nl c -> inv nl (clStep nl mk c o) /\ clUrl (clStep nl mk c o) = clUrl c.
Proof.
  intros Hd Hi. destruct o as [reg urls s1 s2|f s1 s2]; cbn [clStep].
  - split; [apply inv_notify; assumption|]. destruct (notify_spec nl mk c reg urls s1 s2 Hd Hi) as (eps & lost & Hu & _). exact Hu.
  - destruct (setFilter_same nl c f s1 s2) as (E1 & E2 & E3 & E4 & E5). split; [|exact E1]. destruct Hi as (H1 & H2 & H3 & H4 & H5).
    specialize (E5 H5). unfold inv, known in *. rewrite E2, E3, E4. rewrite E2 in E5. auto.
Qed.
Lemma inv_new nl cu : inv nl (newCl cu).
Proof. unfold inv, known. cbn. repeat split; try constructor. all: intros; contradiction. Qed.
Lemma reached_inv nl mk cu os : uProtocol cu <> s2b "direct" -> inv nl (reached nl mk cu os) /\ clUrl (reached nl mk cu os) = cu.
Proof.
  intro Hd. unfold reached, clRun. enough (G : forall c, inv nl c /\ clUrl c = cu -> inv nl (fold_left (clStep nl mk) os c) /\ clUrl (fold_left (clStep nl mk) os c) = cu).
  { apply G. split; [apply inv_new|reflexivity]. }
  induction os as [|o os IH]; intros c Hc; cbn [fold_left]; [exact Hc|]. apply IH. destruct Hc as [Hi Hu]. rewrite <- Hu. apply step_spec; [rewrite Hu; exact Hd|exact Hi].
Qed.
Lemma reached_snoc nl mk cu os o : reached nl mk cu (os ++ [o]) = clStep nl mk (reached nl mk cu os) o.
Proof. unfold reached, clRun. rewrite fold_left_app. reflexivity. Qed.

Definition view (c : cl) : list (bs * list bs) := map (fun p => (fst p, map ident (snd p))) (clRR c).
Lemma map_aset rr reg l : map (fun p => (fst p, map ident (snd p))) (aset bs_eqb rr reg l) = aset bs_eqb (map (fun p => (fst p, map ident (snd p))) rr) reg (map ident l).
Proof. induction rr as [|[k v] rr IH]; cbn; [reflexivity|]. destruct (bs_eqb reg k); cbn; [reflexivity|]. rewrite IH. reflexivity. Qed.
Lemma map_adel (rr : list (bs * list ep)) reg : map (fun p => (fst p, map ident (snd p))) (adel bs_eqb rr reg) = adel bs_eqb (map (fun p => (fst p, map ident (snd p))) rr) reg.
Proof. unfold adel. induction rr as [|[k v] rr IH]; cbn; [reflexivity|]. destruct (bs_eqb reg k); cbn; rewrite IH; reflexivity. Qed.

Lemma reached_view nl mk cu os : uProtocol cu <> s2b "direct" -> has_endpoints mk cu -> view (reached nl mk cu os) = lists_of cu os.
Proof.
  intros Hd Hm. induction os as [|o os IH] using rev_ind; [reflexivity|]. rewrite reached_snoc. unfold lists_of in *. rewrite fold_left_app. cbn [fold_left].
  rewrite <- IH. destruct (reached_inv nl mk cu os Hd) as [Hi Hu]. set (c := reached nl mk cu os) in *. clear IH.
  destruct o as [reg urls s1 s2|f s1 s2]; cbn [clStep lists_after].
  - assert (Hd' : uProtocol (clUrl c) <> s2b "direct") by (rewrite Hu; exact Hd).
    destruct (notify_spec nl mk c reg urls s1 s2 Hd' Hi) as (eps & lost & _ & _ & _ & Hids & _ & _ & _ & _ & _ & HR & _). rewrite Hu in Hids.
    specialize (Hids Hm). rewrite <- Hids. unfold view. rewrite HR. destruct eps as [|e0 eps]; cbn [map].
    + destruct (clRR c) as [|a [|b r]] eqn:E; cbn [length Nat.ltb Nat.leb]; [reflexivity|reflexivity|]. rewrite map_adel. reflexivity.
    + rewrite map_aset. reflexivity.
  - destruct (setFilter_same nl c f s1 s2) as (_ & E2 & _). unfold view. rewrite E2. reflexivity.
Qed.

Lemma nonempty_step nl mk c o : uProtocol (clUrl c) <> s2b "direct" -> inv nl c -> clRefers c <> [] -> clRefers (clStep nl mk c o) <> [].
Proof.
  intros Hd Hi Hr. pose proof Hi as Hi0. destruct (step_spec nl mk c o Hd Hi) as [Hi' _]. destruct Hi as (Hn & Hne & _ & _ & Hg). destruct Hi' as (Hn' & Hne' & _ & _ & Hg').
  apply (good_refers_nonempty _ _ _ _ Hg'). apply (good_refers_nonempty _ _ _ _ Hg) in Hr.
  assert (K : forall rr : list (bs * list ep), (forall reg (l : list ep), In (reg, l) rr -> l <> []) -> (concat (map snd rr) <> [] <-> rr <> [])).
  { intros [|[r l] rr] H; cbn; [tauto|]. split; [intros _ X; discriminate X|]. intros _ X. apply app_eq_nil in X as [X _]. apply (H r l); [left; reflexivity|exact X]. }
  apply K; [exact Hne'|]. apply K in Hr; [|exact Hne].
  destruct o as [reg urls s1 s2|f s1 s2]; cbn [clStep].
  - destruct (notify_spec nl mk c reg urls s1 s2 Hd Hi0) as (eps & lost & _ & _ & _ & _ & _ & _ & _ & _ & _ & HR & _).
    rewrite HR. destruct eps as [|e0 eps].
    + destruct (1 <? length (clRR c)) eqn:E; [|exact Hr]. apply Nat.ltb_lt in E. pose proof (adel_In_len (clRR c) reg Hn) as H. intro X. rewrite X in H. cbn in H. lia.
    + intro X. assert (aget bs_eqb (aset bs_eqb (clRR c) reg (e0 :: eps)) reg = None) by (rewrite X; reflexivity).
      rewrite (aget_aset bs_eqb bs_eqb_spec), eqb_refl_bs in H. discriminate H.
  - destruct (setFilter_same nl c f s1 s2) as (_ & E2 & _). rewrite E2. exact Hr.
Qed.
Lemma nonempty_run nl mk os : forall c, uProtocol (clUrl c) <> s2b "direct" -> inv nl c -> clRefers c <> [] -> clRefers (clRun nl mk c os) <> [].
Proof.
  unfold clRun. induction os as [|o os IH]; intros c Hd Hi Hr; cbn [fold_left]; [exact Hr|]. destruct (step_spec nl mk c o Hd Hi) as [Hi' Hu].
  apply IH; [rewrite Hu; exact Hd|exact Hi'|]. apply nonempty_step; assumption.
Qed.

(* no leak: every object made is either known or scheduled for destruction *)
Lemma no_leak nl mk cu os : uProtocol cu <> s2b "direct" -> has_endpoints mk cu -> Forall (distinct_nodes cu) os ->
  let c := reached nl mk cu os in
  (forall reg, NoDup (map ident (list_of c reg))) /\ (forall n, n < clNext c -> In n (objs (known c ++ clDead c))).
Proof.
  intros Hd Hm. induction os as [|o os IH] using rev_ind; intros Hf.
  - cbn. split; [intro reg; unfold list_of; cbn; constructor|lia].
  - apply Forall_app in Hf as [Hf Ho]. specialize (IH Hf). inversion Ho; subst. clear Ho H2. rename H1 into Ho. cbn zeta in *. rewrite reached_snoc.
    destruct (reached_inv nl mk cu os Hd) as [Hi Hu]. set (c := reached nl mk cu os) in *. destruct IH as [IH1 IH2].
    destruct o as [reg urls s1 s2|f s1 s2]; cbn [clStep distinct_nodes] in *.
    + assert (Hd' : uProtocol (clUrl c) <> s2b "direct") by (rewrite Hu; exact Hd).
      pose proof (inv_notify nl mk c reg urls s1 s2 Hd' Hi) as Hi'.
      destruct (notify_spec nl mk c reg urls s1 s2 Hd' Hi) as (eps & lost & _ & _ & Hle & Hids & _ & _ & _ & Hl & HP & HR & _).
      rewrite Hu in Hids. specialize (Hids Hm). set (c' := clNotify nl mk c reg urls s1 s2) in *. split.
      * intro r. unfold list_of. rewrite HR. destruct eps as [|e0 eps]; [destruct (1 <? length (clRR c))|].
        -- rewrite (aget_adel bs_eqb bs_eqb_spec). destruct (bs_eqb r reg); [constructor|apply IH1].
        -- apply IH1.
        -- rewrite (aget_aset bs_eqb bs_eqb_spec). destruct (bs_eqb r reg); [rewrite Hids; exact Ho|apply IH1].
      * intros n Hn. rewrite (Hl (IH1 reg)) in HP. cbn [objs map] in HP. rewrite app_nil_r in HP.
        eapply Permutation_in; [symmetry; exact HP|]. apply in_or_app. destruct (Nat.lt_ge_cases n (clNext c)) as [H|H]; [left; apply IH2; exact H|].
        right. apply in_seq. lia.
    + destruct (setFilter_same nl c f s1 s2) as (_ & E2 & E3 & E4 & _). unfold list_of, known in *. rewrite E2, E3, E4. auto.
Qed.

(* ---- the urls of endpoints *)
Lemma merge_fold (ps : list (bs * bs)) : NoDup (map fst ps) -> forall m k,
  aget bs_eqb (fold_left (fun m kv => aset bs_eqb m (fst kv) (snd kv)) ps m) k =
  match aget bs_eqb ps k with Some v => Some v | None => aget bs_eqb m k end.
Proof.
  induction ps as [|[k0 v0] ps IH]; intros Hn m k; cbn [fold_left fst snd]; [reflexivity|]. cbn [map fst] in Hn. inversion Hn as [|? ? Hni Hn']; subst.
  rewrite IH by exact Hn'. cbn [aget]. rewrite (aget_aset bs_eqb bs_eqb_spec). destruct (bs_eqb k k0) eqn:E; [|reflexivity].
  apply bs_eqb_spec in E. subst k0. replace (aget bs_eqb ps k) with (@None bs); [reflexivity|]. symmetry. apply (aget_None bs_eqb bs_eqb_spec). exact Hni.
Qed.
Lemma mergeInto_made cu u : has_keys_once (uParams cu) -> made_from cu u (mergeInto u (uParams cu)).
Proof.
  intro H. unfold made_from, mergeInto, withParams. cbn [uProtocol uHost uPort uPath uGroup uParams]. repeat (split; [reflexivity|]).
  intro k. unfold pget at 1. destruct (uParams cu) as [ps|]; cbn in H.
  - rewrite merge_fold by exact H. unfold pget. destruct (aget bs_eqb ps k); [reflexivity|]. destruct (uParams u); reflexivity.
  - cbn [fold_left]. unfold pget. destruct (uParams u); reflexivity.
Qed.
Lemma loop_made cu mk urls : has_keys_once (uParams cu) -> forall m next acc eps rest next',
  notifyLoop cu mk urls m next acc = (eps, rest, next') ->
  (forall e, In e eps -> In e acc \/ In e (map snd m) \/ exists u, In (Some u) urls /\ canServe u cu = true /\ made_from cu u (epUrl e)) /\
  (forall e, In e (map snd rest) -> In e (map snd m)).
Proof.
  intro Hk. induction urls as [|[u|] urls IH]; intros m next acc eps rest next'; cbn [notifyLoop].
  - intro H. injection H as <- <- <-. auto.
  - destruct (canServe u cu) eqn:Ec; cbn [negb].
    2:{ intro H. destruct (IH _ _ _ _ _ _ H) as [G1 G2]. split; [|exact G2]. intros e He.
        destruct (G1 e He) as [X|[X|(v & X & Y)]]; auto. right. right. exists v. split; [right; exact X|exact Y]. }
    destruct (aget bs_eqb m (identity_of u)) as [e0|] eqn:Eg.
    + intro H. destruct (IH _ _ _ _ _ _ H) as [G1 G2].
      assert (D : forall e, In e (map snd (adel bs_eqb m (identity_of u))) -> In e (map snd m)).
      { intros e He. apply in_map_iff in He as ([k e'] & <- & He). apply (In_adel bs_eqb bs_eqb_spec) in He as [He _]. apply in_map_iff. exists (k, e'). auto. }
      split; [|auto]. intros e He. destruct (G1 e He) as [X|[X|(v & X & Y)]]; auto.
      * apply in_app_or in X as [X|[<-|[]]]; auto. right. left. apply (aget_In bs_eqb bs_eqb_spec) in Eg. apply in_map_iff. exists (identity_of u, e0). auto.
      * right. right. exists v. split; [right; exact X|exact Y].
    + destruct (mk (uProtocol u)); intro H; destruct (IH _ _ _ _ _ _ H) as [G1 G2]; (split; [|exact G2]); intros e He.
      * destruct (G1 e He) as [X|[X|(v & X & Y)]]; auto.
        -- apply in_app_or in X as [X|[<-|[]]]; auto. right. right. exists u. split; [left; reflexivity|]. split; [exact Ec|]. cbn [epUrl]. apply mergeInto_made. exact Hk.
        -- right. right. exists v. split; [right; exact X|exact Y].
      * destruct (G1 e He) as [X|[X|(v & X & Y)]]; auto. right. right. exists v. split; [right; exact X|exact Y].
  - intro H. destruct (IH _ _ _ _ _ _ H) as [G1 G2]. split; [|exact G2]. intros e He.
    destruct (G1 e He) as [X|[X|(v & X & Y)]]; auto. right. right. exists v. split; [right; exact X|exact Y].
Qed.
Lemma notify_made nl mk c reg urls s1 s2 e : has_keys_once (uParams (clUrl c)) -> let c' := clNotify nl mk c reg urls s1 s2 in
  In e (known c') \/ In e (clDead c') ->
  In e (known c) \/ In e (clDead c) \/ exists u, In (Some u) (nodes urls) /\ canServe u (clUrl c) = true /\ made_from (clUrl c) u (epUrl e).
Proof.
  intro Hk. cbn zeta. pose proof (processWeight_nodes urls) as Hw. unfold clNotify.
  destruct (processWeight urls) as [w us]. cbn [snd] in Hw. subst us. fold (list_of c reg). set (m := endpointMap (list_of c reg)).
  assert (K : forall e, In e (map snd m) -> In e (known c)).
  { intros x Hx. apply endpointMap_in in Hx. unfold list_of in Hx. destruct (aget bs_eqb (clRR c) reg) as [l|] eqn:E; [|destruct Hx].
    apply (aget_In bs_eqb bs_eqb_spec) in E. unfold known. apply in_concat. exists l. split; [apply in_map_iff; exists (reg, l); auto|exact Hx]. }
  assert (D : forall x, In x (concat (map snd (adel bs_eqb (clRR c) reg))) -> In x (known c)).
  { intros x Hx. apply in_concat in Hx as (l & Hl & Hx). apply in_map_iff in Hl as ([r l'] & <- & Hl). apply (In_adel bs_eqb bs_eqb_spec) in Hl as [Hl _].
    unfold known. apply in_concat. exists l'. split; [apply in_map_iff; exists (r, l'); auto|exact Hx]. }
  destruct (notifyLoop (clUrl c) mk (nodes urls) m (clNext c) []) as [[eps rest] next'] eqn:El.
  destruct (loop_made _ _ _ Hk _ _ _ _ _ _ El) as [G1 G2].
  assert (R : In e (clDead c ++ map snd rest) -> In e (known c) \/ In e (clDead c) \/ exists u, In (Some u) (nodes urls) /\ canServe u (clUrl c) = true /\ made_from (clUrl c) u (epUrl e)).
  { intro H. apply in_app_or in H as [H|H]; auto. }
  destruct eps as [|e0 eps].
  - destruct (1 <? length (clRR c)); cbn [clRR clDead known]; unfold known at 1; cbn [clRR].
    + intros [H|H]; auto.
    + intros [H|H]; auto.
  - cbn [clRR clDead known]; unfold known at 1; cbn [clRR]. intros [H|H]; [|auto].
    apply in_concat in H as (l & Hl & Hx). apply in_map_iff in Hl as ([r l'] & E & Hl). cbn [snd] in E. subst l'.
    assert (Z : l = e0 :: eps \/ In (r, l) (clRR c)).
    { clear - Hl. induction (clRR c) as [|[k v] rr IH]; cbn in Hl; [destruct Hl as [H|[]]; injection H as _ <-; auto|].
      destruct (bs_eqb reg k); cbn in Hl.
      - destruct Hl as [H|H]; [injection H as _ <-; auto|right; right; exact H].
      - destruct Hl as [H|H]; [right; left; exact H|]. destruct (IH H); auto. right. right. exact H0. }
    destruct Z as [->|Z].
    + destruct (G1 e Hx) as [[]|[X|X]]; auto.
    + left. unfold known. apply in_concat. exists l. split; [apply in_map_iff; exists (r, l); auto|exact Hx].
Qed.
Lemma reached_made nl mk cu os e : uProtocol cu <> s2b "direct" -> has_keys_once (uParams cu) -> let c := reached nl mk cu os in
  In e (known c) \/ In e (clDead c) ->
  exists reg urls s1 s2 u, In (CNotify reg urls s1 s2) os /\ In (Some u) (nodes urls) /\ canServe u cu = true /\ made_from cu u (epUrl e).
Proof.
  intros Hd Hk. induction os as [|o os IH] using rev_ind; cbn zeta; [intros [[]|[]]|]. rewrite reached_snoc.
  destruct (reached_inv nl mk cu os Hd) as [_ Hu]. cbn zeta in IH. set (c := reached nl mk cu os) in *.
  assert (W : In e (known c) \/ In e (clDead c) -> exists reg urls s1 s2 u, In (CNotify reg urls s1 s2) (os ++ [o]) /\ In (Some u) (nodes urls) /\ canServe u cu = true /\ made_from cu u (epUrl e)).
  { intro H. destruct (IH H) as (a & b & x & y & u & H1 & H2). exists a, b, x, y, u. split; [apply in_or_app; auto|exact H2]. }
  destruct o as [reg urls s1 s2|f s1 s2]; cbn [clStep].
  - intro H. apply notify_made in H; [|rewrite Hu; exact Hk]. rewrite Hu in H. destruct H as [H|[H|(u & H)]]; auto.
    exists reg, urls, s1, s2, u. split; [apply in_or_app; right; left; reflexivity|exact H].
  - destruct (setFilter_same nl c f s1 s2) as (_ & E2 & _ & E4 & _). unfold known in *. rewrite E2, E4. exact W.
Qed.
Lemma reached_open nl mk cu os : clClosed (reached nl mk cu os) = false.
Proof.
  induction os as [|o os IH] using rev_ind; [reflexivity|]. rewrite reached_snoc. set (c := reached nl mk cu os) in *.
  destruct o as [reg urls s1 s2|f s1 s2]; cbn [clStep].
  - unfold clNotify. destruct (processWeight urls) as [w us].
    match goal with |- context [notifyLoop ?a ?b ?d ?e ?g ?h] => destruct (notifyLoop a b d e g h) as [[eps rest] nx] end.
    destruct eps; [destruct (1 <? length (clRR c))|]; exact IH.
  - unfold clSetFilter. destruct f, (clFilter c); exact IH.
Qed.
