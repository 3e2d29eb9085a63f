(* CmdProofs.v: proofs of C23 and C24. *)
From Coq Require Import Permutation Sorted.
From Verif Require Import Base Lists GoStrings GoStrings2 UrlModel UrlSpec ClusterModel ClusterProofs CoreProofs CmdModel CmdSpec.
Ltac Zify.zify_post_hook ::= idtac.

(* ---------------------------------------------------------------- C23 *)
Lemma indexOf_star p : match indexOf p (s2b "*") with
  | Some i => exists b, p = firstn i p ++ x2a :: b /\ ~ In x2a (firstn i p)
  | None => ~ In x2a p end.
Proof.
  destruct (indexOf p (s2b "*")) as [i|] eqn:E.
  - apply indexOf_Some in E as (a & b & -> & <- & Hm). rewrite firstn_app_exact. exists b. split; [reflexivity|].
    intro H. apply in_split in H as (a1 & a2 & ->). specialize (Hm a1 (a2 ++ s2b "*" ++ b)). rewrite <- app_assoc in Hm. specialize (Hm eq_refl).
    rewrite app_length in Hm. cbn in Hm. lia.
  - rewrite indexOf_None in E. intro H. apply in_split in H as (a & b & H). apply (E a b). exact H.
Qed.
Lemma plain_spec p h : (if bs_eqb p (s2b "*") then true
           else match indexOf p (s2b "*") with Some idx => hasPrefix h (firstn idx p) | None => bs_eqb h p end) = true <-> match_plain p h.
Proof.
  destruct (bs_eqb p (s2b "*")) eqn:E.
  - apply bs_eqb_spec in E. subst p. split; [|reflexivity]. intros _. right. exists [], []. split; [reflexivity|]. split; [intros []|]. exists h. reflexivity.
  - pose proof (indexOf_star p) as H. destruct (indexOf p (s2b "*")) as [i|].
    + destruct H as (b & E1 & Hni). rewrite hasPrefix_spec. split.
      * intro Ht. right. exists (firstn i p), b. auto.
      * intros [[Hn _]|(a & b' & E2 & Hn & Ht)].
        -- exfalso. apply Hn. rewrite E1. apply in_or_app. right. left. reflexivity.
        -- replace (firstn i p) with a; [exact Ht|]. rewrite E1 in E2. clear - E2 Hn Hni. revert E2 Hn Hni. generalize (firstn i p) as c. revert a.
           induction a as [|x a IH]; intros [|y c] E2 Hn Hni; cbn in E2; inversion E2 as [[Ex E3]]; [reflexivity|exfalso; apply Hni; left; congruence|exfalso; apply Hn; left; congruence|].
           f_equal. apply IH; [exact E3| |]; intro X; [apply Hn|apply Hni]; right; exact X.
    + rewrite bs_eqb_spec. split; [intros ->; left; auto|]. intros [[_ E2]|(a & b & E2 & _)]; [exact E2|]. exfalso. apply H. rewrite E2. apply in_or_app. right. left. reflexivity.
Qed.
Lemma isMatch_spec p h : isMatch p h = true <-> match_addr p h.
Proof.
  unfold isMatch, match_addr. destruct p as [|c p]; [exact (plain_spec [] h)|].
  assert (E : hasPrefix (c :: p) (s2b "!") = byte_eqb c x21) by (cbn; destruct p; apply andb_true_r).
  rewrite E. destruct (byte_eqb c x21) eqn:Ec.
  - apply byte_eqb_spec in Ec. subst c. cbn [skipn]. rewrite negb_true_iff, <- plain_spec, not_true_iff_false. reflexivity.
  - rewrite plain_spec. destruct c; try reflexivity. discriminate Ec.
Qed.
Lemma split_to r : match splitStr (s2b "to") r with
  | [a; b] => r = a ++ s2b "to" ++ b /\ contains a (s2b "to") = false /\ contains b (s2b "to") = false
  | _ => forall a b, r = a ++ s2b "to" ++ b -> contains a (s2b "to") = false -> contains b (s2b "to") = false -> False end.
Proof.
  assert (Hs : s2b "to" <> []) by (intro X; discriminate X).
  assert (G : forall a b, contains a (s2b "to") = false -> contains b (s2b "to") = false -> splitStr (s2b "to") (a ++ s2b "to" ++ b) = [a; b]).
  { intros a b Ha Hb. rewrite splitStr_eq by exact Hs. destruct (indexOf (a ++ s2b "to" ++ b) (s2b "to")) as [i|] eqn:E.
    - destruct (indexOf_Some _ _ _ E) as (p & q & E1 & Hl & Hm). pose proof (Hm a b eq_refl) as Hle.
      assert (Hp : p = a /\ q = b).
      { destruct (Nat.eq_dec (length p) (length a)) as [El|Hne].
        - apply (f_equal (firstn (length p))) in E1 as F. rewrite firstn_app_exact, El, firstn_app_exact in F. subst p. split; [reflexivity|].
          apply app_inv_head in E1. apply app_inv_head in E1. congruence.
        - exfalso. assert (Hlt : length p < length a) by lia. 
          assert (E2 : skipn (length p) (a ++ s2b "to" ++ b) = s2b "to" ++ q) by (rewrite E1; apply skipn_app_exact).
          rewrite skipn_app in E2. replace (length p - length a) with 0 in E2 by lia. cbn [skipn] in E2.
          destruct (skipn (length p) a) as [|c0 [|c1 t]] eqn:Esk.
          + apply (f_equal (@length _)) in Esk. rewrite skipn_length in Esk. cbn in Esk. lia.
          + cbn in E2. injection E2 as _ E3. discriminate E3.
          + cbn in E2. injection E2 as -> -> _. assert (Hc : contains a (s2b "to") = true); [|congruence].
            apply contains_spec. exists (firstn (length p) a), t. rewrite <- (firstn_skipn (length p) a) at 1. rewrite Esk. reflexivity. }
      destruct Hp as [-> ->]. subst i. rewrite firstn_app_exact. f_equal. rewrite <- skipn_skipn', !skipn_app_exact. apply splitStr_none; assumption.
    - exfalso. rewrite indexOf_None in E. apply (E a b). reflexivity. }
  pose proof (joinStr_split (s2b "to") r Hs) as Hj. pose proof (splitStr_parts (s2b "to") r) as Hp.
  destruct (splitStr (s2b "to") r) as [|a [|b [|c l]]] eqn:E.
  - intros a b -> Ha Hb. rewrite G in E by assumption. discriminate E.
  - intros a' b -> Ha Hb. rewrite G in E by assumption. discriminate E.
  - split; [symmetry; exact Hj|]. split; apply Hp; cbn; auto.
  - intros a' b' -> Ha Hb. rewrite G in E by assumption. discriminate E.
Qed.
Lemma routeOne_spec local r urls : exists keep, routeOne local r urls = filter keep urls /\
  forall u, keep u = true <-> (uProtocol u = s2b "rule" \/ forall from target, rule_is r from target -> match_addr from local -> match_addr target (uHost u)).
Proof.
  unfold routeOne. pose proof (split_to r) as H.
  assert (Hall : forall us : list url, filter (fun _ => true) us = us) by (induction us as [|x us IH]; cbn; [reflexivity|rewrite IH; reflexivity]).
  destruct (splitStr (s2b "to") r) as [|a [|b [|c l]]] eqn:Es.
  1,2,4: exists (fun _ => true); split; [symmetry; apply Hall|]; intro u; split; [|reflexivity]; intros _; right; intros from target (a' & b' & E & Ha & Hb & _); exfalso; eapply H; eauto.
  destruct H as (E & Ha & Hb).
  assert (U : forall from target, rule_is r from target -> from = trimSpace a /\ target = trimSpace b /\ from <> [] /\ target <> []).
  { intros from target (a' & b' & E' & Ha' & Hb' & Hf & Ht & Hn).
    assert (a' = a /\ b' = b).
    { rewrite E in E'. 
      assert (G : length a' = length a).
      { destruct (Nat.lt_trichotomy (length a') (length a)) as [L|[L|L]]; [|exact L|]; exfalso.
        - clear - E' L Ha. pose proof (f_equal (skipn (length a')) E') as F. rewrite (skipn_app_exact a'), skipn_app in F.
          replace (length a' - length a) with 0 in F by lia. cbn [skipn] in F. destruct (skipn (length a') a) as [|c0 [|c1 t]] eqn:Esk.
          + apply (f_equal (@length _)) in Esk. rewrite skipn_length in Esk. cbn in Esk. lia.
          + cbn in F. injection F as _ F. discriminate F.
          + cbn in F. injection F as -> -> _. assert (Hc : contains a (s2b "to") = true); [|congruence].
            apply contains_spec. exists (firstn (length a') a), t. rewrite <- (firstn_skipn (length a') a) at 1. rewrite Esk. reflexivity.
        - clear - E' L Ha'. symmetry in E'. pose proof (f_equal (skipn (length a)) E') as F. rewrite (skipn_app_exact a), skipn_app in F.
          replace (length a - length a') with 0 in F by lia. cbn [skipn] in F. destruct (skipn (length a) a') as [|c0 [|c1 t]] eqn:Esk.
          + apply (f_equal (@length _)) in Esk. rewrite skipn_length in Esk. cbn in Esk. lia.
          + cbn in F. injection F as _ F. discriminate F.
          + cbn in F. injection F as -> -> _. assert (Hc : contains a' (s2b "to") = true); [|congruence].
            apply contains_spec. exists (firstn (length a) a'), t. rewrite <- (firstn_skipn (length a) a') at 1. rewrite Esk. reflexivity. }
      pose proof (f_equal (firstn (length a)) E') as F. rewrite firstn_app_exact in F. rewrite <- G, firstn_app_exact in F. subst a'.
      split; [reflexivity|]. apply app_inv_head in E'. apply app_inv_head in E'. congruence. }
    destruct H as [-> ->]. auto. }
  destruct (negb (bs_eqb (trimSpace a) []) && negb (bs_eqb (trimSpace b) []) && isMatch (trimSpace a) local) eqn:Ec.
  - eexists. split; [reflexivity|]. intro u. cbn beta. rewrite orb_true_iff, bs_eqb_spec. change RuleProtocol with (s2b "rule").
    apply andb_prop in Ec as [Ec Em]. apply andb_prop in Ec as [Ef Et]. apply isMatch_spec in Em.
    assert (Hf : trimSpace a <> []) by (intro X; rewrite X in Ef; discriminate Ef). assert (Ht : trimSpace b <> []) by (intro X; rewrite X in Et; discriminate Et).
    rewrite isMatch_spec. split; (intros [X|X]; [left; exact X|right]).
    + intros from target Hr _. destruct (U _ _ Hr) as (_ & -> & _). exact X.
    + apply (X (trimSpace a) (trimSpace b)); [|exact Em]. exists a, b. auto 10.
  - exists (fun _ => true). split; [symmetry; apply Hall|]. intro u. split; [|reflexivity]. intros _. right. intros from target Hr Hm. exfalso.
    destruct (U _ _ Hr) as (-> & -> & Hf & Ht). apply isMatch_spec in Hm. rewrite Hm in Ec.
    destruct (bs_eqb (trimSpace a) []) eqn:E1; [apply bs_eqb_spec in E1; tauto|]. destruct (bs_eqb (trimSpace b) []) eqn:E2; [apply bs_eqb_spec in E2; tauto|]. discriminate Ec.
Qed.
Lemma filter_filter' {A} (f g : A -> bool) l : filter f (filter g l) = filter (fun x => g x && f x) l.
Proof. induction l as [|x l IH]; cbn; [reflexivity|]. destruct (g x); cbn; [destruct (f x)|]; rewrite IH; reflexivity. Qed.
Lemma route_fold local routers : forall urls, exists keep, fold_left (fun us r => routeOne local r us) routers urls = filter keep urls /\
  forall u, keep u = true <-> route_allows local routers u.
Proof.
  induction routers as [|r routers IH]; intro urls; cbn [fold_left].
  - exists (fun _ => true). split; [induction urls as [|x us IH]; cbn; [reflexivity|rewrite <- IH; reflexivity]|]. intro u. split; [|reflexivity]. intros _. right. intros r f t [].
  - destruct (routeOne_spec local r urls) as (k1 & E1 & H1). destruct (IH (routeOne local r urls)) as (k2 & E2 & H2).
    exists (fun u => k1 u && k2 u). split; [rewrite E2, E1; apply filter_filter'|]. intro u. rewrite andb_true_iff, H1, H2. unfold route_allows. split.
    + intros [[X|X] [Y|Y]]; [tauto..|]. right. intros r' f t [<-|Hin]; [apply X|apply Y; exact Hin].
    + intros [X|X]; [tauto|]. split; right; intros; eapply X; cbn; eauto.
Qed.
Lemma route_spec local urls routers : exists keep, processRoute local urls routers = filter keep urls /\
  forall u, keep u = true <-> route_allows local routers u.
Proof.
  destruct (route_fold local routers urls) as (k & E & H). exists k. split; [|exact H]. rewrite <- E. unfold processRoute.
  destruct urls as [|x urls]; [|destruct routers; reflexivity]. rewrite E. destruct routers; reflexivity.
Qed.

(* ---------------------------------------------------------------- C24: which command is in force *)
Lemma matchPattern_spec lib u c t : t <> CMDSwitcher -> (matchPattern lib c u = true /\ cmType c = t) <-> concerns lib u t c.
Proof.
  intro Ht. unfold matchPattern, concerns. split.
  - intros [H <-]. split; [reflexivity|]. destruct (cmType c =? CMDSwitcher)%Z eqn:E; [apply Z.eqb_eq in E; tauto|].
    destruct (bs_eqb (cmPattern c) (s2b "*")) eqn:E1; [apply bs_eqb_spec in E1; auto|]. cbn [orb] in H.
    destruct (hasPrefix (uPath u) (cmPattern c)) eqn:E2; [apply hasPrefix_spec in E2; auto|auto].
  - intros [<- H]. split; [|reflexivity]. destruct (cmType c =? CMDSwitcher)%Z eqn:E; [reflexivity|].
    destruct (bs_eqb (cmPattern c) (s2b "*")) eqn:E1; [reflexivity|]. cbn [orb].
    destruct (hasPrefix (uPath u) (cmPattern c)) eqn:E2; [reflexivity|].
    destruct H as [H|[H|H]]; [apply bs_eqb_spec in H; congruence|apply hasPrefix_spec in H; congruence|exact H].
Qed.
Definition tcHit lib u (c : cmd) : bool := matchPattern lib c u && (cmType c =? CMDTrafficControl)%Z.
Definition dcHit lib u (c : cmd) : bool := matchPattern lib c u && (cmType c =? CMDDegrade)%Z.
Lemma merge_fold lib u l : forall tc dc sc, let '(tc', dc', sc') := fold_left (mergeStep lib u) l (tc, dc, sc) in
  tc' = orElse tc (find (tcHit lib u) l) /\ (dc' = None <-> dc = None /\ forall c, In c l -> dcHit lib u c = false) /\
  (forall c, dc' = Some c -> dc = Some c \/ In c l).
Proof.
  induction l as [|c l IH]; intros tc dc sc; cbn [fold_left find].
  - split; [destruct tc; reflexivity|]. split; [|auto]. split; [intros ->; split; [reflexivity|intros c []]|tauto].
  - destruct (mergeStep lib u (tc, dc, sc) c) as [[tc1 dc1] sc1] eqn:E. specialize (IH tc1 dc1 sc1).
    destruct (fold_left (mergeStep lib u) l (tc1, dc1, sc1)) as [[tc2 dc2] sc2]. destruct IH as (IH1 & IH2 & IH3).
    unfold mergeStep in E. unfold tcHit, dcHit in *. destruct (matchPattern lib c u) eqn:Em; cbn [andb].
    + destruct (cmType c =? CMDTrafficControl)%Z eqn:E0; [|destruct (cmType c =? CMDDegrade)%Z eqn:E1; [|destruct (cmType c =? CMDSwitcher)%Z eqn:E2]];
        injection E as <- <- <-.
      * split; [rewrite IH1; destruct tc; reflexivity|]. split.
        -- rewrite IH2. apply Z.eqb_eq in E0. split; intros [H1 H2]; (split; [exact H1|]).
           ++ intros c' [<-|Hc]; [rewrite Em, E0; reflexivity|apply H2; exact Hc].
           ++ intros c' Hc. apply H2. right. exact Hc.
        -- intros c' Hc. apply IH3 in Hc as [Hc|Hc]; [auto|right; right; exact Hc].
      * split; [exact IH1|]. split.
        -- rewrite IH2. split; [intros [H1 _]; discriminate H1|]. intros [_ H2]. specialize (H2 c (or_introl eq_refl)). rewrite Em, E1 in H2. discriminate H2.
        -- intros c' Hc. apply IH3 in Hc as [Hc|Hc]; [injection Hc as ->; right; left; reflexivity|right; right; exact Hc].
      * split; [exact IH1|]. split.
        -- rewrite IH2. split; intros [H1 H2]; (split; [exact H1|]).
           ++ intros c' [<-|Hc]; [rewrite Em, E1; reflexivity|apply H2; exact Hc].
           ++ intros c' Hc. apply H2. right. exact Hc.
        -- intros c' Hc. apply IH3 in Hc as [Hc|Hc]; [auto|right; right; exact Hc].
      * split; [exact IH1|]. split.
        -- rewrite IH2. split; intros [H1 H2]; (split; [exact H1|]).
           ++ intros c' [<-|Hc]; [rewrite Em, E1; reflexivity|apply H2; exact Hc].
           ++ intros c' Hc. apply H2. right. exact Hc.
        -- intros c' Hc. apply IH3 in Hc as [Hc|Hc]; [auto|right; right; exact Hc].
    + injection E as <- <- <-. split; [exact IH1|]. split.
      * rewrite IH2. split; intros [H1 H2]; (split; [exact H1|]).
        -- intros c' [<-|Hc]; [rewrite Em; reflexivity|apply H2; exact Hc].
        -- intros c' Hc. apply H2. right. exact Hc.
      * intros c' Hc. apply IH3 in Hc as [Hc|Hc]; [auto|right; right; exact Hc].
Qed.
Definition merged lib info u : option cmd * option cmd * option cmd := match info with [] => (None, None, None) | _ => mergeCommand lib info u end.
Lemma find_sorted f l c : StronglySorted (fun a b => (cmIndex a <= cmIndex b)%Z) l -> find f l = Some c ->
  forall c', In c' l -> f c' = true -> (cmIndex c <= cmIndex c')%Z.
Proof.
  induction l as [|x l IH]; cbn [find]; intros Hs H; [discriminate H|]. inversion Hs as [|? ? Hs' Hx]; subst. rewrite Forall_forall in Hx. destruct (f x) eqn:E.
  - injection H as <-. intros c' [<-|Hc] _; [lia|apply Hx; exact Hc].
  - intros c' [<-|Hc] Hf; [congruence|]. apply IH; assumption.
Qed.
Lemma merged_spec lib u info : sort_ok lib -> let '(tc, dc, _) := merged lib info u in
  match tc with Some c => lowest lib u CMDTrafficControl info c | None => none_concerns lib u CMDTrafficControl info end /\
  (dc = None <-> none_concerns lib u CMDDegrade info) /\
  (forall c, tc = Some c -> exists l, clParse lib info = Some l /\ In c l).
Proof.
  intro Hs. unfold merged, none_concerns, lowest, cmds_of. destruct info as [|b info]; [split; [intros c []|split; [split; [intros _ c []|reflexivity]|intros c H; discriminate H]]|].
  unfold mergeCommand. destruct (clParse lib (b :: info)) as [l|] eqn:Ep; [|split; [intros c []|split; [split; [intros _ c []|reflexivity]|intros c H; discriminate H]]].
  pose proof (merge_fold lib u (clSort lib l) None None None) as H. destruct (fold_left _ _ _) as [[tc dc] sc]. destruct H as (H1 & H2 & _). cbn [orElse] in H1.
  destruct (Hs l) as [Hp Hss]. assert (Hin : forall c, In c (clSort lib l) <-> In c l) by (intro c; split; apply Permutation_in; [exact Hp|symmetry; exact Hp]).
  assert (Ht : forall c, tcHit lib u c = true <-> concerns lib u CMDTrafficControl c).
  { intro c. rewrite <- matchPattern_spec by discriminate. unfold tcHit. rewrite andb_true_iff, Z.eqb_eq. reflexivity. }
  assert (Hd : forall c, dcHit lib u c = true <-> concerns lib u CMDDegrade c).
  { intro c. rewrite <- matchPattern_spec by discriminate. unfold dcHit. rewrite andb_true_iff, Z.eqb_eq. reflexivity. }
  split; [|split].
  - destruct tc as [c|]; symmetry in H1.
    + pose proof (find_sorted _ _ _ Hss H1) as Hm. apply find_some in H1 as [H1 H3]. split; [apply Hin; exact H1|]. split; [apply Ht; exact H3|].
      intros c' Hc Hco. apply Hm; [apply Hin; exact Hc|apply Ht; exact Hco].
    + intros c Hc Hco. apply Hin in Hc. apply (find_none _ _ H1) in Hc. apply Ht in Hco. congruence.
  - rewrite H2. split.
    + intros [_ H] c Hc Hco. apply Hin in Hc. apply H in Hc. apply Hd in Hco. congruence.
    + intro H. split; [reflexivity|]. intros c Hc. apply Hin in Hc. specialize (H c Hc). rewrite <- Hd in H. apply not_true_is_false. exact H.
  - intros c ->. symmetry in H1. apply find_some in H1 as [H1 _]. exists l. split; [reflexivity|]. apply Hin. exact H1.
Qed.

(* ---------------------------------------------------------------- C24: listeners *)
Definition linv (w : crw) : Prop :=
  NoDup (akeys (cwOthers w)) /\
  (forall g1 l1 g2 l2, In (g1, l1) (cwOthers w) -> In (g2, l2) (cwOthers w) -> lnId l1 = lnId l2 -> g1 = g2) /\
  (forall g l, In (g, l) (cwOthers w) -> In (lnId l, g) (cwSubs w)) /\
  (forall s, In s (cwSubs w) -> fst s < cwNext w).
Definition exact_subs (w : crw) : Prop := forall s, In s (cwSubs w) -> exists l, In (snd s, l) (cwOthers w) /\ lnId l = fst s.
Definition same_but (w w' : crw) : Prop :=
  cwUrl w' = cwUrl w /\ cwStatic w' = cwStatic w /\ cwOwn w' = cwOwn w /\ cwTc w' = cwTc w /\ cwDegrade w' = cwDegrade w /\ cwSwitch w' = cwSwitch w /\
  cwAgent w' = cwAgent w /\ cwService w' = cwService w /\ cwAvail w' = cwAvail w.
Lemma same_but_refl w : same_but w w.
Proof. unfold same_but. auto 10. Qed.
Lemma same_but_trans a b c : same_but a b -> same_but b c -> same_but a c.
Proof. unfold same_but. intuition congruence. Qed.

Definition group_nodes' (w : crw) (os : list (bs * lsn)) (group : bs) : list url :=
  if bs_eqb (uGroup (cwUrl w)) (groupName group) then cwOwn w
  else match aget bs_eqb os (groupName group) with Some l => lnUrls l | None => [] end.
Lemma subscribe_linv disc w g l w1 : linv w -> aget bs_eqb (cwOthers w) g = None -> newSubscribe disc w g = (l, w1) ->
  let w2 := setOthers w1 (aset bs_eqb (cwOthers w1) g l) in
  linv w2 /\ (exact_subs w -> exact_subs w2) /\ same_but w w2 /\ l = mkLsn (cwNext w) (disc g) /\ cwOthers w2 = cwOthers w ++ [(g, l)] /\ cwNext w2 = S (cwNext w).
Proof.
  intros (H1 & H2 & H3 & H4) Hg E. unfold newSubscribe in E. injection E as <- <-. cbn zeta.
  assert (Hni : ~ In g (akeys (cwOthers w))) by (apply (aget_None bs_eqb bs_eqb_spec); exact Hg).
  cbn [cwOthers]. rewrite (aset_new (cwOthers w) g _ Hni). unfold setOthers. cbn [cwUrl cwStatic cwOwn cwOthers cwTc cwDegrade cwSwitch cwAgent cwService cwWeights cwAvail cwSubs cwNext].
  assert (Hlt : forall g l, In (g, l) (cwOthers w) -> lnId l < cwNext w) by (intros g0 l0 Hin; apply (H4 (lnId l0, g0)), H3; exact Hin).
  split; [|split; [|split; [|split; [|split]]]]; try reflexivity.
  - unfold linv. cbn [cwOthers cwSubs cwNext]. split; [|split; [|split]].
    + unfold akeys in *. rewrite map_app. cbn [map fst]. apply NoDup_app_intro; [exact H1|repeat constructor; intros []|]. intros x Hx [<-|[]]. exact (Hni Hx).
    + intros g1 l1 g2 l2 Ha Hb. apply in_app_or in Ha as [Ha|[Ha|[]]]; apply in_app_or in Hb as [Hb|[Hb|[]]].
      * eauto.
      * injection Hb as <- <-. cbn [lnId]. intro E. apply Hlt in Ha. lia.
      * injection Ha as <- <-. cbn [lnId]. intro E. apply Hlt in Hb. lia.
      * injection Ha as <- <-. injection Hb as <- <-. reflexivity.
    + intros g0 l0 Ha. rewrite in_app_iff. apply in_app_or in Ha as [Ha|[Ha|[]]]; [left; apply H3; exact Ha|]. injection Ha as <- <-. right. left. reflexivity.
    + intros s Hs. apply in_app_or in Hs as [Hs|[<-|[]]]; [apply H4 in Hs; lia|cbn; lia].
  - intros He s Hs. unfold exact_subs in He. cbn [cwSubs cwOthers] in *. apply in_app_or in Hs as [Hs|[<-|[]]].
    + destruct (He s Hs) as (l0 & Ha & Hb). exists l0. rewrite in_app_iff. auto.
    + cbn [snd fst]. eexists. rewrite in_app_iff. split; [right; left; reflexivity|reflexivity].
  - unfold same_but. cbn. auto 10.
Qed.

(* the loop of getResultWithCommand *)
Lemma merge_groups disc groups : forall w result, linv w ->
  let '(w', res) := fold_left (mergeGroup disc) groups (w, result) in
  linv w' /\ (exact_subs w -> exact_subs w') /\ same_but w w' /\ cwNext w <= cwNext w' /\
  (exists extra, cwOthers w' = cwOthers w ++ extra /\
     forall g l, In (g, l) extra -> In g (map groupName groups) /\ g <> uGroup (cwUrl w) /\ cwNext w <= lnId l /\ lnUrls l = disc g) /\
  (forall g, In g (map groupName groups) -> g <> uGroup (cwUrl w) -> In g (akeys (cwOthers w'))) /\
  res = result ++ concat (map (group_nodes' w (cwOthers w')) groups).
Proof.
  induction groups as [|group groups IH]; intros w result Hl; cbn [fold_left].
  - split; [exact Hl|]. split; [auto|]. split; [apply same_but_refl|]. split; [lia|]. split; [exists []; rewrite app_nil_r; split; [reflexivity|intros g l []]|].
    split; [intros g []|]. cbn. rewrite app_nil_r. reflexivity.
  - unfold mergeGroup at 2. cbn [map concat]. destruct (bs_eqb (uGroup (cwUrl w)) (groupName group)) eqn:Eown.
    + specialize (IH w (result ++ cwOwn w) Hl). destruct (fold_left (mergeGroup disc) groups (w, result ++ cwOwn w)) as [w' res].
      destruct IH as (I1 & I2 & I3 & I4 & (extra & I5 & I6) & I7 & I8). do 4 (split; [assumption|]). split; [|split].
      * exists extra. split; [exact I5|]. intros g l Hin. destruct (I6 g l Hin) as (A & B). split; [right; exact A|exact B].
      * intros g [<-|Hg] Hn; [apply bs_eqb_spec in Eown; congruence|apply I7; assumption].
      * rewrite I8, <- app_assoc. unfold group_nodes' at 2. rewrite Eown. reflexivity.
    + destruct (aget bs_eqb (cwOthers w) (groupName group)) as [l0|] eqn:Eg.
      * specialize (IH w (result ++ lnUrls l0) Hl). destruct (fold_left (mergeGroup disc) groups (w, result ++ lnUrls l0)) as [w' res].
        destruct IH as (I1 & I2 & I3 & I4 & (extra & I5 & I6) & I7 & I8). do 4 (split; [assumption|]).
        assert (Eg' : aget bs_eqb (cwOthers w') (groupName group) = Some l0).
        { apply (In_aget bs_eqb bs_eqb_spec); [apply I1|]. rewrite I5. apply in_or_app. left. apply (aget_In bs_eqb bs_eqb_spec). exact Eg. }
        split; [|split].
        -- exists extra. split; [exact I5|]. intros g l Hin. destruct (I6 g l Hin) as (A & B). split; [right; exact A|exact B].
        -- intros g [<-|Hg] Hn; [|apply I7; assumption]. apply (aget_In bs_eqb bs_eqb_spec) in Eg'. apply in_map_iff. exists (groupName group, l0). auto.
        -- rewrite I8, <- app_assoc. unfold group_nodes' at 2. rewrite Eown, Eg'. reflexivity.
      * destruct (newSubscribe disc w (groupName group)) as [l0 w1] eqn:Es.
        destruct (subscribe_linv disc w (groupName group) l0 w1 Hl Eg Es) as (S1 & S2 & S3 & S4 & S5 & S6).
        set (w2 := setOthers w1 (aset bs_eqb (cwOthers w1) (groupName group) l0)) in *.
        specialize (IH w2 (result ++ lnUrls l0) S1). destruct (fold_left (mergeGroup disc) groups (w2, result ++ lnUrls l0)) as [w' res].
        destruct IH as (I1 & I2 & I3 & I4 & (extra & I5 & I6) & I7 & I8).
        assert (Hu : cwUrl w2 = cwUrl w) by apply S3. assert (Ho : cwOwn w2 = cwOwn w) by apply S3. rewrite Hu in I6, I7.
        assert (Eg' : aget bs_eqb (cwOthers w') (groupName group) = Some l0).
        { apply (In_aget bs_eqb bs_eqb_spec); [apply I1|]. rewrite I5, S5. apply in_or_app. left. apply in_or_app. right. left. reflexivity. }
        split; [exact I1|]. split; [auto|]. split; [eapply same_but_trans; eassumption|]. split; [lia|]. split; [|split].
        -- exists ((groupName group, l0) :: extra). rewrite I5, S5, <- app_assoc. split; [reflexivity|]. intros g l [Hin|Hin].
           ++ injection Hin as <- <-. rewrite S4. cbn [lnId lnUrls]. split; [left; reflexivity|]. split; [|split; [lia|reflexivity]].
              intro X. rewrite X in Eown. rewrite eqb_refl_bs in Eown. discriminate Eown.
           ++ destruct (I6 g l Hin) as (A & B & C & D). split; [right; exact A|]. split; [exact B|]. split; [lia|exact D].
        -- intros g [<-|Hg] Hn; [|apply I7; assumption]. apply (aget_In bs_eqb bs_eqb_spec) in Eg'. apply in_map_iff. exists (groupName group, l0). auto.
        -- rewrite I8, <- app_assoc. unfold group_nodes' at 2. rewrite Eown, Eg'. f_equal. f_equal. f_equal. unfold group_nodes'. rewrite Hu, Ho. reflexivity.
Qed.

(* the loop of processTcCommand *)
Definition tcinv (disc : bs -> list url) (w : crw) (done : list bs) (w1 : crw) (news : list (bs * lsn)) : Prop :=
  same_but w w1 /\ cwOthers w1 = cwOthers w /\ cwNext w <= cwNext w1 /\ NoDup (akeys news) /\
  (forall g l, In (g, l) news -> In g done /\ g <> uGroup (cwUrl w) /\
     (In (g, l) (cwOthers w) \/ (aget bs_eqb (cwOthers w) g = None /\ cwNext w <= lnId l < cwNext w1 /\ In (lnId l, g) (cwSubs w1) /\ lnUrls l = disc g))) /\
  (forall g1 l1 g2 l2, In (g1, l1) news -> In (g2, l2) news -> lnId l1 = lnId l2 -> g1 = g2) /\
  (forall g, In g done -> g <> uGroup (cwUrl w) -> In g (akeys news)) /\
  (exists extra, cwSubs w1 = cwSubs w ++ extra /\ (forall s, In s extra -> cwNext w <= fst s < cwNext w1) /\
     (NoDup done -> forall s, In s extra -> exists l, In (snd s, l) news /\ lnId l = fst s)).
Lemma tc_step disc w done w1 news ws group w2 news2 ws2 : linv w -> tcinv disc w done w1 news ->
  tcGroup disc (cwOthers w) (w1, news, ws) group = (w2, news2, ws2) -> tcinv disc w (done ++ [groupName group]) w2 news2.
Proof.
  intros Hl (T1 & T2 & T3 & T4 & T5 & T6 & T7 & (extra & T8 & T9 & T10)) E. unfold tcGroup in E.
  assert (Hu : cwUrl w1 = cwUrl w) by apply T1. rewrite Hu in E. set (g := groupName group) in *.
  assert (Hnd : NoDup (done ++ [g]) -> NoDup done /\ ~ In g done).
  { intro H. split; [eapply NoDup_app_l; exact H|]. apply NoDup_remove_2 in H. rewrite app_nil_r in H. exact H. }
  assert (Hin : forall l, forall g' l', In (g', l') (aset bs_eqb news g l) <-> (g' = g /\ l' = l) \/ (g' <> g /\ In (g', l') news)).
  { intros l g' l'. split.
    - intro H. apply (In_aget bs_eqb bs_eqb_spec) in H; [|apply NoDup_aset; [exact bs_eqb_spec|exact T4]]. rewrite (aget_aset bs_eqb bs_eqb_spec) in H.
      destruct (bs_eqb g' g) eqn:Eg; [apply bs_eqb_spec in Eg; injection H as <-; auto|]. right. split; [intros ->; rewrite eqb_refl_bs in Eg; discriminate Eg|].
      apply (aget_In bs_eqb bs_eqb_spec). exact H.
    - intros [[-> ->]|[Hn H]]; apply (aget_In bs_eqb bs_eqb_spec); rewrite (aget_aset bs_eqb bs_eqb_spec).
      + rewrite eqb_refl_bs. reflexivity.
      + destruct (bs_eqb g' g) eqn:Eg; [apply bs_eqb_spec in Eg; tauto|]. apply (In_aget bs_eqb bs_eqb_spec); assumption. }
  assert (Hkeys : forall l g', In g' (akeys (aset bs_eqb news g l)) <-> g' = g \/ In g' (akeys news)).
  { intros l g'. unfold akeys. rewrite !in_map_iff. split.
    - intros ([k v] & <- & H). apply Hin in H as [[-> _]|[_ H]]; [left; reflexivity|right; exists (k, v); auto].
    - intros [->|([k v] & <- & H)]; [exists (g, l); split; [reflexivity|apply Hin; auto]|]. cbn [fst]. destruct (bs_eqb k g) eqn:Eg.
      + apply bs_eqb_spec in Eg. subst k. exists (g, l). split; [reflexivity|apply Hin; auto].
      + exists (k, v). split; [reflexivity|]. apply Hin. right. split; [intros ->; rewrite eqb_refl_bs in Eg; discriminate Eg|exact H]. }
  destruct Hl as (L1 & L2 & L3 & L4).
  assert (Hlt : forall g0 l0, In (g0, l0) (cwOthers w) -> lnId l0 < cwNext w) by (intros g0 l0 Hx; apply (L4 (lnId l0, g0)), L3; exact Hx).
  assert (Hnlt : forall g0 l0, In (g0, l0) news -> lnId l0 < cwNext w1).
  { intros g0 l0 Hx. destruct (T5 _ _ Hx) as (_ & _ & [H|(_ & H & _)]); [apply Hlt in H|]; lia. }
  destruct (bs_eqb (uGroup (cwUrl w)) g) eqn:Eown.
  - injection E as <- <- _. apply bs_eqb_spec in Eown. unfold tcinv. do 4 (split; [assumption|]). split; [|split; [assumption|split]].
    + intros g' l' H. destruct (T5 _ _ H) as (A & B). split; [apply in_or_app; left; exact A|exact B].
    + intros g' H Hn. apply in_app_or in H as [H|[<-|[]]]; [apply T7; assumption|congruence].
    + exists extra. split; [exact T8|]. split; [exact T9|]. intros H. apply Hnd in H as [H _]. apply T10. exact H.
  - assert (Hown : g <> uGroup (cwUrl w)) by (intros X; rewrite <- X, eqb_refl_bs in Eown; discriminate Eown).
    destruct (aget bs_eqb (cwOthers w) g) as [l0|] eqn:Eg.
    + injection E as <- <- _. pose proof (aget_In bs_eqb bs_eqb_spec _ _ _ Eg) as Hg0. unfold tcinv. do 3 (split; [assumption|]). split; [apply NoDup_aset; [exact bs_eqb_spec|exact T4]|]. split; [|split; [|split]].
      * intros g' l' H. apply Hin in H as [[-> ->]|[Hn H]].
        -- split; [apply in_or_app; right; left; reflexivity|]. split; [exact Hown|]. left. exact Hg0.
        -- destruct (T5 _ _ H) as (A & B). split; [apply in_or_app; left; exact A|exact B].
      * assert (X : forall g2 l2, g2 <> g -> In (g2, l2) news -> lnId l0 = lnId l2 -> False).
        { intros g2 l2 Hn H Hid. destruct (T5 _ _ H) as (_ & _ & [H'|(_ & H' & _)]); [apply Hn; symmetry; eapply L2; eassumption|]. apply Hlt in Hg0. lia. }
        intros g1 l1 g2 l2 Ha Hb Hid. apply Hin in Ha as [[-> ->]|[Hn1 Ha]]; apply Hin in Hb as [[-> ->]|[Hn2 Hb]]; [reflexivity| | |eauto].
        -- exfalso. eapply X; eassumption.
        -- exfalso. eapply X; [exact Hn1|exact Ha|]. symmetry. exact Hid.
      * intros g' H Hn. apply Hkeys. apply in_app_or in H as [H|[<-|[]]]; [right; apply T7; assumption|left; reflexivity].
      * exists extra. split; [exact T8|]. split; [exact T9|]. intros H s Hs. apply Hnd in H as [H Hni]. destruct (T10 H s Hs) as (l & A & B). exists l. split; [|exact B].
        apply Hin. right. split; [|exact A]. intro X. apply Hni. rewrite <- X. apply (T5 _ _ A).
    + unfold newSubscribe in E. injection E as <- <- _. cbn [lnId]. unfold tcinv. cbn [cwUrl cwStatic cwOwn cwOthers cwTc cwDegrade cwSwitch cwAgent cwService cwWeights cwAvail cwSubs cwNext].
      split; [unfold same_but in *; cbn; exact T1|]. split; [exact T2|]. split; [lia|]. split; [apply NoDup_aset; [exact bs_eqb_spec|exact T4]|]. split; [|split; [|split]].
      * intros g' l' H. apply Hin in H as [[-> ->]|[Hn H]].
        -- split; [apply in_or_app; right; left; reflexivity|]. split; [exact Hown|]. right. cbn [lnId lnUrls]. split; [exact Eg|]. split; [lia|]. split; [|reflexivity].
           apply in_or_app. right. left. reflexivity.
        -- destruct (T5 _ _ H) as (A & B & C). split; [apply in_or_app; left; exact A|]. split; [exact B|]. destruct C as [C|(C1 & C2 & C3 & C4)]; [left; exact C|]. right.
           split; [exact C1|]. split; [lia|]. split; [apply in_or_app; left; exact C3|exact C4].
      * intros g1 l1 g2 l2 Ha Hb Hid. apply Hin in Ha as [[-> ->]|[Hn1 Ha]]; apply Hin in Hb as [[-> ->]|[Hn2 Hb]]; [reflexivity| | |eauto]; cbn [lnId] in Hid.
        -- exfalso. apply Hnlt in Hb. lia.
        -- exfalso. apply Hnlt in Ha. lia.
      * intros g' H Hn. apply Hkeys. apply in_app_or in H as [H|[<-|[]]]; [right; apply T7; assumption|left; reflexivity].
      * exists (extra ++ [(cwNext w1, g)]). split; [rewrite T8, app_assoc; reflexivity|]. split.
        -- intros s Hs. apply in_app_or in Hs as [Hs|[<-|[]]]; [apply T9 in Hs; lia|cbn; lia].
        -- intros H s Hs. apply Hnd in H as [H Hni]. apply in_app_or in Hs as [Hs|[<-|[]]].
           ++ destruct (T10 H s Hs) as (l & A & B). exists l. split; [|exact B]. apply Hin. right. split; [|exact A]. intro X. apply Hni. rewrite <- X. apply (T5 _ _ A).
           ++ cbn [fst snd]. eexists. split; [apply Hin; left; split; reflexivity|reflexivity].
Qed.
Lemma tc_fold disc w groups : linv w -> forall done w1 news ws, tcinv disc w done w1 news ->
  let '(w2, news2, ws2) := fold_left (tcGroup disc (cwOthers w)) groups (w1, news, ws) in tcinv disc w (done ++ map groupName groups) w2 news2.
Proof.
  intro Hl. induction groups as [|group groups IH]; intros done w1 news ws T; cbn [fold_left map]; [rewrite app_nil_r; exact T|].
  destruct (tcGroup disc (cwOthers w) (w1, news, ws) group) as [[w2 news2] ws2] eqn:E. pose proof (tc_step _ _ _ _ _ _ _ _ _ _ Hl T E) as T'.
  specialize (IH _ w2 news2 ws2 T'). rewrite <- app_assoc in IH. exact IH.
Qed.
Lemma tcinv_start disc w : linv w -> tcinv disc w [] w [].
Proof.
  intro Hl. unfold tcinv. split; [apply same_but_refl|]. split; [reflexivity|]. split; [lia|]. split; [constructor|]. split; [intros g l []|]. split; [intros ? ? ? ? []|]. split; [intros g []|].
  exists []. rewrite app_nil_r. split; [reflexivity|]. split; [intros s []|intros _ s []].
Qed.

Definition names_of (o : option cmd) : list bs := match o with Some c => map groupName (cmGroups c) | None => [] end.
Lemma processTc_spec disc w newTc : linv w -> let w' := processTc disc w newTc in
  linv w' /\ cwUrl w' = cwUrl w /\ cwStatic w' = cwStatic w /\ cwOwn w' = cwOwn w /\ cwTc w' = newTc /\ cwNext w <= cwNext w' /\
  (forall g, In g (akeys (cwOthers w')) <-> In g (names_of (currentTc w')) /\ g <> uGroup (cwUrl w)) /\
  (forall g l, In (g, l) (cwOthers w') -> In (g, l) (cwOthers w) \/ (cwNext w <= lnId l /\ lnUrls l = disc g)) /\
  (NoDup (names_of (currentTc w')) -> exact_subs w -> exact_subs w').
Proof.
  intros Hl. unfold processTc. set (groups := match newTc with Some c => Some (cmGroups c) | None => option_map cmGroups (cwStatic w) end).
  assert (Ht : let '(w1, news, ws) := match groups with None => (w, [], cwWeights w) | Some gs => fold_left (tcGroup disc (cwOthers w)) gs (w, [], []) end in
               tcinv disc w (match groups with None => [] | Some gs => map groupName gs end) w1 news).
  { destruct groups as [gs|]; [|apply tcinv_start; exact Hl]. apply (tc_fold disc w gs Hl [] w [] [] (tcinv_start disc w Hl)). }
  destruct (match groups with None => (w, [], cwWeights w) | Some gs => fold_left (tcGroup disc (cwOthers w)) gs (w, [], []) end) as [[w1 news] ws].
  set (done := match groups with None => [] | Some gs => map groupName gs end) in *.
  set (named := match groups with None => [] | Some gs => filter (fun g => negb (bs_eqb (uGroup (cwUrl w)) g)) (map groupName gs) end).
  set (removed := filter (fun p => negb (existsb (bs_eqb (fst p)) named)) (cwOthers w)).
  set (subs := filter (fun s => negb (existsb (fun p => lnId (snd p) =? fst s) removed)) (cwSubs w1)).
  assert (Hnamed : forall g, In g named <-> In g done /\ g <> uGroup (cwUrl w)).
  { intro g. unfold named, done. destruct groups as [gs|]; [|cbn; tauto]. rewrite filter_In, negb_true_iff.
    split; intros [A B]; (split; [exact A|]).
    - intros ->. rewrite eqb_refl_bs in B. discriminate B.
    - destruct (bs_eqb (uGroup (cwUrl w)) g) eqn:E; [apply bs_eqb_spec in E; congruence|reflexivity]. }
  assert (Hrem : forall g l, In (g, l) removed <-> In (g, l) (cwOthers w) /\ ~ In g named).
  { intros g l. unfold removed. rewrite filter_In, negb_true_iff. cbn [fst]. rewrite <- not_true_iff_false, existsb_eqb_In by exact bs_eqb_spec. reflexivity. }
  assert (Hsubs : forall s, In s subs <-> In s (cwSubs w1) /\ forall g l, In (g, l) removed -> lnId l <> fst s).
  { intro s. unfold subs. rewrite filter_In, negb_true_iff, <- not_true_iff_false, existsb_exists. split; intros [A B]; (split; [exact A|]).
    - intros g l H X. apply B. exists (g, l). split; [exact H|]. apply Nat.eqb_eq. exact X.
    - intros ((g & l) & H & X). apply Nat.eqb_eq in X. exact (B g l H X). }
  destruct Ht as (T1 & T2 & T3 & T4 & T5 & T6 & T7 & (extra & T8 & T9 & T10)). destruct Hl as (L1 & L2 & L3 & L4).
  destruct T1 as (U1 & U2 & U3 & U4 & U5 & U6 & U7 & U8 & U9).
  assert (Hlt : forall g0 l0, In (g0, l0) (cwOthers w) -> lnId l0 < cwNext w) by (intros g0 l0 Hx; apply (L4 (lnId l0, g0)), L3; exact Hx).
  assert (Hcur : names_of (match newTc with Some c => Some c | None => cwStatic w end) = done).
  { unfold names_of, done, groups. destruct newTc; [reflexivity|]. destruct (cwStatic w); reflexivity. }
  cbn zeta. cbn [cwUrl cwStatic cwOwn cwOthers cwTc cwDegrade cwSwitch cwAgent cwService cwWeights cwAvail cwSubs cwNext]. unfold currentTc. cbn [cwTc cwStatic]. rewrite U2, Hcur.
  split; [|split; [exact U1|split; [reflexivity|split; [exact U3|split; [reflexivity|split; [exact T3|split; [|split]]]]]]].
  - unfold linv. cbn [cwOthers cwSubs cwNext]. split; [exact T4|]. split; [exact T6|]. split.
    + intros g l H. apply Hsubs. destruct (T5 _ _ H) as (A & B & C). split.
      * destruct C as [C|(_ & _ & C & _)]; [|exact C]. rewrite T8. apply in_or_app. left. apply L3. exact C.
      * intros g' l' Hr. cbn [fst]. apply Hrem in Hr as [Hr Hn]. intro X. destruct C as [C|(_ & C & _)].
        -- apply Hn. rewrite (L2 _ _ _ _ Hr C X). apply Hnamed. auto.
        -- apply Hlt in Hr. lia.
    + intros s Hs. apply Hsubs in Hs as [Hs _]. rewrite T8 in Hs. apply in_app_or in Hs as [Hs|Hs]; [apply L4 in Hs; lia|apply T9 in Hs; lia].
  - intro g. split; [|intros [A B]; apply T7; assumption]. intro H. apply in_map_iff in H as ([k l] & <- & H). destruct (T5 _ _ H) as (A & B & _). auto.
  - intros g l H. destruct (T5 _ _ H) as (_ & _ & [C|(_ & C & _ & D)]); [left; exact C|right; split; [lia|exact D]].
  - intros Hnd He s Hs. cbn [cwSubs cwOthers] in *. apply Hsubs in Hs as [Hs Hr]. rewrite T8 in Hs. apply in_app_or in Hs as [Hs|Hs].
    + destruct (He s Hs) as (l & A & B). destruct (existsb (bs_eqb (snd s)) named) eqn:En.
      * apply (existsb_eqb_In bs_eqb bs_eqb_spec) in En. apply Hnamed in En as [En1 En2]. pose proof (T7 _ En1 En2) as Hk. apply in_map_iff in Hk as ([k l'] & Ek & Hk). cbn in Ek. subst k.
        exists l'. split; [exact Hk|]. destruct (T5 _ _ Hk) as (_ & _ & [C|(C & _)]).
        -- apply (In_aget bs_eqb bs_eqb_spec) in A; [|exact L1]. apply (In_aget bs_eqb bs_eqb_spec) in C; [|exact L1]. congruence.
        -- apply (In_aget bs_eqb bs_eqb_spec) in A; [|exact L1]. congruence.
      * exfalso. apply (Hr (snd s) l); [|exact B]. apply Hrem. split; [exact A|]. intro X. apply (existsb_eqb_In bs_eqb bs_eqb_spec) in X. congruence.
    + apply T10; [exact Hnd|exact Hs].
Qed.

(* ---------------------------------------------------------------- C24: one step *)
Definition tc_ok lib u agent service (tc : option cmd) : Prop :=
  match tc with
  | Some c => lowest lib u 0 agent c \/ (none_concerns lib u 0 agent /\ lowest lib u 0 service c)
  | None => none_concerns lib u 0 agent /\ none_concerns lib u 0 service
  end.
Definition distinct_tc lib (tc : option cmd) : Prop := forall c, tc = Some c -> exists info l, clParse lib info = Some l /\ In c l.
Definition watch_sub (w : crw) : Prop :=
  (forall g, In g (akeys (cwOthers w)) -> In g (names_of (currentTc w)) /\ g <> uGroup (cwUrl w)).
Definition watch_all (w : crw) : Prop :=
  (forall g, In g (names_of (currentTc w)) -> g <> uGroup (cwUrl w) -> In g (akeys (cwOthers w))).
Definition Inv lib u (w : crw) : Prop :=
  linv w /\ cwUrl w = u /\ cwStatic w = staticOf u /\ tc_ok lib u (cwAgent w) (cwService w) (cwTc w) /\ distinct_tc lib (cwTc w) /\
  watch_sub w /\ (cwTc w <> None -> watch_all w).

Lemma getResult_spec lib disc w : linv w -> watch_sub w -> let '(w', r) := getResult lib disc w in
  linv w' /\ (exact_subs w -> exact_subs w') /\ same_but w w' /\ cwNext w <= cwNext w' /\ watch_sub w' /\ watch_all w' /\
  (forall g l, In (g, l) (cwOthers w') -> In (g, l) (cwOthers w) \/ (cwNext w <= lnId l /\ lnUrls l = disc g)) /\
  (forall g l, In (g, l) (cwOthers w) -> In (g, l) (cwOthers w')) /\
  match currentTc w' with
  | None => r = cwOwn w'
  | Some c => (merged_nodes w' c = [] /\ r = cwOwn w') \/
              (merged_nodes w' c <> [] /\ exists keep, r = filter keep (merged_nodes w' c) ++ [buildRuleURL (joinStr (s2b ",") (cmGroups c))] /\
                 forall x, keep x = true <-> route_allows (clLocal lib) (cmRoutes c) x)
  end.
Proof.
  intros Hl Hw. unfold getResult. destruct (currentTc w) as [c|] eqn:Ec.
  - pose proof (merge_groups disc (cmGroups c) w [] Hl) as H. destruct (fold_left (mergeGroup disc) (cmGroups c) (w, [])) as [w' m].
    destruct H as (I1 & I2 & I3 & I4 & (extra & I5 & I6) & I7 & I8). cbn [app] in I8.
    assert (Hcur : currentTc w' = Some c).
    { unfold currentTc in *. destruct I3 as (_ & U2 & _ & U4 & _). rewrite U2, U4. exact Ec. }
    assert (Hm : m = merged_nodes w' c).
    { rewrite I8. unfold merged_nodes. f_equal. apply map_ext. intro g. unfold group_nodes', group_nodes. destruct I3 as (U1 & _ & U3 & _). rewrite U1, U3. reflexivity. }
    assert (Hu : cwUrl w' = cwUrl w) by apply I3.
    assert (Hcommon : linv w' /\ (exact_subs w -> exact_subs w') /\ same_but w w' /\ cwNext w <= cwNext w' /\ watch_sub w' /\ watch_all w' /\
      (forall g l, In (g, l) (cwOthers w') -> In (g, l) (cwOthers w) \/ (cwNext w <= lnId l /\ lnUrls l = disc g)) /\
      (forall g l, In (g, l) (cwOthers w) -> In (g, l) (cwOthers w'))).
    { do 4 (split; [assumption|]). split; [|split; [|split]].
      - intros g Hg. rewrite Hcur, Hu. cbn [names_of]. unfold akeys in Hg. rewrite I5, map_app in Hg. apply in_app_or in Hg as [Hg|Hg].
        + apply Hw in Hg. rewrite Ec in Hg. exact Hg.
        + apply in_map_iff in Hg as ([k l] & <- & Hg). destruct (I6 _ _ Hg) as (A & B & _). auto.
      - intros g Hg Hn. rewrite Hcur in Hg. rewrite Hu in Hn. apply I7; assumption.
      - intros g l Hg. rewrite I5 in Hg. apply in_app_or in Hg as [Hg|Hg]; [left; exact Hg|right]. destruct (I6 _ _ Hg) as (_ & _ & A & B). auto.
      - intros g l Hg. rewrite I5. apply in_or_app. left. exact Hg. }
    rewrite Hm. set (rule := buildRuleURL (joinStr (s2b ",") (cmGroups c))).
    destruct (merged_nodes w' c) as [|x m'] eqn:Em.
    + assert (Er : processRoute (clLocal lib) [] (cmRoutes c) = []) by reflexivity. rewrite Er.
      destruct Hcommon as (C1 & C2 & C3 & C4 & C5 & C6 & C7 & C8). do 8 (split; [assumption|]). rewrite Hcur. left. split; [exact Em|reflexivity].
    + rewrite <- Em. set (nodes := merged_nodes w' c) in *. destruct (route_spec (clLocal lib) (nodes ++ [rule]) (cmRoutes c)) as (keep & Ek & Hk).
      assert (Hrule : keep rule = true) by (apply Hk; left; reflexivity).
      assert (Er : processRoute (clLocal lib) (nodes ++ [rule]) (cmRoutes c) = filter keep nodes ++ [rule]) by (rewrite Ek, filter_app; cbn [filter]; rewrite Hrule; reflexivity).
      rewrite Er. destruct (filter keep nodes ++ [rule]) as [|y ys] eqn:Ey; [destruct (filter keep nodes); discriminate Ey|].
      destruct Hcommon as (C1 & C2 & C3 & C4 & C5 & C6 & C7 & C8). do 8 (split; [assumption|]). rewrite Hcur. right. fold nodes. split; [rewrite Em; intro X; discriminate X|].
      exists keep. split; [symmetry; exact Ey|exact Hk].
  - split; [exact Hl|]. split; [auto|]. split; [apply same_but_refl|]. split; [lia|]. split; [exact Hw|]. split; [|split; [|split]].
    + intros g Hg. rewrite Ec in Hg. destruct Hg.
    + auto.
    + auto.
    + rewrite Ec. reflexivity.
Qed.

Lemma tc_ok_merge lib u agent service t1 d1 s1 t2 d2 s2 : sort_ok lib -> merged lib agent u = (t1, d1, s1) -> merged lib service u = (t2, d2, s2) ->
  tc_ok lib u agent service (orElse t1 t2) /\ distinct_tc lib (orElse t1 t2) /\
  (orElse d1 d2 = None <-> none_concerns lib u 1 agent /\ none_concerns lib u 1 service).
Proof.
  intros Hs E1 E2. pose proof (merged_spec lib u agent Hs) as A. pose proof (merged_spec lib u service Hs) as B. rewrite E1 in A. rewrite E2 in B.
  destruct A as (A1 & A2 & A3). destruct B as (B1 & B2 & B3). split; [|split].
  - unfold tc_ok, orElse. destruct t1 as [c|]; [left; exact A1|]. destruct t2 as [c|]; [right; split; assumption|split; assumption].
  - intros c Hc. unfold orElse in Hc. destruct t1 as [c1|]; [injection Hc as ->; destruct (A3 c eq_refl) as (l & H); eauto|]. destruct (B3 c Hc) as (l & H). eauto.
  - rewrite <- A2, <- B2. unfold orElse. destruct d1; split; try tauto; intuition discriminate.
Qed.

Definition avail_ok lib u (w : crw) : Prop := cwAvail w = true <-> none_concerns lib u 1 (cwAgent w) /\ none_concerns lib u 1 (cwService w).
Lemma command_go lib u disc w agent service t1 d1 s1 t2 d2 s2 : sort_ok lib -> Inv lib u w ->
  merged lib agent u = (t1, d1, s1) -> merged lib service u = (t2, d2, s2) ->
  let w1 := processTc disc w (orElse t1 t2) in
  let w' := mkCrw (cwUrl w1) (cwStatic w1) (cwOwn w1) (cwOthers w1) (cwTc w1) (orElse d1 d2) (orElse s1 s2) agent service (cwWeights w1)
           (match orElse d1 d2 with None => true | Some _ => false end) (cwSubs w1) (cwNext w1) in
  Inv lib u w' /\ (distinct_groups lib u -> exact_subs w -> exact_subs w') /\ avail_ok lib u w' /\ cwOwn w' = cwOwn w /\ cwNext w <= cwNext w' /\
  (forall g l, In (g, l) (cwOthers w') -> In (g, l) (cwOthers w) \/ (cwNext w <= lnId l /\ lnUrls l = disc g)).
Proof.
  intros Hs (Hl & Hu & Hst & _ & _ & _ & _) E1 E2. destruct (tc_ok_merge lib u agent service _ _ _ _ _ _ Hs E1 E2) as (M1 & M2 & M3).
  destruct (processTc_spec disc w (orElse t1 t2) Hl) as (P1 & P2 & P3 & P4 & P5 & P6 & P7 & P8 & P9). set (w1 := processTc disc w (orElse t1 t2)) in *.
  cbn zeta. set (w' := mkCrw _ _ _ _ _ _ _ _ _ _ _ _ _).
  assert (Hcur : currentTc w' = currentTc w1) by reflexivity.
  split; [|split; [|split; [|split; [|split]]]].
  - unfold Inv. split; [exact P1|]. split; [cbn; congruence|]. split; [cbn; congruence|]. split; [cbn; rewrite P5; exact M1|]. split; [cbn; rewrite P5; exact M2|].
    assert (Hu' : cwUrl w' = cwUrl w) by (cbn; exact P2). split.
    + intros g Hg. rewrite Hcur, Hu'. apply P7. exact Hg.
    + intros _ g Hg Hn. rewrite Hcur in Hg. rewrite Hu' in Hn. apply P7. auto.
  - intros [Hd1 Hd2] He. apply P9; [|exact He]. unfold currentTc. rewrite P5, P3. destruct (orElse t1 t2) as [c|] eqn:Et.
    + destruct (M2 c eq_refl) as (info & l & Hp & Hin). exact (Hd1 _ _ _ Hp Hin).
    + rewrite Hst. destruct (staticOf u) as [c|] eqn:Ec; [exact (Hd2 c eq_refl)|constructor].
  - unfold avail_ok. cbn [w' cwAvail cwAgent cwService]. rewrite <- M3. destruct (orElse d1 d2); split; congruence.
  - exact P4.
  - exact P6.
  - exact P8.
Qed.
Lemma processCommand_spec lib u disc w typ info : sort_ok lib -> Inv lib u w ->
  let '(w', need) := processCommand lib disc w typ info in
  Inv lib u w' /\ (distinct_groups lib u -> exact_subs w -> exact_subs w') /\ (avail_ok lib u w -> avail_ok lib u w') /\ cwOwn w' = cwOwn w /\ cwNext w <= cwNext w' /\
  (forall g l, In (g, l) (cwOthers w') -> In (g, l) (cwOthers w) \/ (cwNext w <= lnId l /\ lnUrls l = disc g)) /\
  cwAgent w' = (if (typ =? 0)%Z then info else cwAgent w) /\ cwService w' = (if (typ =? 1)%Z then info else cwService w).
Proof.
  intros Hs Hi. unfold processCommand. assert (Hu : cwUrl w = u) by apply Hi. rewrite Hu. change AgentCmd with 0%Z. change ServiceCmd with 1%Z.
  assert (Hsame : Inv lib u w /\ (distinct_groups lib u -> exact_subs w -> exact_subs w) /\ (avail_ok lib u w -> avail_ok lib u w) /\ cwOwn w = cwOwn w /\ cwNext w <= cwNext w /\
    (forall g l, In (g, l) (cwOthers w) -> In (g, l) (cwOthers w) \/ (cwNext w <= lnId l /\ lnUrls l = disc g))) by (repeat (split; [auto|]); auto).
  destruct Hsame as (A1 & A2 & A3 & A4 & A5 & A6).
  destruct (typ =? 0)%Z eqn:E0; [|destruct (typ =? 1)%Z eqn:E1].
  - replace (typ =? 1)%Z with false by (apply Z.eqb_eq in E0; subst typ; reflexivity).
    destruct (bs_eqb (cwAgent w) info) eqn:E; [apply bs_eqb_spec in E; do 6 (split; [assumption|]); split; [exact E|reflexivity]|].
    change (match info with [] => (None, None, None) | _ :: _ => mergeCommand lib info u end) with (merged lib info u).
    change (match cwService w with [] => (None, None, None) | _ :: _ => mergeCommand lib (cwService w) u end) with (merged lib (cwService w) u).
    destruct (merged lib info u) as [[t1 d1] s1] eqn:M1. destruct (merged lib (cwService w) u) as [[t2 d2] s2] eqn:M2.
    destruct (command_go lib u disc w _ _ _ _ _ _ _ _ Hs Hi M1 M2) as (G1 & G2 & G3 & G4 & G5 & G6).
    split; [exact G1|]. split; [exact G2|]. split; [intros _; exact G3|]. do 3 (split; [assumption|]). split; reflexivity.
  - destruct (bs_eqb (cwService w) info) eqn:E; [apply bs_eqb_spec in E; do 6 (split; [assumption|]); split; [reflexivity|exact E]|].
    change (match info with [] => (None, None, None) | _ :: _ => mergeCommand lib info u end) with (merged lib info u).
    change (match cwAgent w with [] => (None, None, None) | _ :: _ => mergeCommand lib (cwAgent w) u end) with (merged lib (cwAgent w) u).
    destruct (merged lib (cwAgent w) u) as [[t1 d1] s1] eqn:M1. destruct (merged lib info u) as [[t2 d2] s2] eqn:M2.
    destruct (command_go lib u disc w _ _ _ _ _ _ _ _ Hs Hi M1 M2) as (G1 & G2 & G3 & G4 & G5 & G6).
    split; [exact G1|]. split; [exact G2|]. split; [intros _; exact G3|]. do 3 (split; [assumption|]). split; reflexivity.
  - do 6 (split; [assumption|]). split; reflexivity.
Qed.
Lemma Inv_same lib u w w' : Inv lib u w -> same_but w w' -> linv w' -> watch_sub w' -> watch_all w' -> Inv lib u w'.
Proof.
  intros (Hl & Hu & Hst & Ht & Hd & Hw & Ha) (U1 & U2 & U3 & U4 & U5 & U6 & U7 & U8 & U9) L S A. unfold Inv. rewrite U1, U2, U4, U7, U8. auto 10.
Qed.
Definition delivered lib (w' : crw) (r : list url) : Prop :=
  match currentTc w' with
  | None => r = cwOwn w'
  | Some c => (merged_nodes w' c = [] /\ r = cwOwn w') \/
              (merged_nodes w' c <> [] /\ exists keep, r = filter keep (merged_nodes w' c) ++ [buildRuleURL (joinStr (s2b ",") (cmGroups c))] /\
                 forall x, keep x = true <-> route_allows (clLocal lib) (cmRoutes c) x)
  end.
(* the lists held after a step *)
Definition lists_ok (w w' : crw) (o : wop) : Prop :=
  forall g l', In (g, l') (cwOthers w') ->
    (cwNext w <= lnId l' /\ lnUrls l' = disc_of o g) \/
    (exists l, In (g, l) (cwOthers w) /\ lnId l' = lnId l /\
       lnUrls l' = match o with WOther id urls _ => if id =? lnId l then urls else lnUrls l | _ => lnUrls l end).
Definition stepped lib u (w w' : crw) (o : wop) (out : option (list url)) : Prop :=
  Inv lib u w' /\ (distinct_groups lib u -> exact_subs w -> exact_subs w') /\
  (o <> WUnsubscribe -> avail_ok lib u w -> avail_ok lib u w') /\ cwOwn w' = own_after (cwOwn w) o /\
  cwAgent w' = text_after 0 (cwAgent w) o /\ cwService w' = text_after 1 (cwService w) o /\
  (forall r, out = Some r -> delivered lib w' r /\ watch_all w') /\ lists_ok w w' o.
Lemma avail_same lib u w w' : same_but w w' -> avail_ok lib u w -> avail_ok lib u w'.
Proof. intros (U1 & U2 & U3 & U4 & U5 & U6 & U7 & U8 & U9). unfold avail_ok. rewrite U7, U8, U9. auto. Qed.

(* deliver: the tail of every step that hands a list over *)
Lemma deliver lib u disc w : Inv lib u w -> let '(w', r) := getResult lib disc w in
  Inv lib u w' /\ (exact_subs w -> exact_subs w') /\ same_but w w' /\ cwNext w <= cwNext w' /\ delivered lib w' r /\ watch_all w' /\
  (forall g l, In (g, l) (cwOthers w') -> In (g, l) (cwOthers w) \/ (cwNext w <= lnId l /\ lnUrls l = disc g)).
Proof.
  intro Hi. pose proof Hi as (Hl & _ & _ & _ & _ & Hw & _). pose proof (getResult_spec lib disc w Hl Hw) as H.
  destruct (getResult lib disc w) as [w' r]. destruct H as (H1 & H2 & H3 & H4 & H5 & H6 & H7 & H8 & H9).
  split; [eapply Inv_same; eassumption|]. do 3 (split; [assumption|]). split; [exact H9|]. split; [exact H6|exact H7].
Qed.
Lemma Inv_setOwn lib u w urls : Inv lib u w -> Inv lib u (setOwn w urls).
Proof. intro H. exact H. Qed.

Lemma step_stepped lib u w o : sort_ok lib -> Inv lib u w -> let '(w', out) := wStep lib w o in stepped lib u w w' o out.
Proof.
  intros Hs Hi. destruct o as [typ info disc|urls disc|id urls disc|urls service disc|]; cbn [wStep].
  - pose proof (processCommand_spec lib u disc w typ info Hs Hi) as H. destruct (processCommand lib disc w typ info) as [w1 need].
    destruct H as (A1 & A2 & A3 & A4 & A5 & A6 & A7 & A8). destruct need.
    + pose proof (deliver lib u disc w1 A1) as D. destruct (getResult lib disc w1) as [w2 r]. destruct D as (D1 & D2 & D3 & D4 & D5 & D6 & D7).
      pose proof D3 as (U1 & U2 & U3 & U4 & U5 & U6 & U7 & U8 & U9). unfold stepped. split; [exact D1|]. split; [auto|]. split; [intros _ H; eapply avail_same; eauto|]. cbn [own_after text_after].
      split; [congruence|]. split; [congruence|]. split; [congruence|]. split; [intros r' E; injection E as <-; auto|].
      intros g l' Hin. cbn [disc_of]. destruct (D7 _ _ Hin) as [H|[H1 H2]]; [|left; split; [lia|exact H2]]. destruct (A6 _ _ H) as [H'|[H1 H2]]; [right; eauto|left; auto].
    + unfold stepped. split; [exact A1|]. split; [exact A2|]. split; [auto|]. cbn [own_after text_after]. do 3 (split; [assumption|]). split; [intros r E; discriminate E|].
      intros g l' Hin. cbn [disc_of]. destruct (A6 _ _ Hin) as [H'|[H1 H2]]; [right; eauto|left; auto].
  - set (w1 := setOwn w urls). assert (Hi1 : Inv lib u w1) by exact Hi.
    destruct (match currentTc w1 with None => true | Some c => existsb (fun g => bs_eqb (groupName g) (uGroup (cwUrl w1))) (cmGroups c) end).
    + pose proof (deliver lib u disc w1 Hi1) as D. destruct (getResult lib disc w1) as [w2 r]. destruct D as (D1 & D2 & D3 & D4 & D5 & D6 & D7).
      pose proof D3 as (U1 & U2 & U3 & U4 & U5 & U6 & U7 & U8 & U9). unfold stepped. split; [exact D1|]. split; [intros _ He; apply D2; exact He|].
      split; [intros _ H; apply (avail_same lib u w1); [exact D3|exact H]|]. cbn [own_after text_after].
      split; [exact U3|]. split; [exact U7|]. split; [exact U8|]. split; [intros r' E; injection E as <-; auto|].
      intros g l' Hin. cbn [disc_of]. destruct (D7 _ _ Hin) as [H|[H1 H2]]; [right; eauto|left; auto].
    + unfold stepped. split; [exact Hi1|]. split; [auto|]. split; [auto|]. cbn [own_after text_after]. do 3 (split; [reflexivity|]). split; [intros r E; discriminate E|].
      intros g l' Hin. right. eauto.
  - destruct (existsb (fun s => fst s =? id) (cwSubs w)) eqn:Ex.
    + set (f := fun p : bs * lsn => if lnId (snd p) =? id then (fst p, mkLsn id urls) else p). set (w1 := setOthers w (map f (cwOthers w))).
      assert (Hf : forall p, fst (f p) = fst p /\ lnId (snd (f p)) = lnId (snd p)).
      { intro p. unfold f. destruct (lnId (snd p) =? id) eqn:E; cbn; [apply Nat.eqb_eq in E|]; auto. }
      assert (Hk : akeys (cwOthers w1) = akeys (cwOthers w)).
      { unfold akeys. cbn [w1 setOthers cwOthers]. rewrite map_map. apply map_ext. intro p. apply Hf. }
      assert (Hback : forall g l', In (g, l') (cwOthers w1) -> exists l, In (g, l) (cwOthers w) /\ lnId l' = lnId l /\ lnUrls l' = if id =? lnId l then urls else lnUrls l).
      { intros g l' Hin. cbn [w1 setOthers cwOthers] in Hin. apply in_map_iff in Hin as ([k l] & E & Hin). exists l. unfold f in E. cbn [fst snd] in E. rewrite Nat.eqb_sym in E.
        destruct (id =? lnId l) eqn:Eid; injection E as <- <-; cbn [lnId lnUrls]; [apply Nat.eqb_eq in Eid|]; auto. }
      assert (Hi1 : Inv lib u w1).
      { destruct Hi as ((L1 & L2 & L3 & L4) & Hu & Hst & Ht & Hd & Hw & Ha). split; [|split; [exact Hu|split; [exact Hst|split; [exact Ht|split; [exact Hd|split]]]]].
        - split; [rewrite Hk; exact L1|]. split; [|split].
          + intros g1 l1 g2 l2 H1 H2 E. apply Hback in H1 as (m1 & H1 & E1 & _). apply Hback in H2 as (m2 & H2 & E2 & _). apply (L2 _ m1 _ m2); [exact H1|exact H2|congruence].
          + intros g l H1. apply Hback in H1 as (m1 & H1 & E1 & _). rewrite E1. apply L3. exact H1.
          + exact L4.
        - unfold watch_sub. rewrite Hk. exact Hw.
        - intro X. unfold watch_all. rewrite Hk. exact (Ha X). }
      assert (He1 : exact_subs w -> exact_subs w1).
      { intros He s Hs'. destruct (He s Hs') as (l & A & B). exists (snd (f (snd s, l))). split; [|rewrite (proj2 (Hf _)); exact B].
        cbn [w1 setOthers cwOthers]. apply in_map_iff. exists (snd s, l). split; [|exact A]. rewrite <- (proj1 (Hf (snd s, l))) at 2. destruct (f (snd s, l)); reflexivity. }
      pose proof (deliver lib u disc w1 Hi1) as D. destruct (getResult lib disc w1) as [w2 r]. destruct D as (D1 & D2 & D3 & D4 & D5 & D6 & D7).
      pose proof D3 as (U1 & U2 & U3 & U4 & U5 & U6 & U7 & U8 & U9). unfold stepped. split; [exact D1|]. split; [auto|].
      split; [intros _ H; apply (avail_same lib u w1); [exact D3|exact H]|]. cbn [own_after text_after].
      split; [exact U3|]. split; [exact U7|]. split; [exact U8|]. split; [intros r' E; injection E as <-; auto|].
      intros g l' Hin. cbn [disc_of]. destruct (D7 _ _ Hin) as [H|[H1 H2]]; [right; apply Hback; exact H|left; auto].
    + unfold stepped. split; [exact Hi|]. split; [auto|]. split; [auto|]. cbn [own_after text_after]. do 3 (split; [reflexivity|]). split; [intros r E; discriminate E|].
      intros g l' Hin. right. exists l'. split; [exact Hin|]. split; [reflexivity|]. destruct (id =? lnId l') eqn:E; [|reflexivity]. exfalso. apply Nat.eqb_eq in E. subst id.
      destruct Hi as ((_ & _ & L3 & _) & _). apply L3 in Hin. rewrite <- not_true_iff_false in Ex. apply Ex. apply existsb_exists. eexists. split; [exact Hin|]. apply Nat.eqb_refl.
  - set (w0 := setOwn w urls). assert (Hi0 : Inv lib u w0) by exact Hi. change ServiceCmd with 1%Z.
    pose proof (processCommand_spec lib u disc w0 1 service Hs Hi0) as H. destruct (processCommand lib disc w0 1 service) as [w1 need].
    destruct H as (A1 & A2 & A3 & A4 & A5 & A6 & A7 & A8).
    pose proof (deliver lib u disc w1 A1) as D. destruct (getResult lib disc w1) as [w2 r]. destruct D as (D1 & D2 & D3 & D4 & D5 & D6 & D7).
    pose proof D3 as (U1 & U2 & U3 & U4 & U5 & U6 & U7 & U8 & U9). unfold stepped. split; [exact D1|]. split; [intros Hd He; apply D2, A2; assumption|].
    split; [intros _ H; eapply avail_same; [exact D3|]; apply A3; exact H|]. cbn [own_after text_after].
    split; [rewrite U3, A4; reflexivity|]. split; [rewrite U7, A7; reflexivity|]. split; [rewrite U8, A8; reflexivity|]. split; [intros r' E; injection E as <-; auto|].
    intros g l' Hin. cbn [disc_of]. destruct (D7 _ _ Hin) as [H|[H1 H2]]; [|left; split; [change (cwNext w) with (cwNext w0); lia|exact H2]].
    destruct (A6 _ _ H) as [H'|[H1 H2]]; [right; exists l'; auto|left; auto].
  - unfold stepped. destruct Hi as ((L1 & L2 & L3 & L4) & Hu & Hst & Ht & Hd & Hw & Ha). split; [|split; [|split; [|split; [|split; [|split; [|split]]]]]].
    + split; [|split; [exact Hu|split; [exact Hst|split; [|split; [|split]]]]].
      * split; [constructor|]. split; [intros ? ? ? ? []|]. split; [intros ? ? []|]. cbn [cwSubs cwNext]. intros s H. apply filter_In in H as [H _]. apply L4. exact H.
      * cbn. split; intros c [].
      * intros c X. discriminate X.
      * intros g [].
      * intro X. exfalso. apply X. reflexivity.
    + intros _ He s H. cbn [cwSubs] in H. apply filter_In in H as [H X]. exfalso. destruct (He s H) as (l & A & B). rewrite negb_true_iff in X. rewrite <- not_true_iff_false in X. apply X.
      apply existsb_exists. exists (snd s, l). split; [exact A|]. apply Nat.eqb_eq. exact B.
    + intro X. exfalso. apply X. reflexivity.
    + reflexivity.
    + reflexivity.
    + reflexivity.
    + intros r E. discriminate E.
    + intros g l' [].
Qed.
Lemma Inv_new lib u : Inv lib u (newCrw u).
Proof.
  split; [|split; [reflexivity|split; [reflexivity|split; [|split; [|split]]]]].
  - split; [constructor|]. split; [intros ? ? ? ? []|]. split; [intros ? ? []|intros s []].
  - split; intros c [].
  - intros c X. discriminate X.
  - intros g [].
  - intro X. exfalso. apply X. reflexivity.
Qed.
Lemma wRun_app lib a b w : wRun lib w (a ++ b) = wRun lib (wRun lib w a) b.
Proof. revert w. induction a as [|o a IH]; intro w; cbn; [reflexivity|apply IH]. Qed.
Lemma after_snoc lib u os o : wAfter lib u (os ++ [o]) = fst (wStep lib (wAfter lib u os) o).
Proof. unfold wAfter. rewrite wRun_app. reflexivity. Qed.
Lemma after_inv lib u os : sort_ok lib -> Inv lib u (wAfter lib u os) /\ (distinct_groups lib u -> exact_subs (wAfter lib u os)) /\
  (Forall (fun o => o <> WUnsubscribe) os -> avail_ok lib u (wAfter lib u os)) /\
  cwOwn (wAfter lib u os) = last_own os /\ cwAgent (wAfter lib u os) = last_text 0 os /\ cwService (wAfter lib u os) = last_text 1 os.
Proof.
  intro Hs. induction os as [|o os IH] using rev_ind.
  - split; [apply Inv_new|]. split; [intros _ s []|]. split; [intros _; split; [intros _; split; intros c []|reflexivity]|]. auto.
  - destruct IH as (I1 & I2 & I3 & I4 & I5 & I6). rewrite after_snoc. pose proof (step_stepped lib u (wAfter lib u os) o Hs I1) as H.
    destruct (wStep lib (wAfter lib u os) o) as [w' out]. destruct H as (S1 & S2 & S3 & S4 & S5 & S6 & S7 & S8). cbn [fst].
    split; [exact S1|]. split; [auto|]. split; [intro Hf; apply Forall_app in Hf as [Hf Ho]; inversion Ho; subst; auto|].
    unfold last_own, last_text. rewrite !fold_left_app. cbn [fold_left]. fold (last_own os) (last_text 0 os) (last_text 1 os). rewrite <- I4, <- I5, <- I6. auto.
Qed.

(* ---- the static command, and what a command text changes *)
Lemma static_spec u : match staticOf u with
  | None => forall g, ~ mix_group u g
  | Some c => cmRoutes c = [] /\ exists others, cmGroups c = uGroup u :: others /\ others <> [] /\ (forall g, In g others <-> mix_group u g)
  end.
Proof.
  unfold staticOf, pgetD. change MixGroupsKey with (s2b "mixGroups").
  destruct (pget (uParams u) (s2b "mixGroups")) as [m|] eqn:E.
  2:{ intros g (m & piece & X & _). congruence. }
  destruct m as [|b m].
  { intros g (m & piece & X & Y & -> & Z & _). rewrite E in X. injection X as <-. cbn in Y. destruct Y as [<-|[]]. apply Z. reflexivity. }
  set (mm := b :: m) in *. set (others := filter _ (map trimSpace (splitOn x2c mm))).
  assert (G : forall g, In g others <-> mix_group u g).
  { intro g. unfold others. rewrite filter_In, in_map_iff, andb_true_iff, !negb_true_iff. split.
    - intros [(piece & <- & Hp) [H1 H2]]. exists mm, piece. split; [exact E|]. split; [exact Hp|]. split; [reflexivity|].
      split; [intro X; rewrite X, bs_eqb_refl in H1; discriminate H1|intro X; rewrite X, bs_eqb_refl in H2; discriminate H2].
    - intros (m' & piece & X & Hp & -> & H1 & H2). rewrite E in X. injection X as <-. split; [exists piece; auto|].
      split; apply bs_eqb_neq; assumption. }
  destruct others as [|g0 r].
  - intros g Hg. apply G in Hg. destruct Hg.
  - cbn [cmRoutes cmGroups]. split; [reflexivity|]. exists (g0 :: r). split; [reflexivity|]. split; [intro X; discriminate X|exact G].
Qed.
Lemma getResult_tc lib disc w : cwTc (fst (getResult lib disc w)) = cwTc w.
Proof.
  assert (M : forall gs w r, cwTc (fst (fold_left (mergeGroup disc) gs (w, r))) = cwTc w).
  { induction gs as [|g gs IH]; intros w0 r; cbn [fold_left]; [reflexivity|].
    destruct (mergeGroup disc (w0, r) g) as [w1 r1] eqn:E. rewrite IH. unfold mergeGroup in E.
    destruct (bs_eqb (uGroup (cwUrl w0)) (groupName g)); [injection E as <- _; reflexivity|].
    destruct (aget bs_eqb (cwOthers w0) (groupName g)); [injection E as <- _; reflexivity|]. cbn in E. injection E as <- _. reflexivity. }
  unfold getResult. destruct (currentTc w) as [c|]; [|reflexivity].
  pose proof (M (cmGroups c) w []) as H. destruct (fold_left (mergeGroup disc) (cmGroups c) (w, [])) as [w1 merged]. cbn [fst] in H.
  match goal with |- context [processRoute ?a ?b ?d] => destruct (processRoute a b d) end; exact H.
Qed.
Lemma command_quiet lib disc w typ info : let o := WCommand typ info disc in
  snd (wStep lib w o) = None <->
  (typ <> 0%Z /\ typ <> 1%Z) \/ (typ = 0%Z /\ cwAgent w = info) \/ (typ = 1%Z /\ cwService w = info) \/
  (cwTc w = None /\ cwTc (fst (wStep lib w o)) = None).
Proof.
  cbn zeta. cbn [wStep]. unfold processCommand. change AgentCmd with 0%Z. change ServiceCmd with 1%Z.
  assert (G : forall agent service,
    let p := (let '(t1, d1, s1) := match agent with [] => (None, None, None) | _ => mergeCommand lib agent (cwUrl w) end in
              let '(t2, d2, s2) := match service with [] => (None, None, None) | _ => mergeCommand lib service (cwUrl w) end in
              let tc := orElse t1 t2 in let dc := orElse d1 d2 in let sc := orElse s1 s2 in
              let need := match tc, cwTc w with None, None => false | _, _ => true end in
              let w1 := processTc disc w tc in
              (mkCrw (cwUrl w1) (cwStatic w1) (cwOwn w1) (cwOthers w1) (cwTc w1) dc sc agent service (cwWeights w1)
                     (match dc with None => true | Some _ => false end) (cwSubs w1) (cwNext w1), need)) in
    let q := let (w1, need) := p in if need then let (w2, r) := getResult lib disc w1 in (w2, Some r) else (w1, None) in
    snd q = None <-> cwTc w = None /\ cwTc (fst q) = None).
  { intros agent service. cbn zeta.
    destruct (match agent with [] => (None, None, None) | _ => mergeCommand lib agent (cwUrl w) end) as [[t1 d1] s1].
    destruct (match service with [] => (None, None, None) | _ => mergeCommand lib service (cwUrl w) end) as [[t2 d2] s2].
    assert (T : forall newTc, cwTc (processTc disc w newTc) = newTc).
    { intro newTc. unfold processTc. match goal with |- context [match ?x with (_, _) => _ end] => destruct x as [[a b] d] end. reflexivity. }
    destruct (orElse t1 t2) as [tc|] eqn:Et.
    - match goal with |- context [getResult lib disc ?x] => pose proof (getResult_tc lib disc x) as H; destruct (getResult lib disc x) as [w2 r] end.
      cbn [fst snd] in *. rewrite H. cbn [cwTc]. rewrite T. split; [intro X; discriminate X|intros [_ X]; discriminate X].
    - destruct (cwTc w) as [c0|] eqn:Ew.
      + match goal with |- context [getResult lib disc ?x] => destruct (getResult lib disc x) as [w2 r] end. cbn [snd]. split; [intro X; discriminate X|intros [X _]; discriminate X].
      + cbn [fst snd cwTc]. rewrite T. tauto. }
  destruct (Z.eqb_spec typ 0) as [E0|E0].
  - destruct (bs_eqb (cwAgent w) info) eqn:Ei.
    + apply bs_eqb_spec in Ei. cbn [snd fst]. split; [|reflexivity]. intros _. right. left. auto.
    + rewrite (G info (cwService w)). assert (cwAgent w <> info) by (apply bs_eqb_neq; exact Ei). split; [tauto|]. intros [[X _]|[[_ X]|[[X _]|X]]]; try tauto. congruence.
  - destruct (Z.eqb_spec typ 1) as [E1|E1].
    + destruct (bs_eqb (cwService w) info) eqn:Ei.
      * apply bs_eqb_spec in Ei. cbn [snd fst]. split; [|reflexivity]. intros _. right. right. left. auto.
      * rewrite (G (cwAgent w) info). assert (cwService w <> info) by (apply bs_eqb_neq; exact Ei). split; [tauto|]. intros [[_ X]|[[X _]|[[_ X]|X]]]; tauto.
    + cbn [snd]. split; [|reflexivity]. intros _. left. auto.
Qed.

(* ---- the weights that are reported *)
Lemma rev_cases {A} (l : list A) : l = [] \/ exists r z, l = r ++ [z].
Proof. destruct l as [|a l] using rev_ind; [left; reflexivity|right; eauto]. Qed.
Definition addWeight (ws : list (bs * bs)) (group : bs) : list (bs * bs) :=
  match splitOn x3a group with a :: b :: _ => aset bs_eqb ws a b | _ => ws end.
Lemma tc_weights disc old gs : forall w news ws, snd (fold_left (tcGroup disc old) gs (w, news, ws)) = fold_left addWeight gs ws.
Proof.
  induction gs as [|g gs IH]; intros w news ws; [reflexivity|]. cbn [fold_left]. unfold tcGroup at 2. change (match splitOn x3a g with a :: b :: _ => aset bs_eqb ws a b | _ => ws end) with (addWeight ws g).
  cbv zeta. destruct (bs_eqb _ _); [apply IH|]. destruct (aget bs_eqb old _); [apply IH|]. destruct (newSubscribe _ _ _). apply IH.
Qed.
Lemma split_cons c s : exists a r, splitOn c s = a :: r.
Proof. induction s as [|b s (a & r & E)]; [exists [], []; reflexivity|]. cbn [splitOn]. rewrite E. destruct (byte_eqb b c); eauto. Qed.
Lemma split_first c s a r : splitOn c s = a :: r -> ~ In c a /\ ((r = [] /\ s = a) \/ exists s', s = a ++ c :: s' /\ splitOn c s' = r).
Proof.
  revert a r. induction s as [|b s IH]; intros a r E; cbn [splitOn] in E.
  - injection E as <- <-. split; [intros []|left; auto].
  - destruct (split_cons c s) as (a0 & r0 & E0). rewrite E0 in E. destruct (byte_eqb b c) eqn:B.
    + injection E as <- <-. apply byte_eqb_spec in B as ->. split; [intros []|]. right. exists s. auto.
    + injection E as <- <-. destruct (IH a0 r0 E0) as [Na H]. split.
      * intros [->|X]; [rewrite byte_eqb_refl in B; discriminate B|exact (Na X)].
      * destruct H as [[-> ->]|(s' & -> & Hs)]; [left; auto|]. right. exists s'. auto.
Qed.
Lemma split_head c a s : ~ In c a -> splitOn c (a ++ c :: s) = a :: splitOn c s.
Proof.
  induction a as [|b a IH]; intro N; cbn [app splitOn]; [rewrite byte_eqb_refl; destruct (split_cons c s) as (x & r & ->); reflexivity|].
  rewrite IH by (intro X; apply N; right; exact X). destruct (byte_eqb b c) eqn:B; [apply byte_eqb_spec in B; destruct N; left; congruence|reflexivity].
Qed.
Lemma split_whole c a : ~ In c a -> splitOn c a = [a].
Proof.
  induction a as [|b a IH]; intro N; [reflexivity|]. cbn [splitOn]. rewrite IH by (intro X; apply N; right; exact X).
  destruct (byte_eqb b c) eqn:B; [apply byte_eqb_spec in B; destruct N; left; congruence|reflexivity].
Qed.
Lemma entry_split e g x : weight_entry e g x <-> exists r, splitOn x3a e = g :: x :: r.
Proof.
  split.
  - intros (Ng & Nx & [->|(t & ->)]).
    + exists []. rewrite split_head by exact Ng. rewrite split_whole by exact Nx. reflexivity.
    + exists (splitOn x3a t). rewrite split_head by exact Ng. rewrite split_head by exact Nx. reflexivity.
  - intros (r & E). destruct (split_first _ _ _ _ E) as [Ng [[X _]|(s' & -> & E')]]; [discriminate X|].
    destruct (split_first _ _ _ _ E') as [Nx [[_ ->]|(t & -> & _)]]; (split; [exact Ng|]; split; [exact Nx|]); [left; reflexivity|right; exists t; reflexivity].
Qed.
Lemma addWeight_get ws e g : (exists x, weight_entry e g x /\ aget bs_eqb (addWeight ws e) g = Some x) \/ ((forall x, ~ weight_entry e g x) /\ aget bs_eqb (addWeight ws e) g = aget bs_eqb ws g).
Proof.
  unfold addWeight. destruct (splitOn x3a e) as [|a [|b r]] eqn:E.
  - right. split; [intros x H; apply entry_split in H as (r & H); congruence|reflexivity].
  - right. split; [intros x H; apply entry_split in H as (r & H); congruence|reflexivity].
  - destruct (bs_eqb g a) eqn:G.
    + apply bs_eqb_spec in G as ->. left. exists b. split; [apply entry_split; eauto|]. rewrite (aget_aset bs_eqb bs_eqb_spec), bs_eqb_refl. reflexivity.
    + right. split; [intros x H; apply entry_split in H as (r' & H); rewrite E in H; injection H as -> _ _; rewrite bs_eqb_refl in G; discriminate G|].
      rewrite (aget_aset bs_eqb bs_eqb_spec), G. reflexivity.
Qed.
Lemma weights_get gs g x : aget bs_eqb (fold_left addWeight gs []) g = Some x <-> weight_given gs g x.
Proof.
  revert x. induction gs as [|e gs IH] using rev_ind; intro x.
  - split; [discriminate|]. intros (l & e & r & E & _). destruct l; discriminate E.
  - rewrite fold_left_app. cbn [fold_left]. destruct (addWeight_get (fold_left addWeight gs []) e g) as [(y & Y & ->)|[N ->]].
    + split.
      * intro H. injection H as ->. exists gs, e, []. split; [reflexivity|]. split; [exact Y|]. intros e' x' [].
      * intros (l & e1 & r & E & W & L). destruct (rev_cases r) as [->|(r' & z & ->)].
        -- apply app_inj_tail in E as [_ <-]. apply entry_split in W as (r1 & W). apply entry_split in Y as (r2 & Y). congruence.
        -- rewrite app_comm_cons, app_assoc in E. apply app_inj_tail in E as [_ <-]. destruct (L e y); [apply in_or_app; right; left; reflexivity|exact Y].
    + rewrite IH. split.
      * intros (l & e1 & r & -> & W & L). exists l, e1, (r ++ [e]). split; [rewrite <- app_assoc; reflexivity|]. split; [exact W|].
        intros e' x' I. apply in_app_or in I as [I|[<-|[]]]; [apply L; exact I|apply N].
      * intros (l & e1 & r & E & W & L). destruct (rev_cases r) as [->|(r' & z & ->)].
        -- apply app_inj_tail in E as [_ <-]. destruct (N x W).
        -- rewrite app_comm_cons, app_assoc in E. apply app_inj_tail in E as [-> <-]. exists l, e1, r'. split; [reflexivity|]. split; [exact W|]. intros e' x' I. apply L. apply in_or_app. left. exact I.
Qed.
Definition weights_ok (w : crw) : Prop := forall c, cwTc w = Some c -> cwWeights w = fold_left addWeight (cmGroups c) [].
Lemma tcGroup_tc disc old gs : forall st, cwTc (fst (fst (fold_left (tcGroup disc old) gs st))) = cwTc (fst (fst st)).
Proof.
  induction gs as [|g gs IH]; intros [[w news] ws]; [reflexivity|]. cbn [fold_left]. rewrite IH. unfold tcGroup. cbv zeta.
  destruct (bs_eqb _ _); [reflexivity|]. destruct (aget bs_eqb old _); reflexivity.
Qed.
Lemma processTc_weights disc w t : weights_ok (processTc disc w t).
Proof.
  intros c. unfold processTc. set (groups := match t with Some c => Some (cmGroups c) | None => option_map cmGroups (cwStatic w) end).
  intro H. assert (T : t = Some c). { revert H. destruct (match groups with None => _ | Some gs => _ end) as [[w1 news] ws]. cbn [cwTc]. auto. }
  subst t. subst groups. cbn iota. pose proof (tc_weights disc (cwOthers w) (cmGroups c) w [] []) as X. destruct (fold_left (tcGroup disc (cwOthers w)) (cmGroups c) (w, [], [])) as [[w1 news] ws]. exact X.
Qed.
Lemma mergeGroup_same disc gs : forall st, cwTc (fst (fold_left (mergeGroup disc) gs st)) = cwTc (fst st) /\ cwWeights (fst (fold_left (mergeGroup disc) gs st)) = cwWeights (fst st).
Proof.
  induction gs as [|g gs IH]; intros [w m]; [auto|]. cbn [fold_left]. destruct (IH (mergeGroup disc (w, m) g)) as [-> ->]. unfold mergeGroup. cbv zeta.
  destruct (bs_eqb _ _); [auto|]. destruct (aget bs_eqb _ _); auto.
Qed.
Lemma getResult_same lib disc w : cwTc (fst (getResult lib disc w)) = cwTc w /\ cwWeights (fst (getResult lib disc w)) = cwWeights w.
Proof.
  unfold getResult. destruct (currentTc w) as [c|]; [|auto]. pose proof (mergeGroup_same disc (cmGroups c) (w, [])) as H.
  destruct (fold_left (mergeGroup disc) (cmGroups c) (w, [])) as [w1 m]. cbn [fst] in H. destruct (processRoute _ _ _); exact H.
Qed.
Lemma processCommand_weights lib disc w typ info : weights_ok w -> weights_ok (fst (processCommand lib disc w typ info)).
Proof.
  intro H. unfold processCommand. cbv zeta.
  assert (G : forall tc dc sc ag sv need, weights_ok (fst (let w1 := processTc disc w tc in
     (mkCrw (cwUrl w1) (cwStatic w1) (cwOwn w1) (cwOthers w1) (cwTc w1) dc sc ag sv (cwWeights w1) (match dc with None => true | Some _ => false end) (cwSubs w1) (cwNext w1), need : bool)))).
  { intros tc dc sc ag sv need c E. exact (processTc_weights disc w tc c E). }
  destruct (typ =? AgentCmd)%Z; [destruct (bs_eqb _ _); [exact H|]|destruct (typ =? ServiceCmd)%Z; [destruct (bs_eqb _ _); [exact H|]|exact H]].
  - destruct (match info with [] => _ | _ => _ end) as [[t1 d1] s1]. destruct (match cwService w with [] => _ | _ => _ end) as [[t2 d2] s2]. apply G.
  - destruct (match cwAgent w with [] => _ | _ => _ end) as [[t1 d1] s1]. destruct (match info with [] => _ | _ => _ end) as [[t2 d2] s2]. apply G.
Qed.
Lemma wStep_weights lib w o : weights_ok w -> weights_ok (fst (wStep lib w o)).
Proof.
  intro H. assert (R : forall disc w1, weights_ok w1 -> weights_ok (fst (let (w2, r) := getResult lib disc w1 in (w2, Some r)))).
  { intros disc w1 H1 c. destruct (getResult_same lib disc w1) as [A B]. destruct (getResult lib disc w1) as [w2 r]. cbn [fst] in *. rewrite A, B. apply H1. }
  destruct o as [typ info disc|urls disc|id urls disc|urls service disc|]; cbn [wStep].
  - pose proof (processCommand_weights lib disc w typ info H) as P. destruct (processCommand lib disc w typ info) as [w1 need]. cbn [fst] in P. destruct need; [apply R; exact P|exact P].
  - cbv zeta. match goal with |- context [if ?b then _ else _] => destruct b end; [apply R; exact H|exact H].
  - destruct (existsb _ _); [apply R; exact H|exact H].
  - pose proof (processCommand_weights lib disc (setOwn w urls) ServiceCmd service H) as P. destruct (processCommand lib disc (setOwn w urls) ServiceCmd service) as [w1 need]. cbn [fst] in P. apply R; exact P.
  - intros c E. discriminate E.
Qed.
Lemma after_weights lib u os : weights_ok (wAfter lib u os).
Proof. induction os as [|o os IH] using rev_ind; [intros c E; discriminate E|]. rewrite after_snoc. apply wStep_weights. exact IH. Qed.
Lemma weights_in_force lib u os c : cwTc (wAfter lib u os) = Some c -> forall g x, aget bs_eqb (cwWeights (wAfter lib u os)) g = Some x <-> weight_given (cmGroups c) g x.
Proof. intros E g x. rewrite (after_weights lib u os c E). apply weights_get. Qed.
