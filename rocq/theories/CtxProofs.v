(* CtxProofs.v: proofs about the context model. *)
From Verif Require Import Base Strconv GoStrings GoStrings2 UrlModel UrlSpec UrlProofs ConfModel ConfSpec ConfProofs CtxModel CtxSpec.
Require Import Coq.Sorting.Permutation.
Set Implicit Arguments.
Ltac Zify.zify_post_hook ::= idtac.

(* ---- sections *)
Lemma conf_proj (fmtF : N -> bs) {A} (proj : url -> A) (K : ckey) (val : cval -> A) :
  (forall u k v u', confEntry fmtF u k v = Some u' -> proj u' = if ckey_eqb K k then val v else proj u) ->
  forall m u r, NoDup (map fst m) -> confToURLFrom fmtF u m = Some r ->
  proj r = match aget ckey_eqb m K with Some v => val v | None => proj u end.
Proof.
  intro H. induction m as [|[k v] m IH]; intros u r Hn E; [injection E as <-; reflexivity|].
  cbn [confToURLFrom] in E. destruct (confEntry fmtF u k v) as [u'|] eqn:E1; [|discriminate E].
  cbn [map fst] in Hn. inversion Hn as [|? ? N1 N2]; subst. rewrite (IH u' r N2 E). cbn [aget].
  rewrite (H _ _ _ _ E1). destruct (ckey_eqb K k) eqn:Ek; [|reflexivity].
  apply ckey_eqb_spec in Ek. subst k. apply (proj2 (aget_None ckey_eqb ckey_eqb_spec m K)) in N1. rewrite N1. reflexivity.
Qed.
Ltac entry :=
  intros u k v u' E; destruct k as [s|n]; [|discriminate E]; cbn [confEntry] in E; cbn [ckey_eqb];
  repeat match type of E with context [bs_eqb s ?x] =>
    let Q := fresh "Q" in destruct (bs_eqb s x) eqn:Q; [apply bs_eqb_spec in Q; subst s|] end.
Definition strVal (v : cval) : bs := match v with CStr s => s | _ => [] end.
Definition intVal (v : cval) : Z := match v with CInt z => z | _ => 0%Z end.
Lemma strField_val v x : strField v = Some x -> x = strVal v.
Proof. destruct v; cbn; intro H; try discriminate H; injection H as <-; reflexivity. Qed.
Lemma bs_eqb_swap a b : bs_eqb a b = false -> bs_eqb b a = false.
Proof. intro H. rewrite bs_eqb_sym. exact H. Qed.

Ltac fields :=
  match goal with
  | E : match strField ?v with Some _ => _ | None => _ end = Some _ |- _ =>
      let x := fresh "x" in let S := fresh "S" in
      destruct (strField v) as [x|] eqn:S; [|discriminate E]; apply strField_val in S; injection E as <-; try exact S; try reflexivity
  | E : match ?v with CNil => None | _ => _ end = Some _ |- _ => destruct v; try discriminate E; injection E as <-; reflexivity
  | E : Some _ = Some _ |- _ => injection E as <-
  end.

Section Conf.
  Variable fmtF : N -> bs.
  Lemma entry_protocol u k v u' : confEntry fmtF u k v = Some u' -> uProtocol u' = if ckey_eqb (KStr (s2b "protocol")) k then strVal v else uProtocol u.
  Proof. revert u k v u'. entry; try fields. rewrite (bs_eqb_swap _ _ Q). reflexivity. Qed.
  Lemma entry_host u k v u' : confEntry fmtF u k v = Some u' -> uHost u' = if ckey_eqb (KStr (s2b "host")) k then strVal v else uHost u.
  Proof. revert u k v u'. entry; try fields. rewrite (bs_eqb_swap _ _ Q0). reflexivity. Qed.
  Lemma entry_port u k v u' : confEntry fmtF u k v = Some u' -> uPort u' = if ckey_eqb (KStr (s2b "port")) k then intVal v else uPort u.
  Proof. revert u k v u'. entry; try fields. rewrite (bs_eqb_swap _ _ Q1). reflexivity. Qed.
  Lemma entry_path u k v u' : confEntry fmtF u k v = Some u' -> uPath u' = if ckey_eqb (KStr (s2b "path")) k then strVal v else uPath u.
  Proof. revert u k v u'. entry; try fields. rewrite (bs_eqb_swap _ _ Q2). reflexivity. Qed.
  Lemma entry_group u k v u' : confEntry fmtF u k v = Some u' -> uGroup u' = if ckey_eqb (KStr (s2b "group")) k then strVal v else uGroup u.
  Proof. revert u k v u'. entry; try fields. rewrite (bs_eqb_swap _ _ Q3). reflexivity. Qed.
  Lemma param_withParams u p k : param (withParams u p) k = pget p k.
  Proof. reflexivity. Qed.
  Lemma pget_pset p k v k' : pget (pset p k v) k' = if bs_eqb k' k then Some v else pget p k'.
  Proof. unfold pget, pset. rewrite (aget_aset bs_eqb bs_eqb_spec). destruct p; reflexivity. Qed.
  Lemma entry_param key : ~ In key reserved -> forall u k v u', confEntry fmtF u k v = Some u' ->
    param u' key = if ckey_eqb (KStr key) k then Some (interfaceToString fmtF v) else param u key.
  Proof.
    intro N. assert (D : forall x, In x reserved -> bs_eqb key x = false).
    { intros x Hx. apply bs_eqb_neq. intros ->. contradiction. }
    entry.
    - rewrite D by (left; reflexivity). fields.
    - rewrite D by (right; left; reflexivity). fields.
    - rewrite D by (right; right; left; reflexivity). fields.
    - rewrite D by (right; right; right; left; reflexivity). fields.
    - rewrite D by (right; right; right; right; left; reflexivity). fields.
    - injection E as <-. rewrite param_withParams, pget_pset. reflexivity.
  Qed.

  Lemma section_fields m u : NoDup (map fst m) -> confToURL fmtF m = Some u ->
    uProtocol u = text_field m "protocol" /\ uHost u = text_field m "host" /\ uPort u = int_field m "port" /\
    uPath u = text_field m "path" /\ uGroup u = text_field m "group" /\
    forall k, ~ In k reserved -> param u k = option_map (printed fmtF) (aget ckey_eqb m (KStr k)).
  Proof.
    intros Hn E. unfold confToURL in E.
    pose proof (conf_proj fmtF uProtocol _ _ entry_protocol m _ Hn E) as P1.
    pose proof (conf_proj fmtF uHost _ _ entry_host m _ Hn E) as P2.
    pose proof (conf_proj fmtF uPort _ _ entry_port m _ Hn E) as P3.
    pose proof (conf_proj fmtF uPath _ _ entry_path m _ Hn E) as P4.
    pose proof (conf_proj fmtF uGroup _ _ entry_group m _ Hn E) as P5.
    unfold text_field, int_field.
    split; [|split; [|split; [|split; [|split]]]].
    - rewrite P1. destruct (aget ckey_eqb m (KStr (s2b "protocol"))) as [[]|]; reflexivity.
    - rewrite P2. destruct (aget ckey_eqb m (KStr (s2b "host"))) as [[]|]; reflexivity.
    - rewrite P3. destruct (aget ckey_eqb m (KStr (s2b "port"))) as [[]|]; reflexivity.
    - rewrite P4. destruct (aget ckey_eqb m (KStr (s2b "path"))) as [[]|]; reflexivity.
    - rewrite P5. destruct (aget ckey_eqb m (KStr (s2b "group"))) as [[]|]; reflexivity.
    - intros k Hk. rewrite (conf_proj fmtF (fun u => param u k) _ _ (@entry_param k Hk) m _ Hn E).
      destruct (aget ckey_eqb m (KStr k)) as [v|]; [|reflexivity]. cbn [option_map]. f_equal.
      destruct v; try reflexivity. destruct b; reflexivity.
  Qed.

  Lemma entry_bad u k v : confEntry fmtF u k v = None <-> bad_entry k v.
  Proof.
    unfold bad_entry. destruct k as [s|n]; [|split; [intros _; left; exists n; reflexivity|reflexivity]].
    cbn [confEntry].
    assert (SF : forall f : bs -> url, (match strField v with Some x => Some (f x) | None => None end = None) <->
                 v <> CNil /\ forall t, v <> CStr t).
    { intro f. destruct v; cbn; split; intro H; try discriminate H; try reflexivity;
        try (split; [discriminate|intros t X; discriminate X]); destruct H as [H1 H2]; try contradiction.
      exfalso. exact (H2 s0 eq_refl). }
    assert (W : forall P Q R : Prop, (P <-> Q) -> In s (map s2b ["protocol"; "host"; "path"; "group"]%string) -> s <> s2b "port" ->
                (P <-> (exists n, KStr s = KOther n) \/ (exists s', KStr s = KStr s' /\ In s' (map s2b ["protocol"; "host"; "path"; "group"]%string) /\ Q) \/
                       (KStr s = KStr (s2b "port") /\ R))).
    { intros P Q R PQ Hs Hp. rewrite PQ. split.
      - intro H. right. left. exists s. split; [reflexivity|]. split; assumption.
      - intros [[n H]|[[s' [H1 [_ H2]]]|[H _]]]; [discriminate H|exact H2|]. injection H as H. contradiction. }
    destruct (bs_eqb s (s2b "protocol")) eqn:Q1; [apply bs_eqb_spec in Q1; apply W; [apply SF|subst s; left; reflexivity|subst s; intro X; discriminate X]|].
    destruct (bs_eqb s (s2b "host")) eqn:Q2; [apply bs_eqb_spec in Q2; apply W; [apply SF|subst s; right; left; reflexivity|subst s; intro X; discriminate X]|].
    destruct (bs_eqb s (s2b "port")) eqn:Q3.
    { apply bs_eqb_spec in Q3. subst s. split.
      - intro H. right. right. split; [reflexivity|]. intros z ->. discriminate H.
      - intros [[n H]|[[s' [H1 [H2 _]]]|[_ H]]]; [discriminate H| |].
        + injection H1 as <-. cbn in H2. exfalso. intuition discriminate.
        + destruct v; try reflexivity. exfalso. exact (H z eq_refl). }
    destruct (bs_eqb s (s2b "path")) eqn:Q4; [apply bs_eqb_spec in Q4; apply W; [apply SF|subst s; right; right; left; reflexivity|subst s; intro X; discriminate X]|].
    destruct (bs_eqb s (s2b "group")) eqn:Q5; [apply bs_eqb_spec in Q5; apply W; [apply SF|subst s; right; right; right; left; reflexivity|subst s; intro X; discriminate X]|].
    split; [discriminate|]. apply bs_eqb_neq in Q1, Q2, Q3, Q4, Q5.
    intros [[n H]|[[s' [H1 [H2 _]]]|[H _]]]; [discriminate H| |].
    - injection H1 as <-. cbn [map In] in H2. exfalso. intuition congruence.
    - injection H as H. contradiction.
  Qed.
  Lemma section_bad m : confToURL fmtF m = None <-> exists k v, In (k, v) m /\ bad_entry k v.
  Proof.
    unfold confToURL. generalize (mkUrl [] [] 0 [] [] (Some [])) as u. induction m as [|[k v] m IH]; intro u.
    - cbn. split; [discriminate|]. intros [k [v [[] _]]].
    - cbn [confToURLFrom]. destruct (confEntry fmtF u k v) as [u'|] eqn:E.
      + rewrite IH. split.
        * intros [k0 [v0 [H1 H2]]]. exists k0, v0. split; [right; exact H1|exact H2].
        * intros [k0 [v0 [[H1|H1] H2]]]; [|exists k0, v0; split; assumption].
          injection H1 as <- <-. apply (entry_bad u) in H2. congruence.
      + split; [|reflexivity]. intros _. exists k, v. split; [left; reflexivity|]. apply (entry_bad u). exact E.
  Qed.
End Conf.

(* ---- basic configurations *)
Lemma aget_fold_aset (ps : list (bs * bs)) : NoDup (map fst ps) -> forall m k,
  aget bs_eqb (fold_left (fun m kv => aset bs_eqb m (fst kv) (snd kv)) ps m) k =
  match aget bs_eqb ps k with Some v => Some v | None => aget bs_eqb m k end.
Proof.
  induction ps as [|[k0 v0] ps IH]; intros Hn m k; [reflexivity|].
  cbn [map fst] in Hn. inversion Hn as [|? ? N1 N2]; subst. cbn [fold_left fst snd aget]. rewrite (IH N2).
  rewrite (aget_aset bs_eqb bs_eqb_spec). destruct (bs_eqb k k0) eqn:E; [|reflexivity].
  apply bs_eqb_spec in E. subst k0. apply (proj2 (aget_None bs_eqb bs_eqb_spec ps k)) in N1. rewrite N1. reflexivity.
Qed.
Lemma cUrl_getPortStr c : cUrl (snd (getPortStr c)) = cUrl c.
Proof. unfold getPortStr. destruct (cPortStr c); reflexivity. Qed.
Lemma cUrl_getIdentity c : cUrl (snd (getIdentity c)) = cUrl c.
Proof.
  unfold getIdentity. destruct (cIdentity c) as [|b i]; [|reflexivity].
  pose proof (cUrl_getPortStr c) as H. destruct (getPortStr c) as [p c1]. exact H.
Qed.
Lemma param_pairs u k : param u k = aget bs_eqb (pairs u) k.
Proof. unfold param, pairs. destruct (uParams u); reflexivity. Qed.
Lemma param_copy c k : param (cUrl (copyUrl c)) k = param (cUrl c) k.
Proof. unfold copyUrl, fresh. cbn [cUrl]. unfold param, withParams. cbn [uParams]. destruct (uParams (cUrl c)); reflexivity. Qed.

Lemma derive_basic basics bk c b : NoDup (map fst (pairs (cUrl c))) ->
  str_or (cUrl c) bk [] <> [] -> aget bs_eqb basics (str_or (cUrl c) bk []) = Some b ->
  exists c', deriveURL basics bk c = Some c' /\
    uProtocol (cUrl c') = first_of (uProtocol (cUrl c)) (uProtocol (cUrl b)) /\
    uHost (cUrl c') = first_of (uHost (cUrl c)) (uHost (cUrl b)) /\
    uPort (cUrl c') = (if Z.eqb (uPort (cUrl c)) 0 then uPort (cUrl b) else uPort (cUrl c)) /\
    uPath (cUrl c') = first_of (uPath (cUrl c)) (uPath (cUrl b)) /\
    uGroup (cUrl c') = first_of (uGroup (cUrl c)) (uGroup (cUrl b)) /\
    (forall k, param (cUrl c') k = match param (cUrl c) k with Some v => Some v | None => param (cUrl b) k end).
Proof.
  intros Hn Hs Hb. unfold deriveURL. rewrite getParam_str_or.
  destruct (str_or (cUrl c) bk []) as [|x name] eqn:E; [contradiction|]. rewrite Hb.
  unfold mergeParams. cbn [cUrl uParams].
  assert (X : uParams (cUrl (copyUrl b)) = Some (pairs (cUrl b))).
  { unfold copyUrl, fresh, pairs. cbn [cUrl withParams uParams]. reflexivity. }
  rewrite X. eexists. split; [reflexivity|]. rewrite cUrl_getIdentity. cbn [cUrl withParams uProtocol uHost uPort uPath uGroup].
  unfold first_of, or_str, copyUrl, fresh. cbn [cUrl withParams uProtocol uHost uPort uPath uGroup].
  repeat (split; [reflexivity|]). intro k. unfold param at 1. cbn [uParams].
  rewrite !param_pairs. change (match uParams (cUrl c) with Some m => m | None => [] end) with (pairs (cUrl c)). rewrite <- (@aget_fold_aset _ Hn (pairs (cUrl b)) k). reflexivity.
Qed.
Lemma derive_plain basics bk c :
  str_or (cUrl c) bk [] = [] \/ aget bs_eqb basics (str_or (cUrl c) bk []) = None ->
  exists c', deriveURL basics bk c = Some c' /\ cUrl c' = cUrl c.
Proof.
  intro H. unfold deriveURL. rewrite getParam_str_or.
  destruct (str_or (cUrl c) bk []) as [|x name] eqn:E; [exists c; split; reflexivity|].
  destruct H as [H|H]; [discriminate H|]. rewrite H. eexists. split; [reflexivity|]. apply cUrl_getIdentity.
Qed.

(* ---- filters *)
Lemma names_In s x : In x (names s) <-> x <> [] /\ exists p, In p (splitOn x2c s) /\ trimSpace p = x.
Proof.
  unfold names. rewrite trimSplit_spec by discriminate. change (s2b ",") with [x2c]. rewrite splitStr_one, filter_In, in_map_iff.
  unfold nonblank. split.
  - intros [[p [<- Hp]] H]. rewrite trimSpace_idem in H. apply negb_true_iff, bs_eqb_neq in H. split; [exact H|]. exists p. split; [exact Hp|reflexivity].
  - intros [H [p [Hp <-]]]. split; [exists p; split; [reflexivity|exact Hp]|]. rewrite trimSpace_idem. apply negb_true_iff, bs_eqb_neq. exact H.
Qed.
Lemma addSet_In s k x : In x (addSet s k) <-> In x s \/ x = k.
Proof.
  unfold addSet. destruct (existsb (bs_eqb k) s) eqn:E.
  - apply existsb_In in E. split; [left; assumption|]. intros [H| ->]; assumption.
  - rewrite in_app_iff. cbn [In]. intuition.
Qed.
Lemma addNames_In ks : forall s x, In x (addNames s ks) <-> In x s \/ (x <> [] /\ exists k, In k ks /\ trimSpace k = x).
Proof.
  unfold addNames. induction ks as [|k ks IH]; intros s x; cbn [fold_left].
  - split; [left; assumption|]. intros [H|[_ [k [[] _]]]]. exact H.
  - rewrite IH. destruct (trimSpace k) as [|b t] eqn:E.
    + split; intros [H|[H1 [k0 [H2 H3]]]]; try (left; exact H).
      * right. split; [exact H1|]. exists k0. split; [right; exact H2|exact H3].
      * destruct H2 as [->|H2]; [congruence|]. right. split; [exact H1|]. exists k0. split; assumption.
    + rewrite addSet_In. split.
      * intros [[H|H]|[H1 [k0 [H2 H3]]]].
        -- left. exact H.
        -- right. split; [subst x; discriminate|]. exists k. split; [left; reflexivity|]. congruence.
        -- right. split; [exact H1|]. exists k0. split; [right; exact H2|exact H3].
      * intros [H|[H1 [k0 [[->|H2] H3]]]].
        -- left. left. exact H.
        -- left. right. congruence.
        -- right. split; [exact H1|]. exists k0. split; assumption.
Qed.
Lemma removeNames_In ds : forall s x,
  In x (fold_left (fun s k => match trimSpace k with [] => s | t => filter (fun x => negb (bs_eqb x t)) s end) ds s) <->
  In x s /\ ~ (x <> [] /\ exists k, In k ds /\ trimSpace k = x).
Proof.
  induction ds as [|d ds IH]; intros s x; cbn [fold_left].
  - split; [intro H; split; [exact H|]; intros [_ [k [[] _]]]|]. intros [H _]. exact H.
  - rewrite IH. destruct (trimSpace d) as [|b t] eqn:E.
    + split; intros [H N]; (split; [exact H|]); intros [X [k [Hk Ht]]]; apply N; (split; [exact X|]); exists k.
      * destruct Hk as [->|Hk]; [congruence|]. split; assumption.
      * split; [right; exact Hk|exact Ht].
    + rewrite filter_In, negb_true_iff, bs_eqb_neq. split.
      * intros [[H D] N]. split; [exact H|]. intros [X [k [[->|Hk] Ht]]]; [congruence|]. apply N. split; [exact X|]. exists k. split; assumption.
      * intros [H N]. split; [split; [exact H|]|].
        -- intros ->. apply N. split; [discriminate|]. exists d. split; [left; reflexivity|exact E].
        -- intros [X [k [Hk Ht]]]. apply N. split; [exact X|]. exists k. split; [right; exact Hk|exact Ht].
Qed.
Lemma filterSet_In f d x : In x (filterSet f d) <-> In x (names f) /\ ~ In x (names d).
Proof.
  unfold filterSet. destruct f as [|b f].
  - split; [intros []|]. intros [H _]. apply names_In in H as [H1 [p [[<-|[]] H2]]]. cbn in H2. congruence.
  - rewrite removeNames_In, addNames_In, !names_In. cbn [In]. split.
    + intros [[[]|H] N]. split; assumption.
    + intros [H N]. split; [right; exact H|exact N].
Qed.
Lemma envFilterSet_In e x : In x (envFilterSet e) <-> In x (names e).
Proof.
  unfold envFilterSet. destruct e as [|b e].
  - split; [intros []|]. intro H. apply names_In in H as [H1 [p [[<-|[]] H2]]]. cbn in H2. congruence.
  - rewrite addNames_In, names_In. cbn [In]. intuition.
Qed.
Lemma merge_In sets : forall x, In x (mergeFilterSet sets) <-> exists s k, In s sets /\ In k s /\ trimSpace k = x /\ x <> [].
Proof.
  unfold mergeFilterSet. intro x.
  assert (G : forall acc, In x (fold_left addNames sets acc) <-> In x acc \/ exists s k, In s sets /\ In k s /\ trimSpace k = x /\ x <> []).
  { induction sets as [|s sets IH]; intro acc; cbn [fold_left].
    - split; [left; assumption|]. intros [H|[s [k [[] _]]]]. exact H.
    - rewrite IH, addNames_In. split.
      + intros [[H|[H1 [k [H2 H3]]]]|[s' [k [H1 H2]]]].
        * left. exact H.
        * right. exists s, k. split; [left; reflexivity|]. split; [exact H2|]. split; assumption.
        * right. exists s', k. split; [right; exact H1|exact H2].
      + intros [H|[s' [k [[<-|H1] [H2 [H3 H4]]]]]].
        * left. left. exact H.
        * left. right. split; [exact H4|]. exists k. split; assumption.
        * right. exists s', k. repeat (split; [assumption|]). assumption. }
  rewrite G. cbn [In]. intuition.
Qed.
Lemma names_trimmed s x : In x (names s) -> trimSpace x = x /\ x <> [] /\ ~ In x2c x.
Proof.
  intro H. apply names_In in H as [H [p [Hp <-]]]. split; [apply trimSpace_idem|]. split; [exact H|].
  pose proof (splitOn_parts _ _ _ Hp) as C. destruct (trimSpace_split p) as (a & b & E & _).
  intro X. apply C. rewrite E. apply in_or_app. right. apply in_or_app. left. exact X.
Qed.
Lemma names_single x : trimSpace x = x -> x <> [] -> ~ In x2c x -> names x = [x].
Proof.
  intros H1 H2 H3. unfold names. change (s2b ",") with [x2c]. rewrite trimSplit_one; [rewrite H1; reflexivity|exact H3|congruence].
Qed.
Lemma splitOn_app_gen c a s : splitOn c (a ++ c :: s) = splitOn c a ++ splitOn c s.
Proof.
  induction a as [|x a IH].
  - cbn [app splitOn]. rewrite byte_eqb_refl. reflexivity.
  - cbn [app splitOn]. rewrite IH. destruct (byte_eqb x c); [reflexivity|].
    pose proof (splitOn_ne c a) as N. destruct (splitOn c a) as [|p t]; [contradiction|]. reflexivity.
Qed.
Lemma names_join l f : In f (names (joinStr (s2b ",") l)) <-> exists y, In y l /\ In f (names y).
Proof.
  change (s2b ",") with [x2c]. induction l as [|x l IH].
  - cbn [joinStr]. split; [intro H; apply names_In in H as [H1 [p [[<-|[]] H2]]]; cbn in H2; congruence|]. intros [y [[] _]].
  - destruct l as [|y l].
    + cbn [joinStr]. split; [intro H; exists x; split; [left; reflexivity|exact H]|]. intros [y [[<-|[]] H]]. exact H.
    + change (joinStr [x2c] (x :: y :: l)) with (x ++ x2c :: joinStr [x2c] (y :: l)).
      rewrite names_In. rewrite splitOn_app_gen. split.
      * intros [H [p [Hp Ht]]]. apply in_app_or in Hp as [Hp|Hp].
        -- exists x. split; [left; reflexivity|]. apply names_In. split; [exact H|]. exists p. split; assumption.
        -- destruct (proj1 IH) as [z [Hz Hf]]; [apply names_In; split; [exact H|]; exists p; split; assumption|].
           exists z. split; [right; exact Hz|exact Hf].
      * intros [z [[<-|Hz] Hf]].
        -- apply names_In in Hf as [H [p [Hp Ht]]]. split; [exact H|]. exists p. split; [apply in_or_app; left; exact Hp|exact Ht].
        -- destruct (proj1 (names_In _ _) (proj2 IH (ex_intro _ z (conj Hz Hf)))) as [H [p [Hp Ht]]].
           split; [exact H|]. exists p. split; [apply in_or_app; right; exact Hp|exact Ht].
Qed.
Lemma relevant_In calls : forall ext x, In x (fold_left addRelevantFilter calls ext) <->
  In x ext \/ (x <> [] /\ exists k, In k calls /\ trimSpace k = x).
Proof.
  induction calls as [|k calls IH]; intros ext x; cbn [fold_left].
  - split; [left; assumption|]. intros [H|[_ [k [[] _]]]]. exact H.
  - rewrite IH. unfold addRelevantFilter. destruct (trimSpace k) as [|b t] eqn:E.
    + split; intros [H|[H1 [k0 [H2 H3]]]]; try (left; exact H).
      * right. split; [exact H1|]. exists k0. split; [right; exact H2|exact H3].
      * destruct H2 as [->|H2]; [congruence|]. right. split; [exact H1|]. exists k0. split; assumption.
    + rewrite addSet_In. split.
      * intros [[H|H]|[H1 [k0 [H2 H3]]]].
        -- left. exact H.
        -- right. split; [subst x; discriminate|]. exists k. split; [left; reflexivity|]. congruence.
        -- right. split; [exact H1|]. exists k0. split; [right; exact H2|exact H3].
      * intros [H|[H1 [k0 [[->|H2] H3]]]].
        -- left. left. exact H.
        -- left. right. congruence.
        -- right. split; [exact H1|]. exists k0. split; assumption.
Qed.
Lemma gsp_text u k : getStringParamsWithDefault u k [] = text u k.
Proof. unfold getStringParamsWithDefault, pgetD, text, param, pget. destruct (uParams u) as [m|]; [|reflexivity]. destruct (aget bs_eqb m k) as [[|b v]|]; reflexivity. Qed.

Lemma final_wanted agent env calls u f :
  (exists y, In y (finalFilters agent env (fold_left addRelevantFilter calls []) u) /\ In f (names y)) <-> wanted agent env calls u f.
Proof.
  unfold finalFilters, wanted. fold DefaultFilter DisableDefaultFilter GlobalFilter DisableGlobalFilter FilterKey.
  assert (N0 : ~ In f (names [])) by (intro H; apply names_In in H as [H1 [p [[<-|[]] H2]]]; cbn in H2; congruence).
  split.
  - intros [y [Hy Hf]]. apply merge_In in Hy as [s [k [Hs [Hk [Ht Hn]]]]].
    assert (ONE : forall t, In k (names t) -> k = f /\ In f (names t)).
    { intros t H. destruct (names_trimmed _ _ H) as [T1 [T2 T3]]. assert (Ey : y = k) by congruence. rewrite Ey in Hf.
      rewrite (names_single T1 T2 T3) in Hf. destruct Hf as [->|[]]. split; [reflexivity|exact H]. }
    cbn [In] in Hs. destruct Hs as [<-|[<-|[<-|[<-|[<-|[]]]]]].
    + destruct agent as [a|]; [|destruct Hk]. apply filterSet_In in Hk as [K1 K2]. rewrite !gsp_text in *.
      destruct (ONE _ K1) as [-> K]. left. exists a. split; [reflexivity|]. split; assumption.
    + destruct agent as [a|]; [|destruct Hk]. apply filterSet_In in Hk as [K1 K2]. rewrite !gsp_text in *.
      destruct (ONE _ K1) as [-> K]. right. left. exists a. split; [reflexivity|]. split; assumption.
    + apply (proj1 (envFilterSet_In _ _)) in Hk. right. right. left. exact (proj2 (ONE _ Hk)).
    + apply relevant_In in Hk as [[]|[H1 [c [H2 H3]]]]. right. right. right. left. exists c. split; [exact H2|].
      assert (trimSpace k = k) by (rewrite <- H3; apply trimSpace_idem). congruence.
    + apply filterSet_In in Hk as [K1 K2]. rewrite gsp_text in K1. right. right. right. right. exact (proj2 (ONE _ K1)).
  - assert (GO : forall s, In f s -> In s [match agent with None => [] | Some a => filterSet (getStringParamsWithDefault a DefaultFilter []) (getStringParamsWithDefault u DisableDefaultFilter []) end;
        match agent with None => [] | Some a => filterSet (getStringParamsWithDefault a GlobalFilter []) (getStringParamsWithDefault u DisableGlobalFilter []) end;
        envFilterSet env; fold_left addRelevantFilter calls []; filterSet (getStringParamsWithDefault u FilterKey []) []] ->
        (exists t, In f (names t)) -> exists y, In y (mergeFilterSet [match agent with None => [] | Some a => filterSet (getStringParamsWithDefault a DefaultFilter []) (getStringParamsWithDefault u DisableDefaultFilter []) end;
        match agent with None => [] | Some a => filterSet (getStringParamsWithDefault a GlobalFilter []) (getStringParamsWithDefault u DisableGlobalFilter []) end;
        envFilterSet env; fold_left addRelevantFilter calls []; filterSet (getStringParamsWithDefault u FilterKey []) []]) /\ In f (names y)).
    { intros s Hf Hs [t Ht]. destruct (names_trimmed _ _ Ht) as [T1 [T2 T3]]. exists f. split.
      - apply merge_In. exists s, f. repeat (split; [assumption|]). assumption.
      - rewrite (names_single T1 T2 T3). left. reflexivity. }
    intros [[a [-> [H1 H2]]]|[[a [-> [H1 H2]]]|[H|[[c [H1 H2]]|H]]]].
    + eapply GO; [|left; reflexivity|eexists; exact H1]. apply filterSet_In. rewrite !gsp_text. split; assumption.
    + eapply GO; [|right; left; reflexivity|eexists; exact H1]. apply filterSet_In. rewrite !gsp_text. split; assumption.
    + eapply GO; [|right; right; left; reflexivity|eexists; exact H]. apply envFilterSet_In. exact H.
    + exists (trimSpace c). split; [|exact H2]. apply merge_In. exists (fold_left addRelevantFilter calls []), (trimSpace c).
      assert (Z : trimSpace c <> []) by (intro Z; rewrite Z in H2; contradiction).
      split; [right; right; right; left; reflexivity|]. split; [apply relevant_In; right; split; [exact Z|]; exists c; split; [exact H1|reflexivity]|].
      split; [apply trimSpace_idem|exact Z].
    + eapply GO; [|right; right; right; right; left; reflexivity|eexists; exact H]. apply filterSet_In. rewrite gsp_text. split; assumption.
Qed.

Lemma param_putParamU c k v k' : param (cUrl (UrlModel.putParam c k v)) k' = if bs_eqb k' k then Some v else param (cUrl c) k'.
Proof. unfold UrlModel.putParam. cbn [cUrl]. rewrite param_withParams, pget_pset. reflexivity. Qed.

Lemma filters_ok ord agent env calls c f : (forall l, Permutation (ord l) l) ->
  In f (names (text (cUrl (setFilters ord agent env (fold_left addRelevantFilter calls []) c)) (s2b "filter"))) <->
  wanted agent env calls (cUrl c) f.
Proof.
  intro Ho. rewrite <- final_wanted. unfold setFilters.
  destruct (finalFilters agent env (fold_left addRelevantFilter calls []) (cUrl c)) as [|y ys] eqn:E.
  - split; [|intros [z [[] _]]]. intro H.
    assert (W : wanted agent env calls (cUrl c) f) by (right; right; right; right; exact H).
    apply final_wanted in W. rewrite E in W. destruct W as [z [[] _]].
  - unfold text. rewrite param_putParamU. change (bs_eqb (s2b "filter") FilterKey) with true. cbv iota.
    rewrite names_join. split; intros [z [Hz Hf]]; exists z; (split; [|exact Hf]).
    + apply (Permutation_in z (Ho (y :: ys)) Hz).
    + apply (Permutation_in z (Permutation_sym (Ho (y :: ys))) Hz).
Qed.
Lemma filters_rest ord agent env ext c k : k <> s2b "filter" -> param (cUrl (setFilters ord agent env ext c)) k = param (cUrl c) k.
Proof.
  intro H. unfold setFilters. destruct (finalFilters agent env ext (cUrl c)); [reflexivity|].
  rewrite param_putParamU. apply bs_eqb_neq in H. change FilterKey with (s2b "filter"). rewrite H. reflexivity.
Qed.

(* ---- groups *)
Lemma withEnvGroup_eq env g : withEnvGroup env g = all_groups env g.
Proof. unfold withEnvGroup, all_groups. destruct env, g; reflexivity. Qed.
Lemma cUrl_setGroup c g : in_other_group (cUrl c) (cUrl (setGroup c g)) g.
Proof. unfold in_other_group, setGroup. cbn. repeat split. Qed.
Lemma in_other_trans u v w g h : in_other_group u v g -> in_other_group v w h -> in_other_group u w h.
Proof.
  intros [A1 [A2 [A3 [A4 [A5 A6]]]]] [B1 [B2 [B3 [B4 [B5 B6]]]]]. unfold in_other_group.
  repeat (split; [congruence|]). intro k. rewrite B6. apply A6.
Qed.
Lemma in_other_self u : in_other_group u u (uGroup u).
Proof. unfold in_other_group. repeat split. Qed.
Lemma cUrl_copy c : in_other_group (cUrl c) (cUrl (copyUrl c)) (uGroup (cUrl c)).
Proof. unfold in_other_group. repeat (split; [reflexivity|]). intro k. apply param_copy. Qed.

Lemma copies_In k c gs : forall idx k' c', In (k', c') (copies k c idx gs) <->
  exists i g, nth_error gs i = Some g /\ k' = k ++ s2b "-" ++ fmtN (idx + N.of_nat i) /\ c' = setGroup (copyUrl c) g.
Proof.
  induction gs as [|g gs IH]; intros idx k' c'; cbn [copies In].
  - split; [intros []|]. intros [i [g [H _]]]. destruct i; discriminate H.
  - rewrite IH. split.
    + intros [H|[i [g' [H1 [H2 H3]]]]].
      * injection H as <- <-. exists 0, g. cbn [nth_error N.of_nat]. rewrite N.add_0_r. repeat split.
      * exists (S i), g'. split; [exact H1|]. split; [|exact H3]. rewrite H2. do 3 f_equal. lia.
    + intros [[|i] [g' [H1 [H2 H3]]]].
      * left. cbn in H1. injection H1 as ->. cbn [N.of_nat] in H2. rewrite N.add_0_r in H2. rewrite H2, H3. reflexivity.
      * right. exists i, g'. split; [exact H1|]. split; [|exact H3]. rewrite H2. do 3 f_equal. lia.
Qed.
Lemma fmtN_inj a b : fmtN a = fmtN b -> a = b.
Proof. intro H. rewrite <- (proj1 (fmtN_spec a)), <- (proj1 (fmtN_spec b)), H. reflexivity. Qed.
Lemma fmtN_nodash n : ~ In x2d (fmtN n).
Proof.
  destruct (fmtN_spec n) as [_ [H _]]. rewrite Forall_forall in H. intro X. specialize (H _ X). vm_compute in H. destruct H; congruence.
Qed.
Lemma first_split (x : byte) d : forall d' a a', ~ In x d -> ~ In x d' -> d ++ x :: a = d' ++ x :: a' -> d = d' /\ a = a'.
Proof.
  induction d as [|y d IH]; intros d' a a' H1 H2 E.
  - destruct d' as [|y' d']; [injection E as E; split; [reflexivity|exact E]|]. injection E as E _. exfalso. apply H2. left. symmetry. exact E.
  - destruct d' as [|y' d']; [injection E as E _; exfalso; apply H1; left; exact E|]. injection E as -> E.
    destruct (IH d' a a') as [-> ->]; try assumption; try (intro X; first [apply H1; right; exact X|apply H2; right; exact X]). split; reflexivity.
Qed.
Lemma numbered_inj k n k' n' : k ++ s2b "-" ++ fmtN n = k' ++ s2b "-" ++ fmtN n' -> k = k' /\ n = n'.
Proof.
  intro H. apply (f_equal (@rev byte)) in H. rewrite !rev_app_distr in H.
  change (rev (s2b "-")) with [x2d] in H. rewrite <- !app_assoc in H. cbn [app] in H.
  apply first_split in H as [H1 H2].
  - split; [rewrite <- (rev_involutive k), H2; apply rev_involutive|]. apply fmtN_inj. rewrite <- (rev_involutive (fmtN n)), H1. apply rev_involutive.
  - rewrite <- in_rev. apply fmtN_nodash.
  - rewrite <- in_rev. apply fmtN_nodash.
Qed.
Lemma copies_nodup k c gs : forall idx, NoDup (map fst (copies k c idx gs)).
Proof.
  induction gs as [|g gs IH]; intro idx; cbn [copies map fst]; [constructor|]. constructor; [|apply IH].
  intro H. apply in_map_iff in H as [[k' c'] [E H]]. cbn [fst] in E. subst k'. apply copies_In in H as [i [g' [_ [E _]]]].
  apply numbered_inj in E as [_ E]. lia.
Qed.

Lemma splitService_ok env k c c' extra : splitService env k c = Some (c', extra) ->
  exists g0 gs, (forall x, In x (g0 :: gs) <-> in_group env (uGroup (cUrl c)) x) /\ NoDup (g0 :: gs) /\
    in_other_group (cUrl c) (cUrl c') g0 /\ extra = copies k c' 0 gs.
Proof.
  unfold splitService, in_group. rewrite withEnvGroup_eq. set (t := all_groups env (uGroup (cUrl c))).
  set (c1 := match env with [] => c | _ => setGroup c t end).
  assert (C1 : in_other_group (cUrl c) (cUrl c1) t).
  { subst c1. destruct env; [|apply cUrl_setGroup]. subst t. unfold all_groups. apply in_other_self. }
  destruct (contains t (s2b ",")) eqn:E.
  - rewrite slicesUnique_spec. destruct (first_occurrences (trimSplit t (s2b ","))) as [|g0 gs] eqn:F; [discriminate|].
    intro H. injection H as <- <-. exists g0, gs. split; [|split; [|split; [|reflexivity]]].
    + intro x. rewrite <- F, first_occ_In. split; [intro H; left; split; [reflexivity|exact H]|].
      intros [[_ H]|[H _]]; [exact H|discriminate H].
    + rewrite <- F. apply first_occ_NoDup.
    + eapply in_other_trans; [exact C1|]. apply cUrl_setGroup.
  - intro H. injection H as <- <-. exists t, []. split; [|split; [|split; [exact C1|reflexivity]]].
    + intro x. cbn [In]. split; [intros [<-|[]]; right; split; reflexivity|]. intros [[H _]|[_ H]]; [discriminate H|left; symmetry; exact H].
    + constructor; [intros []|constructor].
Qed.

Lemma splitServices_keys env m : forall m' add, splitServices env m = Some (m', add) ->
  map fst m' = map fst m /\
  (forall k c, In (k, c) add -> exists k0 n, In k0 (map fst m) /\ k = k0 ++ s2b "-" ++ fmtN n) /\
  (NoDup (map fst m) -> NoDup (map fst add)).
Proof.
  induction m as [|[k c] m IH]; intros m' add H; cbn [splitServices] in H.
  - injection H as <- <-. split; [reflexivity|]. split; [intros k c []|]. intros _. constructor.
  - destruct (splitService env k c) as [[c' extra]|] eqn:E; [|discriminate H].
    destruct (splitServices env m) as [[r' extras]|] eqn:E2; [|discriminate H]. injection H as <- <-.
    destruct (IH _ _ eq_refl) as [K1 [K2 K3]]. destruct (splitService_ok _ _ _ E) as [g0 [gs [_ [_ [_ ->]]]]].
    assert (F : forall k' c'', In (k', c'') (copies k c' 0 gs) -> exists n, k' = k ++ s2b "-" ++ fmtN n).
    { intros k' c'' Hin. apply copies_In in Hin as [i [g [_ [-> _]]]]. eexists. reflexivity. }
    split; [cbn [map fst]; rewrite K1; reflexivity|]. split.
    + intros k' c'' Hin. apply in_app_or in Hin as [Hin|Hin].
      * destruct (F _ _ Hin) as [n ->]. exists k, n. split; [left; reflexivity|reflexivity].
      * destruct (K2 _ _ Hin) as [k0 [n [H1 H2]]]. exists k0, n. split; [right; exact H1|exact H2].
    + intro Hn. cbn [map fst] in Hn. inversion Hn as [|? ? N1 N2]; subst. rewrite map_app.
      assert (D : forall x, In x (map fst (copies k c' 0 gs)) -> ~ In x (map fst extras)).
      { intros x Hx Hy. apply in_map_iff in Hx as [[x1 c1] [X1 X2]]. apply in_map_iff in Hy as [[y1 c2] [Y1 Y2]].
        cbn [fst] in X1, Y1. subst x1 y1. destruct (F _ _ X2) as [n Hn1]. destruct (K2 _ _ Y2) as [k0 [n0 [Z1 Z2]]].
        rewrite Hn1 in Z2. apply numbered_inj in Z2 as [-> _]. contradiction. }
      revert D. generalize (copies_nodup k c' gs 0). specialize (K3 N2). revert K3.
      generalize (map fst (copies k c' 0 gs)) as a, (map fst extras) as b. intros a b Nb Na D.
      induction a as [|x a IHa]; [exact Nb|]. inversion Na as [|? ? A1 A2]; subst. cbn [app]. constructor.
      * intro X. apply in_app_or in X as [X|X]; [contradiction|]. exact (D x (or_introl eq_refl) X).
      * apply IHa; [exact A2|]. intros y Hy. apply D. right. exact Hy.
Qed.

Lemma aset_new {V} (m : list (bs * V)) k v : ~ In k (map fst m) -> aset bs_eqb m k v = m ++ [(k, v)].
Proof.
  induction m as [|[k0 v0] m IH]; intro H; [reflexivity|]. cbn [aset map fst In] in *.
  destruct (bs_eqb k k0) eqn:E; [apply bs_eqb_spec in E; exfalso; apply H; left; symmetry; exact E|].
  rewrite IH; [reflexivity|]. intro X. apply H. right. exact X.
Qed.
Lemma setAll_app add : forall m, NoDup (map fst add) -> (forall k, In k (map fst add) -> ~ In k (map fst m)) -> setAll m add = m ++ add.
Proof.
  unfold setAll. induction add as [|[k v] add IH]; intros m Hn D; cbn [fold_left fst snd]; [symmetry; apply app_nil_r|].
  cbn [map fst] in Hn. inversion Hn as [|? ? N1 N2]; subst.
  rewrite (@aset_new _ m k v (D k (or_introl eq_refl))), IH; [rewrite <- app_assoc; reflexivity|exact N2|].
  intros k' Hk' X. rewrite map_app in X. apply in_app_or in X as [X|[X|[]]].
  - exact (D k' (or_intror Hk') X).
  - cbn [fst] in X. subst k'. contradiction.
Qed.

Lemma multi_split env m m' : NoDup (map fst m) -> no_numbered (map fst m) -> parseMultipleServiceGroup env m = Some m' ->
  exists m1 add, splitServices env m = Some (m1, add) /\ m' = m1 ++ add /\ map fst m1 = map fst m /\ NoDup (map fst m').
Proof.
  intros Hn Hd H. unfold parseMultipleServiceGroup in H. destruct (splitServices env m) as [[m1 add]|] eqn:E; [|discriminate H].
  injection H as <-. destruct (splitServices_keys _ _ E) as [K1 [K2 K3]].
  assert (D : forall k, In k (map fst add) -> ~ In k (map fst m1)).
  { intros k Hk X. apply in_map_iff in Hk as [[k' c] [E1 Hin]]. cbn [fst] in E1. subst k'.
    destruct (K2 _ _ Hin) as [k0 [n [Z1 Z2]]]. rewrite K1 in X. exact (Hd k0 k n Z1 X Z2). }
  pose proof (setAll_app add m1 (K3 Hn) D) as S. exists m1, add. split; [reflexivity|]. split; [exact S|]. split; [exact K1|].
  rewrite S, map_app. pose proof (K3 Hn) as N3. rewrite <- K1 in Hn. revert Hn D. revert N3. clear. generalize (map fst m1) as a, (map fst add) as b.
  intros a b Nb Na D. induction a as [|x a IHa]; [exact Nb|]. inversion Na as [|? ? A1 A2]; subst. cbn [app]. constructor.
  - intro X. apply in_app_or in X as [X|X]; [contradiction|]. exact (D x X (or_introl eq_refl)).
  - apply IHa; [exact A2|]. intros y Hy X. exact (D y Hy (or_intror X)).
Qed.

Lemma split_forward env m : forall m1 add k c g, splitServices env m = Some (m1, add) -> In (k, c) m -> in_group env (uGroup (cUrl c)) g ->
  exists k' c', In (k', c') (m1 ++ add) /\ in_other_group (cUrl c) (cUrl c') g /\ (k' = k \/ exists n, k' = k ++ s2b "-" ++ fmtN n).
Proof.
  induction m as [|[k0 c0] m IH]; intros m1 add k c g H Hin Hg; [destruct Hin|]. cbn [splitServices] in H.
  destruct (splitService env k0 c0) as [[c' extra]|] eqn:E; [|discriminate H].
  destruct (splitServices env m) as [[r' extras]|] eqn:E2; [|discriminate H]. injection H as <- <-.
  destruct Hin as [Hin|Hin].
  - injection Hin as -> ->. destruct (splitService_ok _ _ _ E) as [g0 [gs [G1 [G2 [G3 ->]]]]].
    destruct (proj2 (G1 g) Hg) as [Hg0|Hg0].
    + exists k, c'. split; [left; reflexivity|]. split; [rewrite <- Hg0; exact G3|left; reflexivity].
    + apply In_nth_error in Hg0 as [i Hi]. exists (k ++ s2b "-" ++ fmtN (N.of_nat i)), (setGroup (copyUrl c') g).
      split; [|split; [|right; eexists; reflexivity]].
      * apply in_or_app. right. apply in_or_app. left. apply copies_In. exists i, g. repeat split. exact Hi.
      * eapply in_other_trans; [exact G3|]. eapply in_other_trans; [apply cUrl_copy|]. apply cUrl_setGroup.
  - destruct (IH _ _ k c g eq_refl Hin Hg) as [k' [c'' [X1 X2]]]. exists k', c''. split; [|exact X2].
    apply in_app_or in X1 as [X1|X1]; apply in_or_app; [left; right; exact X1|right; apply in_or_app; right; exact X1].
Qed.
Lemma split_back env m : forall m1 add k' c', splitServices env m = Some (m1, add) -> In (k', c') (m1 ++ add) ->
  exists k c g, In (k, c) m /\ in_group env (uGroup (cUrl c)) g /\ in_other_group (cUrl c) (cUrl c') g /\
    (k' = k \/ exists n, k' = k ++ s2b "-" ++ fmtN n).
Proof.
  induction m as [|[k0 c0] m IH]; intros m1 add k' c' H Hin; cbn [splitServices] in H.
  - injection H as <- <-. destruct Hin.
  - destruct (splitService env k0 c0) as [[c0' extra]|] eqn:E; [|discriminate H].
    destruct (splitServices env m) as [[r' extras]|] eqn:E2; [|discriminate H]. injection H as <- <-.
    destruct (splitService_ok _ _ _ E) as [g0 [gs [G1 [G2 [G3 ->]]]]].
    assert (REST : In (k', c') (r' ++ extras) -> exists k c g, In (k, c) ((k0, c0) :: m) /\ in_group env (uGroup (cUrl c)) g /\
      in_other_group (cUrl c) (cUrl c') g /\ (k' = k \/ exists n, k' = k ++ s2b "-" ++ fmtN n)).
    { intro X. destruct (IH _ _ _ _ eq_refl X) as [k [c [g [Y1 Y2]]]]. exists k, c, g. split; [right; exact Y1|exact Y2]. }
    apply in_app_or in Hin as [[Hin|Hin]|Hin].
    + injection Hin as <- <-. exists k0, c0, g0. split; [left; reflexivity|]. split; [apply G1; left; reflexivity|]. split; [exact G3|left; reflexivity].
    + apply REST. apply in_or_app. left. exact Hin.
    + apply in_app_or in Hin as [Hin|Hin]; [|apply REST; apply in_or_app; right; exact Hin].
      apply copies_In in Hin as [i [g [Hi [-> ->]]]]. exists k0, c0, g. split; [left; reflexivity|].
      split; [apply G1; right; eapply nth_error_In; exact Hi|]. split; [|right; eexists; reflexivity].
      eapply in_other_trans; [exact G3|]. eapply in_other_trans; [apply cUrl_copy|]. apply cUrl_setGroup.
Qed.
(* no two results come from one service with the same group *)
Lemma split_none env m : splitServices env m = None <->
  exists k c, In (k, c) m /\ contains (all_groups env (uGroup (cUrl c))) (s2b ",") = true /\ names (all_groups env (uGroup (cUrl c))) = [].
Proof.
  induction m as [|[k0 c0] m IH]; cbn [splitServices].
  - split; [discriminate|]. intros [k [c [[] _]]].
  - assert (S : splitService env k0 c0 = None <-> contains (all_groups env (uGroup (cUrl c0))) (s2b ",") = true /\ names (all_groups env (uGroup (cUrl c0))) = []).
    { unfold splitService, names. rewrite withEnvGroup_eq. destruct (contains (all_groups env (uGroup (cUrl c0))) (s2b ",")).
      - rewrite slicesUnique_spec. destruct (trimSplit (all_groups env (uGroup (cUrl c0))) (s2b ",")) as [|x l]; cbn [first_occurrences].
        + split; [intros _; split; reflexivity|reflexivity].
        + split; [discriminate|]. intros [_ H]. discriminate H.
      - split; [discriminate|]. intros [H _]. discriminate H. }
    destruct (splitService env k0 c0) as [[c' extra]|].
    + destruct (splitServices env m) as [[r' extras]|].
      * split; [discriminate|]. intros [k [c [[H|H] X]]].
        -- injection H as <- <-. apply S in X. discriminate X.
        -- assert (Y : Some (r', extras) = None) by (apply IH; exists k, c; split; assumption). discriminate Y.
      * split; [|reflexivity]. intros _. destruct (proj1 IH eq_refl) as [k [c [H X]]]. exists k, c. split; [right; exact H|exact X].
    + split; [|reflexivity]. intros _. exists k0, c0. split; [left; reflexivity|]. apply S. reflexivity.
Qed.

Lemma reg_suffix_ok suffix c : exists g, in_other_group (cUrl c) (cUrl (regSuffix suffix c)) g /\ ends_with suffix g /\
  (g = uGroup (cUrl c) \/ (g = uGroup (cUrl c) ++ suffix /\ ~ ends_with suffix (uGroup (cUrl c)))).
Proof.
  unfold regSuffix, ends_with. destruct (hasSuffix (uGroup (cUrl c)) suffix) eqn:E.
  - apply hasSuffix_spec in E as [p E]. exists (uGroup (cUrl c)). split; [apply in_other_self|]. split; [exists p; exact E|left; reflexivity].
  - exists (uGroup (cUrl c) ++ suffix). split; [apply cUrl_setGroup|]. split; [eexists; reflexivity|]. right. split; [reflexivity|].
    intros [p H]. assert (X : hasSuffix (uGroup (cUrl c)) suffix = true) by (apply hasSuffix_spec; exists p; exact H). congruence.
Qed.

(* ---- sub groups *)
Lemma idOf_fresh u : idOf (fresh u) = identity_of u.
Proof.
  unfold idOf. apply getIdentity_ok.
  - apply fresh_coherent.
  - left. reflexivity.
Qed.
Lemma cUrl_setGroup_copy c g : setGroup (copyUrl c) g = fresh (regroup (withParams (cUrl c) (Some (match uParams (cUrl c) with None => [] | Some m => m end))) g).
Proof. reflexivity. Qed.
Lemma identity_params u u' : uProtocol u' = uProtocol u -> uHost u' = uHost u -> uPort u' = uPort u -> uPath u' = uPath u ->
  uGroup u' = uGroup u -> (forall k, param u' k = param u k) -> identity_of u' = identity_of u.
Proof. intros H1 H2 H3 H4 H5 H6. unfold identity_of, str_or. rewrite H1, H2, H3, H4, H5, H6. reflexivity. Qed.
Lemma idOf_copy c g : idOf (setGroup (copyUrl c) g) = identity_of (regroup (cUrl c) g).
Proof.
  rewrite cUrl_setGroup_copy, idOf_fresh. apply identity_params; try reflexivity.
  intro k. unfold param, regroup, withParams. cbn [uParams]. destruct (uParams (cUrl c)); reflexivity.
Qed.
Lemma idOf_snd c : idOf (snd (getIdentity c)) = idOf c.
Proof.
  unfold idOf, getIdentity. destruct (cIdentity c) as [|b i] eqn:E; [|cbn [snd]; rewrite E; reflexivity].
  destruct (getPortStr c) as [p c1]. cbn [fst snd cIdentity].
  match goal with |- fst (match ?x with [] => _ | _ => _ end) = _ => destruct x as [|b i] eqn:Q end; [|reflexivity].
  exfalso. destruct (bs_eqb (uProtocol (cUrl c)) (s2b "direct")).
  - apply app_eq_nil in Q as [Q _]. apply app_eq_nil in Q as [_ Q]. discriminate Q.
  - apply app_eq_nil in Q as [_ Q]. discriminate Q.
Qed.


Lemma hasSuffix_false s p : hasSuffix s p = false <-> ~ ends_with p s.
Proof.
  split.
  - intros H [t X]. assert (Y : hasSuffix s p = true) by (apply hasSuffix_spec; exists t; exact X). congruence.
  - intro H. destruct (hasSuffix s p) eqn:E; [|reflexivity]. apply hasSuffix_spec in E as [t E]. exfalso. apply H. exists t. exact E.
Qed.

Lemma subLoop_ok suffix todo : forall ids m,
  NoDup (map (auto_key suffix) todo) -> (forall kc, In kc todo -> ~ In (auto_key suffix kc) (map fst m)) ->
  exists new, subLoop suffix ids m todo = m ++ new /\
    (forall k' c', In (k', c') new -> exists k c, In (k, c) todo /\ lacks suffix c /\ k' = auto_key suffix (k, c) /\
       in_other_group (cUrl c) (cUrl c') (uGroup (cUrl c) ++ suffix) /\ idOf c' = target suffix c) /\
    (forall k c, In (k, c) todo -> lacks suffix c -> In (target suffix c) ids \/ exists k' c', In (k', c') new /\ idOf c' = target suffix c) /\
    NoDup (map (fun kc => idOf (snd kc)) new) /\
    (forall kc, In kc new -> ~ In (idOf (snd kc)) ids).
Proof.
  induction todo as [|[k c] todo IH]; intros ids m Hn Hd; cbn [subLoop].
  - exists []. split; [symmetry; apply app_nil_r|]. split; [intros ? ? []|]. split; [intros ? ? []|]. split; [constructor|intros ? []].
  - cbn [map] in Hn. inversion Hn as [|? ? N1 N2]; subst.
    assert (SKIP : (lacks suffix c -> In (target suffix c) ids) ->
      exists new, subLoop suffix ids m todo = m ++ new /\
      (forall k' c', In (k', c') new -> exists k0 c0, In (k0, c0) ((k, c) :: todo) /\ lacks suffix c0 /\ k' = auto_key suffix (k0, c0) /\
         in_other_group (cUrl c0) (cUrl c') (uGroup (cUrl c0) ++ suffix) /\ idOf c' = target suffix c0) /\
      (forall k0 c0, In (k0, c0) ((k, c) :: todo) -> lacks suffix c0 -> In (target suffix c0) ids \/ exists k' c', In (k', c') new /\ idOf c' = target suffix c0) /\
      NoDup (map (fun kc => idOf (snd kc)) new) /\ (forall kc, In kc new -> ~ In (idOf (snd kc)) ids)).
    { intro Hc. destruct (IH ids m N2 (fun kc H => Hd kc (or_intror H))) as [new [A [B [C [D E]]]]].
      exists new. split; [exact A|]. split; [|split; [|split; [exact D|exact E]]].
      - intros k' c' X. destruct (B _ _ X) as [k0 [c0 [Y1 Y2]]]. exists k0, c0. split; [right; exact Y1|exact Y2].
      - intros k0 c0 [X|X] L; [injection X as <- <-; left; apply Hc; exact L|]. exact (C _ _ X L). }
    destruct (hasSuffix (uGroup (cUrl c)) suffix) eqn:HS.
    { apply SKIP. intro L. apply hasSuffix_false in L. congruence. }
    apply hasSuffix_false in HS. rewrite !idOf_copy. fold (target suffix c).
    destruct (existsb (bs_eqb (target suffix c)) ids) eqn:EX.
    { apply SKIP. intros _. apply existsb_In. exact EX. }
    assert (NI : ~ In (target suffix c) ids) by (intro X; apply existsb_In in X; congruence).
    clear SKIP.
    set (n := snd (getIdentity (setGroup (copyUrl c) (uGroup (cUrl c) ++ suffix)))).
    assert (K : s2b "auto_" ++ k ++ uGroup (cUrl c) ++ suffix = auto_key suffix (k, c)) by reflexivity.
    rewrite K. rewrite aset_new by (apply Hd; left; reflexivity).
    destruct (IH (target suffix c :: ids) (m ++ [(auto_key suffix (k, c), n)]) N2) as [new [A [B [C [D E]]]]].
    { intros kc Hkc X. rewrite map_app in X. apply in_app_or in X as [X|[X|[]]].
      - exact (Hd kc (or_intror Hkc) X).
      - cbn [fst] in X. apply N1. rewrite X. apply in_map. exact Hkc. }
    assert (In_id : idOf n = target suffix c) by (unfold n; rewrite idOf_snd, idOf_copy; reflexivity).
    exists ((auto_key suffix (k, c), n) :: new). split; [rewrite A, <- app_assoc; reflexivity|].
    split; [|split; [|split]].
    + intros k' c' [X|X].
      * injection X as <- <-. exists k, c. split; [left; reflexivity|]. split; [exact HS|]. split; [reflexivity|]. split; [|exact In_id].
        unfold n. rewrite cUrl_getIdentity. eapply in_other_trans; [apply cUrl_copy|apply cUrl_setGroup].
      * destruct (B _ _ X) as [k0 [c0 [Y1 Y2]]]. exists k0, c0. split; [right; exact Y1|exact Y2].
    + intros k0 c0 [X|X] L.
      * injection X as <- <-. right. eexists. eexists. split; [left; reflexivity|exact In_id].
      * destruct (C _ _ X L) as [[Y|Y]|[k' [c' [Y1 Y2]]]].
        -- right. eexists. eexists. split; [left; reflexivity|]. rewrite In_id. exact Y.
        -- left. exact Y.
        -- right. exists k', c'. split; [right; exact Y1|exact Y2].
    + cbn [map snd]. constructor; [|exact D]. intro X. apply in_map_iff in X as [kc [X1 X2]].
      apply (E kc X2). left. rewrite X1. symmetry. exact In_id.
    + intros kc [<-|X]; [cbn [snd]; rewrite In_id; exact NI|]. intro Y. apply (E kc X). right. exact Y.
Qed.

Definition cached (m : list (bs * curl)) : list (bs * curl) := map (fun kc => (fst kc, snd (getIdentity (snd kc)))) m.
Lemma cached_In m k c : In (k, c) m -> In (k, snd (getIdentity c)) (cached m).
Proof. intro H. unfold cached. apply in_map_iff. exists (k, c). split; [reflexivity|exact H]. Qed.
Lemma cached_back m k c : In (k, c) (cached m) -> exists c0, In (k, c0) m /\ c = snd (getIdentity c0).
Proof. unfold cached. intro H. apply in_map_iff in H as [[k0 c0] [E H]]. injection E as <- <-. exists c0. split; [exact H|reflexivity]. Qed.

Lemma sub_groups suffix m : suffix <> [] -> no_clash suffix m ->
  let r := parseSubGroupSuffix true suffix m in
  (forall k c, In (k, c) m -> exists c', In (k, c') r /\ cUrl c' = cUrl c) /\
  (forall k c, In (k, c) m -> lacks suffix c -> exists k' c', In (k', c') r /\ idOf c' = target suffix c) /\
  (forall k' c', In (k', c') r -> (exists c, In (k', c) m /\ cUrl c' = cUrl c) \/
     (exists k c, In (k, c) m /\ lacks suffix c /\ in_other_group (cUrl c) (cUrl c') (uGroup (cUrl c) ++ suffix) /\
        ~ In (idOf c') (map (fun kc => idOf (snd kc)) m))).
Proof.
  intros Hs [N1 [N2 N3]]. cbv zeta. unfold parseSubGroupSuffix. destruct suffix as [|b sf]; [contradiction|].
  set (suffix := b :: sf) in *.
  change (map (fun kc => (fst kc, snd (getIdentity (snd kc)))) m) with (cached m).
  assert (KEY : map (auto_key suffix) (cached m) = map (auto_key suffix) m).
  { unfold cached. rewrite map_map. apply map_ext. intros [k c]. unfold auto_key. cbn [fst snd]. rewrite cUrl_getIdentity. reflexivity. }
  assert (FST : map fst (cached m) = map fst m) by (unfold cached; rewrite map_map; reflexivity).
  assert (IDS : map (fun kc => idOf (snd kc)) (cached m) = map (fun kc => idOf (snd kc)) m).
  { unfold cached. rewrite map_map. apply map_ext. intros [k c]. cbn [snd]. apply idOf_snd. }
  destruct (@subLoop_ok suffix (cached m) (map (fun kc => idOf (snd kc)) (cached m)) (cached m)) as [new [A [B [C [D E]]]]].
  { rewrite KEY. exact N2. }
  { intros kc Hkc X. rewrite FST in X.
    assert (Z : In (auto_key suffix kc) (map (auto_key suffix) m)) by (rewrite <- KEY; apply in_map; exact Hkc).
    apply in_map_iff in Z as [kc0 [Z1 Z2]]. apply (N3 kc0 Z2). rewrite Z1. exact X. }
  rewrite A. split; [|split].
  - intros k c H. exists (snd (getIdentity c)). split; [apply in_or_app; left; apply cached_In; exact H|apply cUrl_getIdentity].
  - intros k c H L.
    assert (L' : lacks suffix (snd (getIdentity c))) by (unfold lacks; rewrite cUrl_getIdentity; exact L).
    assert (T : target suffix (snd (getIdentity c)) = target suffix c) by (unfold target; rewrite cUrl_getIdentity; reflexivity).
    destruct (C _ _ (cached_In _ _ _ H) L') as [X|[k' [c' [X1 X2]]]].
    + apply in_map_iff in X as [[k' c'] [X1 X2]]. exists k', c'. split; [apply in_or_app; left; exact X2|]. rewrite <- T. exact X1.
    + exists k', c'. split; [apply in_or_app; right; exact X1|]. rewrite <- T. exact X2.
  - intros k' c' H. apply in_app_or in H as [H|H].
    + left. apply cached_back in H as [c0 [H ->]]. exists c0. split; [exact H|apply cUrl_getIdentity].
    + right. destruct (B _ _ H) as [k [c [X1 [X2 [X3 [X4 X5]]]]]]. apply cached_back in X1 as [c0 [X1 ->]].
      exists k, c0. split; [exact X1|]. unfold lacks in *. rewrite cUrl_getIdentity in X2, X4. split; [exact X2|]. split; [exact X4|].
      pose proof (E _ H) as Y. cbn [snd] in Y. rewrite IDS in Y. exact Y.
Qed.

(* ---- identities *)
Lemma setGroup_uncached c g : uncached c -> uncached (setGroup c g).
Proof. unfold uncached. intros ->. reflexivity. Qed.
Lemma copy_uncached c : uncached (copyUrl c).
Proof. reflexivity. Qed.
Lemma copies_uncached k c gs : forall i k' c', In (k', c') (copies k c i gs) -> uncached c'.
Proof. induction gs as [|g gs IH]; intros i k' c' H; [destruct H|]. destruct H as [H|H]; [injection H as _ <-; reflexivity|exact (IH _ _ _ H)]. Qed.
Lemma splitService_uncached env k c c' extra : uncached c -> splitService env k c = Some (c', extra) ->
  uncached c' /\ forall k' x, In (k', x) extra -> uncached x.
Proof.
  intros U H. unfold splitService in H.
  assert (U1 : uncached (match env with [] => c | _ => setGroup c (withEnvGroup env (uGroup (cUrl c))) end))
    by (destruct env; [exact U|apply setGroup_uncached; exact U]).
  destruct (contains _ _).
  - destruct (slicesUnique _) as [|g0 gs]; [discriminate H|]. injection H as <- <-.
    split; [apply setGroup_uncached; exact U1|]. intros k' x X. exact (copies_uncached _ _ _ _ _ _ X).
  - injection H as <- <-. split; [exact U1|]. intros ? ? [].
Qed.
Lemma splitServices_uncached env m : forall m1 add, (forall k c, In (k, c) m -> uncached c) -> splitServices env m = Some (m1, add) ->
  forall k c, In (k, c) (m1 ++ add) -> uncached c.
Proof.
  induction m as [|[k0 c0] m IH]; intros m1 add U H k c X; cbn [splitServices] in H.
  - injection H as <- <-. destruct X.
  - destruct (splitService env k0 c0) as [[c' extra]|] eqn:E; [|discriminate H].
    destruct (splitServices env m) as [[r' extras]|] eqn:F; [|discriminate H]. injection H as <- <-.
    pose proof (U _ _ (or_introl eq_refl)) as U0. destruct (@splitService_uncached _ _ _ _ _ U0 E) as [A B].
    cbn [app] in X. destruct X as [X|X]; [injection X as _ <-; exact A|].
    apply in_app_or in X as [X|X]; [|apply in_app_or in X as [X|X]].
    + apply (IH _ _ (fun k c H => U k c (or_intror H)) eq_refl k c). apply in_or_app. left. exact X.
    + exact (B _ _ X).
    + apply (IH _ _ (fun k c H => U k c (or_intror H)) eq_refl k c). apply in_or_app. right. exact X.
Qed.
Lemma regSuffix_uncached s c : uncached c -> uncached (regSuffix s c).
Proof. intro U. unfold regSuffix. destruct (hasSuffix _ _); [exact U|apply setGroup_uncached; exact U]. Qed.
Lemma uncached_id c : uncached c -> idOf c = identity_of (cUrl c).
Proof. unfold uncached. intros ->. apply idOf_fresh. Qed.
Lemma in_setAll add : forall m k c, In (k, c) (setAll m add) -> In (k, c) (m ++ add).
Proof.
  unfold setAll. induction add as [|[k0 c0] add IH]; intros m k c H; [rewrite app_nil_r; exact H|].
  cbn [fold_left fst snd] in H. apply IH in H. apply in_app_or in H as [H|H].
  - assert (G : In (k, c) m \/ (k, c) = (k0, c0)).
    { clear -H. induction m as [|[k1 c1] m IH]; cbn [aset] in H; [destruct H as [H|[]]; right; symmetry; exact H|].
      destruct (bs_eqb k0 k1) eqn:E.
      - destruct H as [H|H]; [|left; right; exact H]. right. apply bs_eqb_spec in E. subst k1. symmetry. exact H.
      - destruct H as [H|H]; [left; left; exact H|]. destruct (IH H) as [X|X]; [left; right; exact X|right; exact X]. }
    apply in_or_app. destruct G as [G|G]; [left; exact G|right; left; symmetry; exact G].
  - apply in_or_app. right. right. exact H.
Qed.
Lemma services_id env suffix m r : (forall k c, In (k, c) m -> uncached c) -> parseServices env suffix m = Some r ->
  forall k c, In (k, c) r -> idOf c = identity_of (cUrl c).
Proof.
  intros U H k c X. unfold parseServices, parseMultipleServiceGroup in H.
  destruct (splitServices env m) as [[m1 add]|] eqn:E; [|discriminate H]. injection H as <-.
  apply uncached_id. unfold parseRegGroupSuffix in X.
  assert (G : forall k c, In (k, c) (setAll m1 add) -> uncached c).
  { intros k' c' Y. apply in_setAll in Y. exact (@splitServices_uncached _ _ _ _ U E _ _ Y). }
  destruct suffix as [|b s]; [exact (G _ _ X)|].
  apply in_map_iff in X as [[k' c'] [Y X]]. injection Y as <- <-. apply regSuffix_uncached. exact (G _ _ X).
Qed.
(* the services of a configuration, in full *)
Lemma services_all env suffix m r : NoDup (map fst m) -> no_numbered (map fst m) -> parseServices env suffix m = Some r ->
  NoDup (map fst r) /\
  (forall k, In k (map fst m) -> In k (map fst r)) /\
  (forall k c g, In (k, c) m -> in_group env (uGroup (cUrl c)) g -> exists k' c', In (k', c') r /\ in_other_group (cUrl c) (cUrl c') (with_suffix suffix g)) /\
  (forall k' c', In (k', c') r -> exists k c g, In (k, c) m /\ in_group env (uGroup (cUrl c)) g /\ in_other_group (cUrl c) (cUrl c') (with_suffix suffix g)).
Proof.
  intros N1 N2 H. unfold parseServices in H. destruct (parseMultipleServiceGroup env m) as [m'|] eqn:E; [|discriminate H].
  injection H as <-. destruct (@multi_split _ _ _ N1 N2 E) as [m1 [add [S1 [S2 [S3 S4]]]]].
  assert (W : forall c, in_other_group (cUrl c) (cUrl (regSuffix suffix c)) (with_suffix suffix (uGroup (cUrl c)))).
  { intro c. unfold with_suffix, regSuffix. destruct (hasSuffix (uGroup (cUrl c)) suffix); [apply in_other_self|apply cUrl_setGroup]. }
  assert (W0 : forall g, with_suffix [] g = g).
  { intro g. unfold with_suffix. destruct (hasSuffix g []); [reflexivity|apply app_nil_r]. }
  assert (FST : map fst (parseRegGroupSuffix suffix m') = map fst m').
  { unfold parseRegGroupSuffix. destruct suffix; [reflexivity|]. rewrite map_map. reflexivity. }
  split; [rewrite FST; exact S4|]. split; [|split].
  - intros k X. rewrite FST, S2, map_app, S3. apply in_or_app. left. exact X.
  - intros k c g X G. destruct (@split_forward _ _ _ _ _ _ _ S1 X G) as [k' [c' [Y1 [Y2 _]]]]. rewrite <- S2 in Y1.
    assert (GG : uGroup (cUrl c') = g) by apply Y2.
    unfold parseRegGroupSuffix. destruct suffix as [|b s].
    + exists k', c'. split; [exact Y1|]. rewrite W0. exact Y2.
    + exists k', (regSuffix (b :: s) c'). split; [apply in_map_iff; exists (k', c'); split; [reflexivity|exact Y1]|].
      eapply in_other_trans; [exact Y2|]. rewrite <- GG. apply W.
  - intros k' c' X. unfold parseRegGroupSuffix in X. destruct suffix as [|b s].
    + rewrite S2 in X. destruct (@split_back _ _ _ _ _ _ S1 X) as [k [c [g [Y1 [Y2 [Y3 _]]]]]].
      exists k, c, g. split; [exact Y1|]. split; [exact Y2|]. rewrite W0. exact Y3.
    + apply in_map_iff in X as [[k0 c0] [Z X]]. injection Z as <- <-.
      rewrite S2 in X. destruct (@split_back _ _ _ _ _ _ S1 X) as [k [c [g [Y1 [Y2 [Y3 _]]]]]].
      exists k, c, g. split; [exact Y1|]. split; [exact Y2|]. eapply in_other_trans; [exact Y3|].
      assert (GG : uGroup (cUrl c0) = g) by apply Y3. rewrite <- GG. apply W.
Qed.
Lemma services_panic env suffix m : parseServices env suffix m = None <->
  exists k c, In (k, c) m /\ contains (all_groups env (uGroup (cUrl c))) (s2b ",") = true /\ names (all_groups env (uGroup (cUrl c))) = [].
Proof.
  rewrite <- split_none. unfold parseServices, parseMultipleServiceGroup.
  destruct (splitServices env m) as [[m1 add]|]; split; intro H; try discriminate H; reflexivity.
Qed.

(* deciding that keys are different, for the examples *)
Fixpoint nodupb {A} (eqb : A -> A -> bool) (l : list A) : bool :=
  match l with [] => true | x :: r => negb (existsb (eqb x) r) && nodupb eqb r end.
Lemma nodupb_NoDup {A} (eqb : A -> A -> bool) (spec : forall a b, eqb a b = true <-> a = b) l : nodupb eqb l = true -> NoDup l.
Proof.
  induction l as [|x l IH]; intro H; [constructor|]. cbn [nodupb] in H. apply andb_true_iff in H as [H1 H2].
  constructor; [|exact (IH H2)]. intro X. apply negb_true_iff in H1.
  assert (Y : existsb (eqb x) l = true) by (apply existsb_exists; exists x; split; [exact X|apply spec; reflexivity]). congruence.
Qed.
