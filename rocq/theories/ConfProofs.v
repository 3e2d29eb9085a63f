(* ConfProofs.v: proofs about the configuration model. *)
From Verif Require Import Base Strconv GoStrings ConfModel ConfSpec.
Set Implicit Arguments.

Lemma ckey_eqb_spec a b : ckey_eqb a b = true <-> a = b.
Proof.
  destruct a as [s|n], b as [t|m]; cbn [ckey_eqb].
  - rewrite bs_eqb_spec. split; [intros ->; reflexivity|intro H; injection H as ->; reflexivity].
  - split; [discriminate|intro H; discriminate H].
  - split; [discriminate|intro H; discriminate H].
  - rewrite N.eqb_eq. split; [intros ->; reflexivity|intro H; injection H as ->; reflexivity].
Qed.
Lemma ckey_eqb_refl a : ckey_eqb a a = true.
Proof. apply ckey_eqb_spec. reflexivity. Qed.

Lemma mergeVal_map tm om : mergeVal (CMap tm) (CMap om) = CMap (mergeMap tm om).
Proof.
  cbn [mergeVal]. f_equal. revert tm. induction om as [|[k ov] r IH]; intro tm; [reflexivity|].
  cbn [mergeMap]. rewrite <- IH. unfold mergeEntry, cget, cset.
  destruct ov; reflexivity.
Qed.

(* what the merged map holds under one key *)
Definition bothVal (t o : option cval) : option cval :=
  match o with
  | None | Some CNil => t
  | Some ov => match t with None | Some CNil => o | Some tv => Some (mergeVal tv ov) end
  end.

Lemma get_mergeEntry tm k ov k' :
  aget ckey_eqb (mergeEntry tm k ov) k' =
  if ckey_eqb k' k then bothVal (aget ckey_eqb tm k) (Some ov) else aget ckey_eqb tm k'.
Proof.
  unfold mergeEntry, cget, cset, bothVal.
  destruct (ckey_eqb k' k) eqn:E.
  - apply ckey_eqb_spec in E. subst k'.
    destruct ov; try reflexivity;
      (destruct (aget ckey_eqb tm k) as [[]|] eqn:G; rewrite (aget_aset ckey_eqb ckey_eqb_spec), ckey_eqb_refl; reflexivity).
  - destruct ov; try reflexivity;
      (destruct (aget ckey_eqb tm k) as [[]|] eqn:G; rewrite (aget_aset ckey_eqb ckey_eqb_spec), E; reflexivity).
Qed.

Lemma get_mergeMap tm om k : NoDup (map fst om) ->
  aget ckey_eqb (mergeMap tm om) k = bothVal (aget ckey_eqb tm k) (aget ckey_eqb om k).
Proof.
  revert tm. induction om as [|[k0 ov] r IH]; intros tm Hn; [reflexivity|].
  cbn [map fst] in Hn. inversion Hn as [|? ? H1 H2]; subst. cbn [mergeMap aget]. rewrite (IH _ H2), get_mergeEntry.
  destruct (ckey_eqb k k0) eqn:E; [|reflexivity].
  apply ckey_eqb_spec in E. subst k0.
  apply (proj2 (aget_None ckey_eqb ckey_eqb_spec r k)) in H1. rewrite H1. reflexivity.
Qed.

Lemma nodup_mergeMap tm om : NoDup (map fst tm) -> NoDup (map fst (mergeMap tm om)).
Proof.
  revert tm. induction om as [|[k ov] r IH]; intros tm H; [exact H|].
  cbn [mergeMap]. apply IH. unfold mergeEntry, cget, cset.
  destruct ov; try exact H;
    (destruct (aget ckey_eqb tm k) as [[]|]; (apply (NoDup_aset ckey_eqb); [exact ckey_eqb_spec|exact H])).
Qed.

Lemma wf_child m k x : wf (CMap m) -> aget ckey_eqb m k = Some x -> wf x.
Proof. intros H E p mm G. apply (H (k :: p) mm). cbn [get]. rewrite E. exact G. Qed.
Lemma wf_nodup m : wf (CMap m) -> NoDup (map fst m).
Proof. intro H. exact (H [] m eq_refl). Qed.
Lemma yaml_child m k x : yaml (CMap m) -> aget ckey_eqb m k = Some x -> yaml x.
Proof. intros H E p kk n G. apply (H (k :: p) kk n). cbn [get]. rewrite E. exact G. Qed.

Lemma mergeVal_notmap t o : yaml t -> yaml o -> o <> CNil -> ~ (is_map t /\ is_map o) -> ~ (is_list t /\ is_list o) -> mergeVal t o = o.
Proof.
  intros Yt Yo Hn Hm Hl.
  destruct o; try reflexivity.
  - destruct t; try reflexivity; [exfalso; apply Hm; split; eexists; reflexivity|].
    exfalso. exact (Yt [] k n eq_refl).
  - destruct t; try reflexivity; [exfalso; apply Hl; split; eexists; reflexivity|].
    exfalso. exact (Yt [] k n eq_refl).
  - exfalso. exact (Yo [] k n eq_refl).
Qed.

Lemma bothVal_none_l o : o <> Some CNil -> bothVal None o = o.
Proof. destruct o as [[]|]; try reflexivity; intro H; contradiction. Qed.

(* the later value wins wherever it is no map under a map and no list under a list *)
Lemma merge_override p : forall t o v, yaml t -> yaml o -> wf o ->
  get p o = Some v -> v <> CNil ->
  ~ (is_map v /\ exists m, get p t = Some (CMap m)) ->
  ~ (is_list v /\ exists l, get p t = Some (CList l)) ->
  get p (mergeVal t o) = Some v.
Proof.
  induction p as [|k r IH]; intros t o v Yt Yo Wo Ho Hn Hm Hl.
  - cbn [get] in *. injection Ho as ->. f_equal. apply mergeVal_notmap; try assumption.
    + intros [[m ->] H2]. apply Hm. split; [exact H2|]. exists m. reflexivity.
    + intros [[l ->] H2]. apply Hl. split; [exact H2|]. exists l. reflexivity.
  - destruct o as [| | | | | | | |om| |]; cbn [get] in Ho; try discriminate Ho.
    destruct (aget ckey_eqb om k) as [ov|] eqn:Eo; [|discriminate Ho].
    assert (Hov : ov <> CNil).
    { intros ->. destruct r; cbn [get] in Ho; [injection Ho as <-; contradiction|discriminate Ho]. }
    destruct t as [| | | | | | | |tm| |];
      try (cbn [mergeVal get]; rewrite Eo; exact Ho); try (exfalso; exact (Yt [] k0 n eq_refl)).
    rewrite mergeVal_map. cbn [get]. rewrite (get_mergeMap _ _ _ (wf_nodup Wo)), Eo.
    destruct (aget ckey_eqb tm k) as [tv|] eqn:Et; [|rewrite bothVal_none_l; [exact Ho|congruence]].
    assert (R : get r (mergeVal tv ov) = Some v).
    { apply IH; try assumption; try exact (@yaml_child _ _ _ Yt Et); try exact (@yaml_child _ _ _ Yo Eo); try exact (@wf_child _ _ _ Wo Eo).
      - intros [H1 [m H2]]. apply Hm. split; [exact H1|]. exists m. cbn [get]. rewrite Et. exact H2.
      - intros [H1 [l H2]]. apply Hl. split; [exact H1|]. exists l. cbn [get]. rewrite Et. exact H2. }
    unfold bothVal. destruct ov; try contradiction; destruct tv; try exact R; exact Ho.
Qed.

Lemma initial_cons k q p : initial q p -> initial (k :: q) (k :: p).
Proof. intros [r ->]. exists r. reflexivity. Qed.
Lemma initial_nil p : initial [] p.
Proof. exists p. reflexivity. Qed.

Lemma silent_child k r om ov : silent (k :: r) (CMap om) -> aget ckey_eqb om k = Some ov -> silent r ov.
Proof.
  intros S E q v Hi G. destruct (S (k :: q) v (initial_cons _ Hi)) as [->|[H1 H2]].
  - cbn [get]. rewrite E. exact G.
  - left. reflexivity.
  - right. split; [congruence|exact H2].
Qed.

(* a value the later configuration says nothing about is kept *)
Lemma merge_keep p : forall t o, yaml t -> wf o -> silent p o -> o <> CNil ->
  get p t <> None -> get p (mergeVal t o) = get p t.
Proof.
  induction p as [|k r IH]; intros t o Yt Wo S Hn Ht.
  - destruct (S [] o (initial_nil _) eq_refl) as [->|[H1 _]]; contradiction.
  - destruct (S [] o (initial_nil _) eq_refl) as [->|[_ [om ->]]]; [contradiction|].
    destruct t as [| | | | | | | |tm| |]; cbn [get] in Ht; try contradiction.
    rewrite mergeVal_map. cbn [get]. rewrite (get_mergeMap _ _ _ (wf_nodup Wo)).
    destruct (aget ckey_eqb tm k) as [tv|] eqn:Et; [|contradiction].
    destruct (aget ckey_eqb om k) as [ov|] eqn:Eo; [|reflexivity].
    pose proof (silent_child S Eo) as S'.
    destruct (S' [] ov (initial_nil _) eq_refl) as [->|[H1 [m ->]]]; [reflexivity|].
    assert (R : get r (mergeVal tv (CMap m)) = get r tv).
    { apply IH; try assumption; try exact (@yaml_child _ _ _ Yt Et); try exact (@yaml_child _ _ _ Yo Eo); try exact (@wf_child _ _ _ Wo Eo). discriminate. }
    unfold bothVal. destruct tv; try exact R.
Qed.

(* maps meet maps and lists meet lists *)
Lemma merge_meet p : forall t o a b, wf o ->
  get p t = Some a -> get p o = Some b -> a <> CNil -> b <> CNil -> get p (mergeVal t o) = Some (mergeVal a b).
Proof.
  induction p as [|k r IH]; intros t o a b Wo Ht Ho Ha Hb.
  - cbn [get] in *. injection Ht as ->. injection Ho as ->. reflexivity.
  - destruct o as [| | | | | | | |om| |]; cbn [get] in Ho; try discriminate Ho.
    destruct t as [| | | | | | | |tm| |]; cbn [get] in Ht; try discriminate Ht.
    destruct (aget ckey_eqb om k) as [ov|] eqn:Eo; [|discriminate Ho].
    destruct (aget ckey_eqb tm k) as [tv|] eqn:Et; [|discriminate Ht].
    rewrite mergeVal_map. cbn [get]. rewrite (get_mergeMap _ _ _ (wf_nodup Wo)), Eo, Et.
    assert (Hov : ov <> CNil).
    { intros ->. destruct r; cbn [get] in Ho; [injection Ho as <-; contradiction|discriminate Ho]. }
    assert (Htv : tv <> CNil).
    { intros ->. destruct r; cbn [get] in Ht; [injection Ht as <-; contradiction|discriminate Ht]. }
    assert (R : get r (mergeVal tv ov) = Some (mergeVal a b)).
    { apply IH; try assumption. exact (@wf_child _ _ _ Wo Eo). }
    unfold bothVal. destruct ov; try contradiction; destruct tv; try contradiction; exact R.
Qed.

(* nothing is invented *)
Lemma merge_origin p : forall t o v, wf o -> get p (mergeVal t o) = Some v ->
  get p t = Some v \/ get p o = Some v \/
  (exists a b, get p t = Some (CMap a) /\ get p o = Some (CMap b) /\ v = CMap (mergeMap a b)) \/
  (exists a b, get p t = Some (CList a) /\ get p o = Some (CList b) /\ v = CList (a ++ b)).
Proof.
  induction p as [|k r IH]; intros t o v Wo H.
  - cbn [get] in *. injection H as <-.
    destruct o as [| | | | | | | |om|ol|[]]; try (right; left; reflexivity).
    + destruct t as [| | | | | | | |tm|tl|[]]; try (right; left; reflexivity); try (left; reflexivity).
      right. right. left. exists tm, om. rewrite mergeVal_map. repeat split.
    + destruct t as [| | | | | | | |tm|tl|[]]; try (right; left; reflexivity); try (left; reflexivity).
      right. right. right. exists tl, ol. repeat split.
    + destruct t as [| | | | | | | |tm|tl|[]]; try (right; left; reflexivity); left; reflexivity.
    + destruct t as [| | | | | | | |tm|tl|[]]; try (right; left; reflexivity); left; reflexivity.
  - assert (D : mergeVal t o = o \/ mergeVal t o = t \/ exists tm om, t = CMap tm /\ o = CMap om).
    { destruct o as [| | | | | | | |om|ol|[]]; try (left; reflexivity);
        (destruct t as [| | | | | | | |tm|tl|[]]; try (left; reflexivity); try (right; left; reflexivity)).
      - right. right. exists tm, om. split; reflexivity.
      - cbn [mergeVal get] in H. discriminate H. }
    destruct D as [D|[D|[tm [om [-> ->]]]]].
    + rewrite D in H. right. left. exact H.
    + rewrite D in H. left. exact H.
    + rewrite mergeVal_map in H. cbn [get] in H |- *. rewrite (get_mergeMap _ _ _ (wf_nodup Wo)) in H.
      destruct (aget ckey_eqb om k) as [ov|] eqn:Eo; [|left; exact H].
      destruct (aget ckey_eqb tm k) as [tv|] eqn:Et.
      * assert (W : wf ov) by (exact (@wf_child _ _ _ Wo Eo)).
        unfold bothVal in H. destruct ov; try (left; exact H);
          destruct tv; try (right; left; exact H); exact (IH _ _ _ W H).
      * unfold bothVal in H. destruct ov; try (right; left; exact H). discriminate H.
Qed.

Lemma merge_wf t o : wf t -> wf o -> wf (mergeVal t o).
Proof.
  intros Wt Wo p m G. destruct (merge_origin _ _ Wo G) as [H|[H|[[a [b [H1 [H2 H3]]]]|[a [b [_ [_ H3]]]]]]].
  - exact (Wt p m H).
  - exact (Wo p m H).
  - injection H3 as ->. apply nodup_mergeMap. exact (Wt p a H1).
  - discriminate H3.
Qed.
Lemma merge_yaml t o : wf o -> yaml t -> yaml o -> yaml (mergeVal t o).
Proof.
  intros Wo Yt Yo p k n G. destruct (merge_origin _ _ Wo G) as [H|[H|[[a [b [_ [_ H3]]]]|[a [b [_ [_ H3]]]]]]].
  - exact (Yt p k n H).
  - exact (Yo p k n H).
  - discriminate H3.
  - discriminate H3.
Qed.

(* ---- layers *)
Definition good (m : cmap) : Prop := wf (CMap m) /\ yaml (CMap m).
Lemma good_nil : good [].
Proof.
  split.
  - intros [|k p] m H; cbn in H; [injection H as <-; constructor|discriminate H].
  - intros [|k p] kk n H; cbn in H; discriminate H.
Qed.
Lemma good_merge a b : good a -> good b -> good (mergeMap a b).
Proof.
  intros [Wa Ya] [Wb Yb]. unfold good. rewrite <- mergeVal_map. split; [apply merge_wf|apply merge_yaml]; assumption.
Qed.
Lemma good_fold ls : forall a, good a -> (forall c, In c ls -> good c) -> good (fold_left mergeMap ls a).
Proof.
  induction ls as [|c ls IH]; intros a Ha Hl; [exact Ha|]. cbn [fold_left].
  apply IH; [apply good_merge; [exact Ha|apply Hl; left; reflexivity]|]. intros x Hx. apply Hl. right. exact Hx.
Qed.
Lemma keep_fold p after : forall a v, good a -> (forall c, In c after -> good c) ->
  (forall c, In c after -> silent p (CMap c)) -> get p (CMap a) = Some v ->
  get p (CMap (fold_left mergeMap after a)) = Some v.
Proof.
  induction after as [|c after IH]; intros a v Ha Hg Hs H; [exact H|]. cbn [fold_left].
  apply IH.
  - apply good_merge; [exact Ha|apply Hg; left; reflexivity].
  - intros x Hx. apply Hg. right. exact Hx.
  - intros x Hx. apply Hs. right. exact Hx.
  - rewrite <- mergeVal_map, merge_keep; [exact H| | | | |].
    + exact (proj2 Ha).
    + exact (proj1 (Hg c (or_introl eq_refl))).
    + apply Hs. left. reflexivity.
    + discriminate.
    + rewrite H. discriminate.
Qed.
Lemma layers_decide ls p c v : (forall x, In x ls -> wf (CMap x) /\ yaml (CMap x)) ->
  decided_by p ls c -> get p (CMap c) = Some v -> scalar v ->
  get p (CMap (fold_left mergeMap ls [])) = Some v.
Proof.
  intros Hg [before [after [-> Hs]]] G [Hn [Hm Hl]].
  rewrite fold_left_app. cbn [fold_left].
  assert (Gb : good (fold_left mergeMap before [])).
  { apply good_fold; [exact good_nil|]. intros x Hx. apply Hg. apply in_or_app. left. exact Hx. }
  assert (Gc : good c) by (apply Hg; apply in_or_app; right; left; reflexivity).
  apply keep_fold.
  - apply good_merge; assumption.
  - intros x Hx. apply Hg. apply in_or_app. right. right. exact Hx.
  - exact Hs.
  - rewrite <- mergeVal_map. apply merge_override; try assumption.
    + exact (proj2 Gb). + exact (proj2 Gc). + exact (proj1 Gc).
    + intros [H _]. contradiction.
    + intros [H _]. contradiction.
Qed.

(* ---- placeholders *)
Lemma replaceVal_map ph m : replaceVal ph (CMap m) =
  CMap (map (fun kx => (fst kx, match snd kx with
                                | CStr s => match placeholderValue ph s with Some nv => nv | None => snd kx end
                                | _ => replaceVal ph (snd kx)
                                end)) m).
Proof.
  cbn [replaceVal]. f_equal. induction m as [|[k x] r IH]; [reflexivity|]. cbn [map fst snd]. f_equal. exact IH.
Qed.
Lemma aget_map_snd {V W} (f : V -> W) (m : list (ckey * V)) k :
  aget ckey_eqb (map (fun kx => (fst kx, f (snd kx))) m) k = option_map f (aget ckey_eqb m k).
Proof.
  induction m as [|[k0 x] r IH]; [reflexivity|]. cbn [map aget fst snd]. destruct (ckey_eqb k k0); [reflexivity|exact IH].
Qed.
Definition repl1 (ph : list (bs * cval)) (x : cval) : cval :=
  match x with
  | CStr s => match placeholderValue ph s with Some nv => nv | None => x end
  | _ => replaceVal ph x
  end.
Lemma get_replace_step ph m k : aget ckey_eqb (match replaceVal ph (CMap m) with CMap m' => m' | _ => [] end) k
  = option_map (repl1 ph) (aget ckey_eqb m k).
Proof. rewrite replaceVal_map. apply (aget_map_snd (repl1 ph)). Qed.

Lemma get_replace ph p : forall v x, p <> [] -> get p v = Some x -> get p (replaceVal ph v) = Some (repl1 ph x).
Proof.
  induction p as [|k r IH]; intros v x Hp G; [contradiction|].
  destruct v as [| | | | | | | |m| |]; cbn [get] in G; try discriminate G.
  pose proof (get_replace_step ph m k) as S. rewrite replaceVal_map in *. cbn [get].
  destruct (aget ckey_eqb m k) as [y|] eqn:E; [|discriminate G]. rewrite S. cbn [option_map].
  destruct r as [|k' r'].
  - cbn [get] in *. injection G as ->. reflexivity.
  - assert (N : k' :: r' <> []) by discriminate. specialize (IH y x N G).
    destruct y as [| | | | | | | |m'| |]; cbn [get] in G; try discriminate G. exact IH.
Qed.

Lemma untilBrace_spec s k : untilBrace s = Some k <-> ~ In x7d k /\ s = k ++ [x7d].
Proof.
  revert k. induction s as [|b r IH]; intro k; cbn [untilBrace].
  - split; [discriminate|]. intros [_ H]. destruct k; discriminate H.
  - destruct (byte_eqb b x7d) eqn:E.
    + apply byte_eqb_spec in E. subst b. destruct r as [|b' r'].
      * split; [intro H; injection H as <-; split; [intros []|reflexivity]|].
        intros [H1 H2]. destruct k as [|c k]; [reflexivity|]. injection H2 as <- H2. exfalso. apply H1. left. reflexivity.
      * split; [discriminate|]. intros [H1 H2]. destruct k as [|c k]; [discriminate H2|].
        injection H2 as <- H2. exfalso. apply H1. left. reflexivity.
    + destruct (untilBrace r) as [k'|] eqn:U.
      * destruct (proj1 (IH k') eq_refl) as [U1 U2]. split.
        -- intro H. injection H as <-. split; [|subst r; reflexivity].
           intros [->|H]; [rewrite byte_eqb_refl in E; discriminate E|contradiction].
        -- intros [H1 H2]. destruct k as [|c k]; [injection H2 as -> _; rewrite byte_eqb_refl in E; discriminate E|].
           injection H2 as -> H2. f_equal. f_equal. subst r. apply app_inv_tail in H2. exact H2.
      * split; [discriminate|]. intros [H1 H2].
        destruct k as [|c k]; [injection H2 as -> _; rewrite byte_eqb_refl in E; discriminate E|].
        injection H2 as -> H2. assert (X : None = Some k) by (apply IH; split; [intro HH; apply H1; right; exact HH|exact H2]). discriminate X.
Qed.
Lemma placeholderName_spec s k : placeholderName s = Some k <-> placeholder_for s k.
Proof.
  unfold placeholderName, placeholder_for. split.
  - destruct s as [|b0 [|b1 r]]; try discriminate.
    destruct (byte_eqb b0 x24) eqn:E0; [|discriminate]. destruct (byte_eqb b1 x7b) eqn:E1; [|discriminate].
    apply byte_eqb_spec in E0, E1. subst. cbn [andb]. destruct (untilBrace r) as [[|c k']|] eqn:U; try discriminate.
    intro H. injection H as <-. apply untilBrace_spec in U as [U1 U2]. subst r. split; [discriminate|]. split; [exact U1|reflexivity].
  - intros [H1 [H2 ->]]. cbn [app s2b]. change (s2b "${") with [x24; x7b]. cbn [app].
    rewrite !byte_eqb_refl. cbn [andb].
    assert (U : untilBrace (k ++ s2b "}") = Some k) by (apply untilBrace_spec; split; [exact H2|reflexivity]).
    rewrite U. destruct k; [contradiction|reflexivity].
Qed.

Lemma replaced_value ph v p s k nv : p <> [] -> get p v = Some (CStr s) -> placeholder_for s k ->
  aget bs_eqb ph k = Some nv -> nv <> CNil -> get p (replaceVal ph v) = Some nv.
Proof.
  intros Hp G P A N. rewrite (get_replace ph _ Hp G). cbn [repl1]. unfold placeholderValue.
  rewrite (proj2 (placeholderName_spec s k) P), A. destruct nv; try reflexivity. contradiction.
Qed.
Lemma kept_value ph v p x : p <> [] -> get p v = Some x -> ~ is_map x ->
  (forall s k nv, x = CStr s -> placeholder_for s k -> aget bs_eqb ph k = Some nv -> nv = CNil) ->
  get p (replaceVal ph v) = Some x.
Proof.
  intros Hp G M K. rewrite (get_replace ph _ Hp G).
  destruct x; try reflexivity; [|exfalso; apply M; eexists; reflexivity].
  cbn [repl1]. unfold placeholderValue. destruct (placeholderName s) as [k|] eqn:E; [|reflexivity].
  apply placeholderName_spec in E. destruct (aget bs_eqb ph k) as [nv|] eqn:A; [|reflexivity].
  rewrite (K s k nv eq_refl E A). reflexivity.
Qed.
Lemma replace_top c ph : ph <> [] -> CMap (replacePlaceHolder c ph) = replaceVal ph (CMap c).
Proof. intro H. unfold replacePlaceHolder. destruct ph as [|x ph]; [contradiction|]. rewrite replaceVal_map. reflexivity. Qed.
Lemma placeholder_replaced c ph p s k nv : p <> [] -> get p (CMap c) = Some (CStr s) -> placeholder_for s k ->
  aget bs_eqb ph k = Some nv -> nv <> CNil -> get p (CMap (replacePlaceHolder c ph)) = Some nv.
Proof.
  intros Hp G P A N. rewrite replace_top; [|intros ->; discriminate A]. eapply replaced_value; eassumption.
Qed.
Lemma placeholder_kept c ph p x : p <> [] -> get p (CMap c) = Some x -> ~ is_map x ->
  (forall s k nv, x = CStr s -> placeholder_for s k -> aget bs_eqb ph k = Some nv -> nv = CNil) ->
  get p (CMap (replacePlaceHolder c ph)) = Some x.
Proof.
  intros Hp G M K. destruct ph as [|y ph]; [exact G|]. rewrite replace_top; [|discriminate]. apply kept_value; assumption.
Qed.

(* ---- dynamic parameters *)
Lemma cgetN_some m k v : aget ckey_eqb m k = Some v -> cgetN m k = v.
Proof. intro H. unfold cgetN, cget. rewrite H. reflexivity. Qed.
Lemma byRegexp_none rx m : (forall v, pattern_value rx m v -> v = CNil) -> byRegexp rx m = CNil.
Proof.
  induction m as [|[k v] r IH]; intro H; [reflexivity|]. cbn [byRegexp].
  assert (H' : forall w, pattern_value rx r w -> w = CNil).
  { intros w [q [H1 H2]]. apply H. exists q. split; [right; exact H1|exact H2]. }
  destruct k as [k|n]; [|apply IH; exact H'].
  destruct (bs_eqb (firstn 7 k) regexpPrefix && rx (skipn 7 k)) eqn:E; [|apply IH; exact H'].
  apply andb_true_iff in E as [E1 E2]. apply bs_eqb_spec in E1.
  apply H. exists (skipn 7 k). split; [|exact E2]. left. f_equal. f_equal.
  rewrite <- (firstn_skipn 7 k) at 1. rewrite E1. reflexivity.
Qed.
Lemma byRegexp_some rx m : byRegexp rx m = CNil \/ pattern_value rx m (byRegexp rx m).
Proof.
  induction m as [|[k v] r IH]; [left; reflexivity|]. cbn [byRegexp].
  assert (W : byRegexp rx r = CNil \/ pattern_value rx ((k, v) :: r) (byRegexp rx r)).
  { destruct IH as [IH|[q [H1 H2]]]; [left; exact IH|]. right. exists q. split; [right; exact H1|exact H2]. }
  destruct k as [k|n]; [|exact W].
  destruct (bs_eqb (firstn 7 k) regexpPrefix && rx (skipn 7 k)) eqn:E; [|exact W].
  apply andb_true_iff in E as [E1 E2]. apply bs_eqb_spec in E1.
  right. exists (skipn 7 k). split; [|exact E2]. left. f_equal. f_equal.
  rewrite <- (firstn_skipn 7 k) at 1. rewrite E1. reflexivity.
Qed.
Lemma byRegexp_unique rx m v : v <> CNil -> pattern_value rx m v -> (forall w, pattern_value rx m w -> w = v) -> byRegexp rx m = v.
Proof.
  intros N P U. destruct (byRegexp_some rx m) as [H|H]; [|apply U; exact H].
  exfalso. revert P U H. induction m as [|[k x] r IH]; intros [q [Hq Rq]] U H; [destruct Hq|].
  cbn [byRegexp] in H. destruct k as [k|n].
  - destruct (bs_eqb (firstn 7 k) regexpPrefix && rx (skipn 7 k)) eqn:E.
    + apply N. subst x. symmetry. apply U. apply andb_true_iff in E as [E1 E2]. apply bs_eqb_spec in E1.
      exists (skipn 7 k). split; [|exact E2]. left. f_equal. f_equal. rewrite <- (firstn_skipn 7 k) at 1. rewrite E1. reflexivity.
    + destruct Hq as [Hq|Hq].
      * injection Hq as -> ->. cbn in E. rewrite Rq in E. discriminate E.
      * apply IH; [exists q; split; assumption| |exact H]. intros w [q' [A B]]. apply U. exists q'. split; [right; exact A|exact B].
  - destruct Hq as [Hq|Hq]; [discriminate Hq|].
    apply IH; [exists q; split; assumption| |exact H]. intros w [q' [A B]]. apply U. exists q'. split; [right; exact A|exact B].
Qed.

Lemma dyn_exact pool rx mv v : exact_value mv pool v -> dynamicOf pool rx (CMap mv) = v.
Proof. intros [H N]. unfold dynamicOf. rewrite (cgetN_some _ _ H). destruct v; try reflexivity. contradiction. Qed.
Lemma no_exact_nil mv pool : no_exact mv pool -> cgetN mv (KStr pool) = CNil.
Proof. unfold cgetN, cget. intros [H|H]; rewrite H; reflexivity. Qed.
Lemma dyn_pattern pool rx mv v : no_exact mv pool -> pattern_value rx mv v -> v <> CNil ->
  (forall w, pattern_value rx mv w -> w = v) -> dynamicOf pool rx (CMap mv) = v.
Proof.
  intros H P N U. unfold dynamicOf. rewrite (no_exact_nil H), (byRegexp_unique N P U). destruct v; try reflexivity. contradiction.
Qed.
Lemma dyn_default pool rx mv v : no_exact mv pool -> (forall w, pattern_value rx mv w -> w = CNil) ->
  aget ckey_eqb mv (KStr (s2b "default")) = Some v -> dynamicOf pool rx (CMap mv) = v.
Proof.
  intros H P D. unfold dynamicOf. rewrite (no_exact_nil H), (byRegexp_none P). apply cgetN_some. exact D.
Qed.
Lemma dyn_plain pool rx v : ~ is_map v -> dynamicOf pool rx v = v.
Proof. intro H. destruct v; try reflexivity. exfalso. apply H. eexists. reflexivity. Qed.
Lemma dynamicParameters_get pool rx dp k :
  aget bs_eqb (dynamicParameters pool rx dp) k = option_map (dynamicOf pool rx) (aget ckey_eqb dp (KStr k)).
Proof.
  induction dp as [|[k0 v] r IH]; [reflexivity|]. cbn [dynamicParameters].
  destruct k0 as [k0|n]; cbn [aget ckey_eqb]; [|exact IH]. destruct (bs_eqb k k0); [reflexivity|exact IH].
Qed.

(* ---- getters *)
Lemma byText_sprintf ty z : byText (sprintfS ty z) = None.
Proof. reflexivity. Qed.
Lemma existsb_In s ws : existsb (bs_eqb s) ws = true <-> In s ws.
Proof. apply (existsb_eqb_In bs_eqb bs_eqb_spec). Qed.
Lemma words_disjoint s : In s documented_true -> In s documented_false -> False.
Proof.
  intros H1 H2. assert (E : forallb (fun t => negb (existsb (bs_eqb t) documented_false)) documented_true = true) by (vm_compute; reflexivity).
  rewrite forallb_forall in E. specialize (E s H1). apply negb_true_iff in E. apply existsb_In in H2. congruence.
Qed.
Lemma same_true s : In s trueWords <-> In s documented_true.
Proof.
  split; intro H; apply existsb_In.
  - assert (E : forallb (fun t => existsb (bs_eqb t) documented_true) trueWords = true) by (vm_compute; reflexivity).
    rewrite forallb_forall in E. exact (E s H).
  - assert (E : forallb (fun t => existsb (bs_eqb t) trueWords) documented_true = true) by (vm_compute; reflexivity).
    rewrite forallb_forall in E. exact (E s H).
Qed.
Lemma same_false s : In s falseWords <-> In s documented_false.
Proof.
  split; intro H; apply existsb_In.
  - assert (E : forallb (fun t => existsb (bs_eqb t) documented_false) falseWords = true) by (vm_compute; reflexivity).
    rewrite forallb_forall in E. exact (E s H).
  - assert (E : forallb (fun t => existsb (bs_eqb t) falseWords) documented_false = true) by (vm_compute; reflexivity).
    rewrite forallb_forall in E. exact (E s H).
Qed.
Lemma parseBool_words s : 
  (parseBoolV (CStr s) = Some true <-> In s documented_true) /\
  (parseBoolV (CStr s) = Some false <-> In s documented_false) /\
  (parseBoolV (CStr s) = None <-> ~ In s documented_true /\ ~ In s documented_false).
Proof.
  unfold parseBoolV.
  destruct (existsb (bs_eqb s) trueWords) eqn:T; [|destruct (existsb (bs_eqb s) falseWords) eqn:F].
  - apply existsb_In in T. apply same_true in T. split; [|split].
    + split; [intros _; exact T|reflexivity].
    + split; [discriminate|]. intro H. destruct (words_disjoint T H).
    + split; [discriminate|]. intros [H _]. contradiction.
  - assert (NT : ~ In s documented_true) by (intro H; apply same_true in H; apply existsb_In in H; congruence).
    apply existsb_In in F. apply same_false in F. split; [|split].
    + split; [discriminate|]. intro H. contradiction.
    + split; [intros _; exact F|reflexivity].
    + split; [discriminate|]. intros [_ H]. contradiction.
  - assert (NT : ~ In s documented_true) by (intro H; apply same_true in H; apply existsb_In in H; congruence).
    assert (NF : ~ In s documented_false) by (intro H; apply same_false in H; apply existsb_In in H; congruence).
    split; [|split].
    + split; [discriminate|]. intro H. contradiction.
    + split; [discriminate|]. intro H. contradiction.
    + split; [intros _; split; assumption|reflexivity].
Qed.

(* ---- pools and imports *)
Lemma splitOn_other x r : x <> x2d -> exists p t, splitOn x2d r = p :: t /\ splitOn x2d (x :: r) = (x :: p) :: t.
Proof.
  intro H. destruct (splitOn x2d r) as [|p t] eqn:E; [exfalso; exact (splitOn_ne _ _ E)|].
  exists p, t. split; [reflexivity|]. cbn [splitOn]. rewrite (proj2 (byte_eqb_neq _ _) H), E. reflexivity.
Qed.
Lemma poolBases_other base x r : x <> x2d -> poolBases base (splitOn x2d (x :: r)) = poolBases (base ++ [x]) (splitOn x2d r).
Proof.
  intro H. destruct (splitOn_other r H) as [p [t [E1 E2]]]. rewrite E1, E2. cbn [poolBases].
  rewrite <- !app_assoc. reflexivity.
Qed.
Lemma poolBases_dash base r : poolBases base (splitOn x2d (x2d :: r)) = base :: poolBases (base ++ [x2d]) (splitOn x2d r).
Proof. change (splitOn x2d (x2d :: r)) with ([] :: splitOn x2d r). cbn [poolBases app]. rewrite app_nil_r. reflexivity. Qed.
Lemma poolBases_in s : forall base b, In b (poolBases base (splitOn x2d s)) <-> exists q, b = base ++ q /\ dash_prefix q s.
Proof.
  induction s as [|x r IH]; intros base b.
  - cbn [splitOn poolBases]. rewrite app_nil_r. split.
    + intros [<-|[]]. exists []. split; [symmetry; apply app_nil_r|left; reflexivity].
    + intros [q [-> [->|[r H]]]]; [left; symmetry; apply app_nil_r|]. destruct q; discriminate H.
  - destruct (byte_eqb x x2d) eqn:E.
    + apply byte_eqb_spec in E. subst x. rewrite poolBases_dash. cbn [In]. rewrite IH. split.
      * intros [<-|[q [-> D]]].
        -- exists []. split; [symmetry; apply app_nil_r|]. right. exists r. reflexivity.
        -- exists (x2d :: q). split; [rewrite <- app_assoc; reflexivity|].
           destruct D as [->|[y ->]]; [left; reflexivity|right; exists y; reflexivity].
      * intros [q [-> D]]. destruct q as [|c q]; [left; symmetry; apply app_nil_r|]. right.
        exists q. assert (c = x2d /\ dash_prefix q r) as [-> D'].
        { destruct D as [D|[y D]]; injection D as D0 D; symmetry in D0; (split; [congruence|]); [left; first [exact D|symmetry; exact D]|right; exists y; exact D]. }
        split; [rewrite <- app_assoc; reflexivity|exact D'].
    + assert (X : x <> x2d) by (intros ->; rewrite byte_eqb_refl in E; discriminate E).
      rewrite (poolBases_other base r X), IH. split.
      * intros [q [-> D]]. exists (x :: q). split; [rewrite <- app_assoc; reflexivity|].
        destruct D as [->|[y ->]]; [left; reflexivity|right; exists y; reflexivity].
      * intros [q [-> D]]. destruct q as [|c q].
        -- destruct D as [D|[y D]]; [discriminate D|]. injection D as D _. contradiction.
        -- exists q. assert (c = x /\ dash_prefix q r) as [-> D'].
           { destruct D as [D|[y D]]; injection D as -> D; (split; [reflexivity|]); [left; exact D|right; exists y; exact D]. }
           split; [rewrite <- app_assoc; reflexivity|exact D'].
Qed.
Require Import Coq.Sorting.Sorted.
Lemma poolBases_sorted s : forall base,
  StronglySorted (fun a b => length a < length b) (poolBases base (splitOn x2d s)) /\
  Forall (fun b => length base <= length b) (poolBases base (splitOn x2d s)).
Proof.
  induction s as [|x r IH]; intro base.
  - cbn [splitOn poolBases]. rewrite app_nil_r. split; [repeat constructor|repeat constructor].
  - destruct (byte_eqb x x2d) eqn:E.
    + apply byte_eqb_spec in E. subst x. rewrite poolBases_dash. destruct (IH (base ++ [x2d])) as [S F].
      assert (F' : Forall (fun b => length base < length b) (poolBases (base ++ [x2d]) (splitOn x2d r))).
      { eapply Forall_impl; [|exact F]. intros b H. rewrite app_length in H. cbn [length] in H. lia. }
      split; [constructor; assumption|]. constructor; [lia|]. eapply Forall_impl; [|exact F']. intros b H. cbn in H. lia.
    + assert (X : x <> x2d) by (intros ->; rewrite byte_eqb_refl in E; discriminate E).
      rewrite (poolBases_other base r X). destruct (IH (base ++ [x])) as [S F]. split; [exact S|].
      eapply Forall_impl; [|exact F]. intros b H. rewrite app_length in H. cbn [length] in H. lia.
Qed.

Definition unseen (us seen : list bs) : nat := length (filter (fun r => negb (existsb (bs_eqb r) seen)) us).
Lemma unseen_mono us seen seen' : (forall x, In x seen -> In x seen') -> unseen us seen' <= unseen us seen.
Proof.
  intro H. unfold unseen. induction us as [|u us IH]; [apply le_n|]. cbn [filter].
  destruct (existsb (bs_eqb u) seen) eqn:E.
  - assert (E' : existsb (bs_eqb u) seen' = true) by (apply existsb_In; apply H; apply existsb_In; exact E).
    rewrite E'. exact IH.
  - cbn [negb]. destruct (existsb (bs_eqb u) seen'); cbn [negb length]; lia.
Qed.
Lemma unseen_le us seen : unseen us seen <= length us.
Proof.
  unfold unseen. induction us as [|u l IHl]; [apply le_n|]. cbn [filter length].
  destruct (negb (existsb (bs_eqb u) seen)); cbn [length]; lia.
Qed.
Lemma unseen_less us seen r : In r us -> ~ In r seen -> unseen us (r :: seen) < unseen us seen.
Proof.
  intros Hu Hs. unfold unseen. induction us as [|u us IH]; [destruct Hu|]. cbn [filter existsb].
  destruct Hu as [->|Hu].
  - rewrite bs_eqb_refl. cbn [orb negb]. assert (E : existsb (bs_eqb r) seen = false).
    { destruct (existsb (bs_eqb r) seen) eqn:E; [|reflexivity]. apply existsb_In in E. contradiction. }
    rewrite E. cbn [negb length].
    pose proof (@unseen_mono us seen (r :: seen) (fun x H => or_intror H)) as M. unfold unseen in M. cbn [existsb] in M. lia.
  - specialize (IH Hu). cbn [existsb] in IH. destruct (bs_eqb u r) eqn:E; cbn [orb negb].
    + destruct (existsb (bs_eqb u) seen); cbn [negb length]; lia.
    + destruct (existsb (bs_eqb u) seen); cbn [negb length]; lia.
Qed.

(* the loop over one list of imports, named *)
Fixpoint importEach (fuel' : nat) (fs : files) (root section dir : bs) (li : list cval) (seen : list bs) {struct li} : imp :=
  match li with
  | [] => IOk [] seen
  | CStr r :: rest =>
      let loc := bs_eqb section importHTTPLocationSection in
      if loc && existsb (bs_eqb r) seen then importEach fuel' fs root section dir rest seen
      else
        let seen1 := if loc then r :: seen else seen in
        let file := root ++ dir ++ r ++ suffixYaml in
        match fs file with
        | None => importEach fuel' fs root section dir rest seen1
        | Some c =>
            match importCfg fuel' fs root c importHTTPLocationSection httpLocationPath seen1 with
            | IOk ms seen2 =>
                match importEach fuel' fs root section dir rest seen2 with
                | IOk ms2 seen3 => IOk (ms ++ file :: ms2) seen3
                | e => e
                end
            | e => e
            end
        end
  | _ :: _ => IPanic
  end.
Lemma importCfg_eq fuel' fs root parsing section dir seen :
  importCfg (S fuel') fs root parsing section dir seen =
  match getData parsing section with Some (CList li) => importEach fuel' fs root section dir li seen | _ => IOk [] seen end.
Proof.
  cbn [importCfg]. destruct (getData parsing section) as [[]|]; try reflexivity.
  revert seen. induction l as [|x rest IH]; intro seen; [reflexivity|]. cbn [importEach].
  destruct x; try reflexivity. destruct (bs_eqb section importHTTPLocationSection && existsb (bs_eqb s) seen); [apply IH|].
  destruct (fs (root ++ dir ++ s ++ suffixYaml)); [|apply IH].
  destruct (importCfg fuel' fs root c importHTTPLocationSection httpLocationPath
              (if bs_eqb section importHTTPLocationSection then s :: seen else seen)); try reflexivity.
  rewrite IH. reflexivity.
Qed.

Definition occ (root r : bs) (ms : list bs) : nat := countb (bs_eqb (location_file root r)) ms.
Record locs (root : bs) (ms : list bs) (seen seen' : list bs) : Prop := {
  l_incl : incl seen seen';
  l_new : forall r, In (location_file root r) ms -> In r seen' /\ ~ In r seen;
  l_once : forall r, occ root r ms <= 1 }.
Lemma location_inj root r r' : location_file root r = location_file root r' -> r = r'.
Proof. unfold location_file. intro H. apply app_inv_head in H. apply app_inv_head in H. apply app_inv_tail in H. exact H. Qed.

Lemma occ_in root r ms : 0 < occ root r ms -> In (location_file root r) ms.
Proof.
  unfold occ. induction ms as [|f ms IH]; [cbn; lia|]. rewrite countb_cons.
  destruct (bs_eqb (location_file root r) f) eqn:E; [intros _; apply bs_eqb_spec in E; left; symmetry; exact E|].
  intro H. right. apply IH. cbn in H. exact H.
Qed.
Lemma occ_notin root r ms : ~ In (location_file root r) ms -> occ root r ms = 0.
Proof. intro H. destruct (occ root r ms) eqn:E; [reflexivity|]. exfalso. apply H, occ_in. lia. Qed.

Lemma locs_nil root seen : locs root [] seen seen.
Proof. split; [apply incl_refl|intros r []|intros r; cbn; lia]. Qed.
Lemma locs_weaken root ms seen0 seen seen' : incl seen0 seen -> locs root ms seen seen' -> locs root ms seen0 seen'.
Proof.
  intros I [A B C]. split; [eapply incl_tran; eassumption| |exact C].
  intros r H. destruct (B r H) as [H1 H2]. split; [exact H1|]. intro X. apply H2, I, X.
Qed.
Lemma locs_app root ms1 ms2 s0 s1 s2 : locs root ms1 s0 s1 -> locs root ms2 s1 s2 -> locs root (ms1 ++ ms2) s0 s2.
Proof.
  intros [A1 B1 C1] [A2 B2 C2]. split.
  - eapply incl_tran; eassumption.
  - intros r H. apply in_app_or in H as [H|H].
    + destruct (B1 r H) as [X Y]. split; [apply A2, X|exact Y].
    + destruct (B2 r H) as [X Y]. split; [exact X|]. intro Z. apply Y, A1, Z.
  - intro r. unfold occ. rewrite countb_app. fold (occ root r ms1) (occ root r ms2).
    specialize (C1 r). specialize (C2 r).
    destruct (occ root r ms1) eqn:E1; [lia|]. destruct (occ root r ms2) eqn:E2; [lia|]. exfalso.
    assert (I1 : In (location_file root r) ms1) by (apply occ_in; lia).
    assert (I2 : In (location_file root r) ms2) by (apply occ_in; lia).
    apply (proj2 (B2 r I2)). exact (proj1 (B1 r I1)).
Qed.
Lemma locs_mid root ms1 f ms2 s0 s1 s2 : locs root (ms1 ++ [f]) s0 s1 -> locs root ms2 s1 s2 -> locs root (ms1 ++ f :: ms2) s0 s2.
Proof. intros H1 H2. pose proof (locs_app H1 H2) as H. rewrite <- app_assoc in H. exact H. Qed.
Lemma locs_one_loc root r seen : ~ In r seen -> locs root [location_file root r] seen (r :: seen).
Proof.
  intro H. split.
  - intros x Hx. right. exact Hx.
  - intros r' [E|[]]. apply location_inj in E. subst r'. split; [left; reflexivity|exact H].
  - intro r'. unfold occ. rewrite countb_cons. cbn. destruct (bs_eqb (location_file root r') (location_file root r)); lia.
Qed.
Lemma locs_one_other root f seen : (forall r, f <> location_file root r) -> locs root [f] seen seen.
Proof.
  intro H. split; [apply incl_refl| |].
  - intros r [E|[]]. exfalso. exact (H r E).
  - intro r. rewrite occ_notin; [lia|]. intros [E|[]]. exact (H r E).
Qed.

Lemma loc_section_eqb : bs_eqb importHTTPLocationSection importHTTPLocationSection = true.
Proof. apply bs_eqb_refl. Qed.

Lemma locs_file_late root r ms seen seen' : ~ In r seen -> locs root ms (r :: seen) seen' -> locs root (ms ++ [location_file root r]) seen seen'.
Proof.
  intros H [A B C]. split.
  - intros x Hx. apply A. right. exact Hx.
  - intros r' Hr. apply in_app_or in Hr as [Hr|[Hr|[]]].
    + destruct (B r' Hr) as [X Y]. split; [exact X|]. intro Z. apply Y. right. exact Z.
    + apply location_inj in Hr. subst r'. split; [apply A; left; reflexivity|exact H].
  - intro r'. unfold occ. rewrite countb_app. fold (occ root r' ms). rewrite countb_cons. cbn [countb filter length].
    destruct (bs_eqb (location_file root r') (location_file root r)) eqn:E.
    + apply bs_eqb_spec, location_inj in E. subst r'.
      rewrite occ_notin; [cbn; lia|]. intro X. apply (proj2 (B r X)). left. reflexivity.
    + specialize (C r'). cbn. lia.
Qed.

Section Imports.
  Variables (fs : files) (root : bs) (us : list bs).
  Hypothesis Hus : locations_are fs root us.
  Local Notation locsec := importHTTPLocationSection.

  Lemma import_loc fuel : forall parsing seen, unseen us seen < fuel ->
    importCfg fuel fs root parsing locsec httpLocationPath seen <> IFuel /\
    (forall ms seen', importCfg fuel fs root parsing locsec httpLocationPath seen = IOk ms seen' -> locs root ms seen seen').
  Proof.
    induction fuel as [|fuel IH]; intros parsing seen Hf; [lia|].
    rewrite importCfg_eq. destruct (getData parsing locsec) as [[]|];
      try (split; [discriminate|]; intros ms seen' H; injection H as <- <-; apply locs_nil).
    revert seen Hf. induction l as [|x rest IHl]; intros seen Hf.
    - cbn [importEach]. split; [discriminate|]. intros ms seen' H. injection H as <- <-. apply locs_nil.
    - cbn [importEach]. destruct x as [| |r| | | | | | | |]; try (split; [discriminate|]; intros ms seen' H; discriminate H).
      rewrite loc_section_eqb. cbn [andb]. destruct (existsb (bs_eqb r) seen) eqn:E; [apply IHl; exact Hf|].
      assert (Hr : ~ In r seen) by (intro X; apply existsb_In in X; congruence).
      assert (I1 : incl seen (r :: seen)) by (intros x Hx; right; exact Hx).
      destruct (fs (root ++ httpLocationPath ++ r ++ suffixYaml)) as [c|] eqn:Ef.
      + assert (Hin : In r us).
        { apply Hus. unfold location_file. change (s2b "http/location/") with httpLocationPath.
          change (s2b ".yaml") with suffixYaml. rewrite Ef. discriminate. }
        pose proof (@unseen_less us seen r Hin Hr) as Hl.
        assert (Hf1 : unseen us (r :: seen) < fuel) by lia.
        destruct (IH c (r :: seen) Hf1) as [N L].
        destruct (importCfg fuel fs root c locsec httpLocationPath (r :: seen)) as [| |ms seen2] eqn:Ei.
        * split; [discriminate|]. intros ms seen' H. discriminate H.
        * contradiction.
        * specialize (L ms seen2 eq_refl).
          assert (Hf2 : unseen us seen2 < S fuel).
          { pose proof (@unseen_mono us seen seen2 (fun x Hx => l_incl L x (I1 x Hx))). lia. }
          destruct (IHl seen2 Hf2) as [N2 L2].
          destruct (importEach fuel fs root locsec httpLocationPath rest seen2) as [| |ms2 seen3] eqn:E2.
          -- split; [discriminate|]. intros ? ? H. discriminate H.
          -- contradiction.
          -- split; [discriminate|]. intros msx seenx H. injection H as <- <-.
             eapply locs_mid; [eapply locs_file_late; [exact Hr|exact L]|]. exact (L2 ms2 seen3 eq_refl).
      + assert (Hf2 : unseen us (r :: seen) < S fuel) by (pose proof (@unseen_mono us seen (r :: seen) I1); lia).
        destruct (IHl (r :: seen) Hf2) as [N L]. split; [exact N|]. intros ms seen' H.
        eapply locs_weaken; [exact I1|]. exact (L ms seen' H).
  Qed.

  Lemma import_any fuel section dir : (forall r r', root ++ dir ++ r' ++ suffixYaml <> location_file root r) ->
    bs_eqb section locsec = false -> forall parsing seen, S (unseen us seen) < fuel ->
    importCfg fuel fs root parsing section dir seen <> IFuel /\
    (forall ms seen', importCfg fuel fs root parsing section dir seen = IOk ms seen' -> locs root ms seen seen').
  Proof.
    intros Hd Hs parsing seen Hf. destruct fuel as [|fuel]; [lia|].
    rewrite importCfg_eq. destruct (getData parsing section) as [[]|];
      try (split; [discriminate|]; intros ms seen' H; injection H as <- <-; apply locs_nil).
    revert seen Hf. induction l as [|x rest IHl]; intros seen Hf.
    - cbn [importEach]. split; [discriminate|]. intros ms seen' H. injection H as <- <-. apply locs_nil.
    - cbn [importEach]. destruct x as [| |r| | | | | | | |]; try (split; [discriminate|]; intros ms seen' H; discriminate H).
      rewrite Hs. cbn [andb].
      destruct (fs (root ++ dir ++ r ++ suffixYaml)) as [c|] eqn:Ef; [|apply IHl; exact Hf].
      assert (Hf1 : unseen us seen < fuel) by lia.
      destruct (@import_loc fuel c seen Hf1) as [N L].
      destruct (importCfg fuel fs root c locsec httpLocationPath seen) as [| |ms seen2] eqn:Ei.
      + split; [discriminate|]. intros ms seen' H. discriminate H.
      + contradiction.
      + specialize (L ms seen2 eq_refl).
        assert (Hf2 : S (unseen us seen2) < S fuel).
        { pose proof (@unseen_mono us seen seen2 (l_incl L)). lia. }
        destruct (IHl seen2 Hf2) as [N2 L2].
        destruct (importEach fuel fs root section dir rest seen2) as [| |ms2 seen3] eqn:E2.
        * split; [discriminate|]. intros ? ? H. discriminate H.
        * contradiction.
        * split; [discriminate|]. intros msx seenx H. injection H as <- <-.
          eapply locs_mid; [eapply locs_app; [exact L|apply locs_one_other; intro r'; apply Hd]|]. exact (L2 ms2 seen3 eq_refl).
  Qed.
End Imports.

Lemma import_members fs root fuel : forall parsing section dir seen ms seen',
  importCfg fuel fs root parsing section dir seen = IOk ms seen' ->
  forall f, In f ms -> fs f <> None /\ (under root dir f \/ under root (s2b "http/location/") f).
Proof.
  induction fuel as [|fuel IH]; intros parsing section dir seen ms seen' H; [discriminate H|].
  rewrite importCfg_eq in H. destruct (getData parsing section) as [[]|];
    try (injection H as <- <-; intros f []).
  revert seen ms seen' H. induction l as [|x rest IHl]; intros seen ms seen' H.
  - cbn [importEach] in H. injection H as <- <-. intros f [].
  - cbn [importEach] in H. destruct x as [| |r| | | | | | | |]; try discriminate H.
    destruct (bs_eqb section importHTTPLocationSection && existsb (bs_eqb r) seen); [exact (IHl _ _ _ H)|].
    destruct (fs (root ++ dir ++ r ++ suffixYaml)) as [c|] eqn:Ef; [|exact (IHl _ _ _ H)].
    destruct (importCfg fuel fs root c importHTTPLocationSection httpLocationPath
               (if bs_eqb section importHTTPLocationSection then r :: seen else seen)) as [| |m1 s1] eqn:E1; try discriminate H.
    destruct (importEach fuel fs root section dir rest s1) as [| |m2 s2] eqn:E2; try discriminate H.
    injection H as <- <-. intros f Hf. apply in_app_or in Hf as [Hf|[Hf|Hf]].
    + destruct (IH _ _ _ _ _ _ E1 f Hf) as [A [B|B]]; (split; [exact A|right; exact B]).
    + subst f. split; [rewrite Ef; discriminate|]. left. exists (r ++ suffixYaml). reflexivity.
    + exact (IHl _ _ _ E2 f Hf).
Qed.

Lemma withImports_split fs root fuel file section dir seen ms seen' :
  withImports fuel fs root file section dir seen = IOk ms seen' ->
  exists im, ms = im ++ readable fs file /\
    forall f, In f im -> fs f <> None /\ (under root dir f \/ under root (s2b "http/location/") f).
Proof.
  unfold withImports, readable. destruct (fs file) as [c|] eqn:E.
  - destruct (importCfg fuel fs root c section dir seen) as [| |m1 s1] eqn:E1; try discriminate.
    intro H. injection H as <- <-. exists m1. split; [reflexivity|]. exact (import_members _ _ _ _ _ _ _ E1).
  - intro H. injection H as <- <-. exists []. split; [reflexivity|intros f []].
Qed.
Lemma withImports_locs fs root us : locations_are fs root us -> forall fuel file section dir seen,
  S (unseen us seen) < fuel ->
  (forall r, file <> location_file root r) ->
  (bs_eqb section importHTTPLocationSection = true /\ dir = httpLocationPath \/
   bs_eqb section importHTTPLocationSection = false /\ (forall r r', root ++ dir ++ r' ++ suffixYaml <> location_file root r)) ->
  withImports fuel fs root file section dir seen <> IFuel /\
  forall ms seen', withImports fuel fs root file section dir seen = IOk ms seen' -> locs root ms seen seen'.
Proof.
  intros Hus fuel file section dir seen Hf Hfile Hsec. unfold withImports.
  destruct (fs file) as [c|]; [|split; [discriminate|]; intros ms seen' H; injection H as <- <-; apply locs_nil].
  assert (X : importCfg fuel fs root c section dir seen <> IFuel /\
    (forall ms seen', importCfg fuel fs root c section dir seen = IOk ms seen' -> locs root ms seen seen')).
  { destruct Hsec as [[Hs ->]|[Hs Hd]].
    - apply bs_eqb_spec in Hs. subst section. apply (@import_loc fs root us Hus). lia.
    - apply (@import_any fs root us Hus); assumption. }
  destruct X as [N L]. destruct (importCfg fuel fs root c section dir seen) as [| |m1 s1]; [| contradiction |].
  - split; [discriminate|]. intros ? ? H. discriminate H.
  - split; [discriminate|]. intros ms seen' H. injection H as <- <-.
    eapply locs_app; [exact (L m1 s1 eq_refl)|]. apply locs_one_other. exact Hfile.
Qed.

Lemma readable_in fs f x : In x (readable fs f) -> x = f /\ fs f <> None.
Proof. unfold readable. destruct (fs f) eqn:E; [intros [<-|[]]; split; [reflexivity|discriminate]|intros []]. Qed.
Lemma not_location root f a x : a <> s2b "" -> f = root ++ a ++ x ->
  (forall y z, a ++ y <> s2b "http/location/" ++ z) -> forall r, f <> location_file root r.
Proof. intros _ -> H r E. unfold location_file in E. apply app_inv_head in E. exact (H _ _ E). Qed.

Lemma locs_readable root fs f seen : (forall r, f <> location_file root r) -> locs root (readable fs f) seen seen.
Proof. intro H. unfold readable. destruct (fs f); [apply locs_one_other; exact H|apply locs_nil]. Qed.

Lemma pools_not_location path b r : path ++ s2b "pools/" ++ b ++ suffixYaml <> location_file path r.
Proof. intro E. apply app_inv_head in E. discriminate E. Qed.

Lemma pool_layers_ok fs path us : locations_are fs path us -> forall fuel app pool, S (length us) < fuel ->
  poolLayers fuel fs path app pool <> IFuel /\
  forall ls seen, poolLayers fuel fs path app pool = IOk ls seen -> forall r, occ path r ls <= 1.
Proof.
  intros Hus fuel app pool Hf. unfold poolLayers.
  assert (U : forall seen, unseen us seen <= length us).
  { intro seen. apply unseen_le. }
  set (name := match app with [] => _ | _ => _ end).
  destruct (@withImports_locs fs path us Hus fuel (path ++ s2b "http/service/" ++ name ++ suffixYaml) importHTTPLocationSection
              httpLocationPath []) as [N1 L1].
  { pose proof (U []). lia. } { intros r E. apply app_inv_head in E. discriminate E. } { left. split; [apply bs_eqb_refl|reflexivity]. }
  destruct (withImports fuel fs path (path ++ s2b "http/service/" ++ name ++ suffixYaml) importHTTPLocationSection httpLocationPath [])
    as [| |ms1 seen1]; [split; [discriminate|intros ? ? H; discriminate H]|contradiction|].
  specialize (L1 ms1 seen1 eq_refl).
  destruct (@withImports_locs fs path us Hus fuel (path ++ s2b "http/pools/" ++ pool ++ suffixYaml) importHTTPLocationSection
              httpLocationPath seen1) as [N2 L2].
  { pose proof (U seen1). lia. } { intros r E. apply app_inv_head in E. discriminate E. } { left. split; [apply bs_eqb_refl|reflexivity]. }
  destruct (withImports fuel fs path (path ++ s2b "http/pools/" ++ pool ++ suffixYaml) importHTTPLocationSection httpLocationPath seen1)
    as [| |ms2 seen2]; [split; [discriminate|intros ? ? H; discriminate H]|contradiction|].
  specialize (L2 ms2 seen2 eq_refl).
  destruct (@withImports_locs fs path us Hus fuel (path ++ s2b "applications/" ++ name ++ suffixYaml) importSection
              (s2b "services/") seen2) as [N3 L3].
  { pose proof (U seen2). lia. } { intros r E. apply app_inv_head in E. discriminate E. }
  { right. split; [vm_compute; reflexivity|]. intros r r' E. apply app_inv_head in E. discriminate E. }
  destruct (withImports fuel fs path (path ++ s2b "applications/" ++ name ++ suffixYaml) importSection (s2b "services/") seen2)
    as [| |ms3 seen3]; [split; [discriminate|intros ? ? H; discriminate H]|contradiction|].
  specialize (L3 ms3 seen3 eq_refl).
  split; [discriminate|]. intros ls seen H. injection H as <- <-.
  apply (@l_once path _ [] seen3).
  eapply locs_app; [apply locs_readable; intros r E; apply app_inv_head in E; discriminate E|].
  eapply locs_app; [exact L1|]. eapply locs_app; [exact L2|]. eapply locs_app; [exact L3|].
  induction (poolBases [] (poolParts pool)) as [|b bs' IH]; [apply locs_nil|]. cbn [flat_map].
  eapply locs_app; [apply locs_readable; intro r; apply pools_not_location|exact IH].
Qed.

Lemma under_http path a x : under path (s2b "http/" ++ a) x -> under path (s2b "http/") x.
Proof. intros [r ->]. exists (a ++ r). rewrite <- !app_assoc. reflexivity. Qed.

Lemma pool_layers_order fs path fuel app pool ls seen : poolLayers fuel fs path app pool = IOk ls seen ->
  exists http services,
    ls = readable fs (path ++ s2b "basic.yaml") ++ http ++ services ++
         readable fs (path ++ s2b "applications/" ++ application_name app pool ++ s2b ".yaml") ++
         flat_map (fun b => readable fs (path ++ s2b "pools/" ++ b ++ s2b ".yaml")) (poolBases [] (splitOn x2d pool)) /\
    (forall f, In f http -> under path (s2b "http/") f) /\
    (forall f, In f services -> under path (s2b "services/") f \/ under path (s2b "http/location/") f) /\
    (forall f, In f ls -> fs f <> None).
Proof.
  unfold poolLayers. fold (application_name app pool).
  change (match app with [] => match poolParts pool with [] => [] | p :: _ => p end | _ => app end) with (application_name app pool).
  set (name := application_name app pool).
  destruct (withImports fuel fs path (path ++ s2b "http/service/" ++ name ++ suffixYaml) importHTTPLocationSection httpLocationPath [])
    as [| |ms1 seen1] eqn:E1; try discriminate.
  destruct (withImports fuel fs path (path ++ s2b "http/pools/" ++ pool ++ suffixYaml) importHTTPLocationSection httpLocationPath seen1)
    as [| |ms2 seen2] eqn:E2; try discriminate.
  destruct (withImports fuel fs path (path ++ s2b "applications/" ++ name ++ suffixYaml) importSection (s2b "services/") seen2)
    as [| |ms3 seen3] eqn:E3; try discriminate.
  intro H. injection H as <- <-.
  apply withImports_split in E1 as [im1 [-> F1]]. apply withImports_split in E2 as [im2 [-> F2]].
  apply withImports_split in E3 as [im3 [-> F3]].
  exists ((im1 ++ readable fs (path ++ s2b "http/service/" ++ name ++ suffixYaml)) ++
          (im2 ++ readable fs (path ++ s2b "http/pools/" ++ pool ++ suffixYaml))), im3.
  split; [rewrite <- !app_assoc; reflexivity|]. split; [|split].
  - intros f Hf. apply in_app_or in Hf as [Hf|Hf]; apply in_app_or in Hf as [Hf|Hf].
    + destruct (F1 f Hf) as [_ [H|H]]; exact (@under_http path (s2b "location/") f H).
    + apply readable_in in Hf as [-> _]. exists (s2b "service/" ++ name ++ suffixYaml). reflexivity.
    + destruct (F2 f Hf) as [_ [H|H]]; exact (@under_http path (s2b "location/") f H).
    + apply readable_in in Hf as [-> _]. exists (s2b "pools/" ++ pool ++ suffixYaml). reflexivity.
  - intros f Hf. exact (proj2 (F3 f Hf)).
  - assert (R : forall f x, In f (readable fs x) -> fs f <> None).
    { intros f x Hx. apply readable_in in Hx as [-> Hx]. exact Hx. }
    intros f Hf. repeat match goal with H : In f (_ ++ _) |- _ => apply in_app_or in H as [H|H] end;
      first [exact (R _ _ Hf)|exact (proj1 (F1 f Hf))|exact (proj1 (F2 f Hf))|exact (proj1 (F3 f Hf))
            |apply in_flat_map in Hf as [b [_ Hf]]; exact (R _ _ Hf)].
Qed.

Lemma flat_contents_split fs ls1 f ls2 c : fs f = Some c ->
  flat_map (contents fs) (ls1 ++ f :: ls2) = flat_map (contents fs) ls1 ++ c :: flat_map (contents fs) ls2.
Proof. intro H. rewrite flat_map_app. cbn [flat_map]. unfold contents at 2. rewrite H. reflexivity. Qed.
Lemma pool_result fs rx path fuel app pool ls seen c p f v r before after :
  (forall g m, fs g = Some m -> wf (CMap m) /\ yaml (CMap m)) ->
  poolLayers fuel fs path app pool = IOk ls seen -> parsePool fuel fs rx path app pool = Some r ->
  ls = before ++ f :: after -> fs f = Some c -> get p (CMap c) = Some v -> scalar v -> p <> [] ->
  (forall g m, In g after -> fs g = Some m -> silent p (CMap m)) ->
  (forall s k, v = CStr s -> ~ placeholder_for s k) ->
  get p (CMap r) = Some v.
Proof.
  intros Hg Hl Hp -> Hf G S Np Hs Hk. unfold parsePool in Hp. rewrite Hl in Hp.
  assert (M : get p (CMap (fold_left mergeMap (flat_map (contents fs) (before ++ f :: after)) [])) = Some v).
  { apply layers_decide with c.
    - intros x Hx. apply in_flat_map in Hx as [g [_ Hx]]. unfold contents in Hx.
      destruct (fs g) as [m|] eqn:E; [|destruct Hx]. destruct Hx as [<-|[]]. exact (Hg g m E).
    - exists (flat_map (contents fs) before), (flat_map (contents fs) after). split; [apply flat_contents_split; exact Hf|].
      intros a Ha. apply in_flat_map in Ha as [g [Hin Ha]]. unfold contents in Ha.
      destruct (fs g) as [m|] eqn:E; [|destruct Ha]. destruct Ha as [<-|[]]. exact (Hs g m Hin E).
    - exact G.
    - exact S. }
  set (m := fold_left mergeMap (flat_map (contents fs) (before ++ f :: after)) []) in *.
  assert (W : get p (CMap (withDynamic pool rx m)) = Some v).
  { unfold withDynamic. destruct (getSection m dynamicSection) as [[|x dp]|]; try exact M.
    apply placeholder_kept; [exact Np|exact M|exact (proj1 (proj2 S))|].
    intros s k nv E P _. exfalso. exact (Hk s k E P). }
  destruct (withDynamic pool rx m) as [|e m']; [discriminate Hp|]. injection Hp as <-. exact W.
Qed.

(* a checker for wf and yaml *)
Fixpoint goodb (v : cval) : bool :=
  match v with
  | CMap m => (fix go (m : list (ckey * cval)) : bool :=
                 match m with
                 | [] => true
                 | (k, x) :: r => negb (existsb (ckey_eqb k) (map fst r)) && goodb x && go r
                 end) m
  | COther _ _ => false
  | _ => true
  end.
Lemma goodb_cons k x r : goodb (CMap ((k, x) :: r)) = true -> ~ In k (map fst r) /\ goodb x = true /\ goodb (CMap r) = true.
Proof.
  intro H. change (negb (existsb (ckey_eqb k) (map fst r)) && goodb x && goodb (CMap r) = true) in H.
  apply andb_true_iff in H as [H H3]. apply andb_true_iff in H as [H1 H2]. split; [|split; assumption].
  intro X. apply negb_true_iff in H1. apply (existsb_eqb_In ckey_eqb ckey_eqb_spec) in X. congruence.
Qed.
Lemma goodb_nodup m : goodb (CMap m) = true -> NoDup (map fst m).
Proof.
  induction m as [|[k x] r IH]; intro H; [constructor|]. apply goodb_cons in H as [H1 [_ H3]].
  cbn [map fst]. constructor; [exact H1|apply IH; exact H3].
Qed.
Lemma goodb_aget m k x : goodb (CMap m) = true -> aget ckey_eqb m k = Some x -> goodb x = true.
Proof.
  induction m as [|[k0 y] r IH]; intros H E; [discriminate E|]. apply goodb_cons in H as [_ [H2 H3]].
  cbn [aget] in E. destruct (ckey_eqb k k0); [injection E as <-; exact H2|apply IH; assumption].
Qed.
Lemma goodb_get p : forall v x, goodb v = true -> get p v = Some x -> goodb x = true.
Proof.
  induction p as [|k r IH]; intros v x H G; [injection G as <-; exact H|].
  destruct v as [| | | | | | | |m| |]; try discriminate G. cbn [get] in G.
  destruct (aget ckey_eqb m k) as [y|] eqn:E; [|discriminate G]. exact (IH y x (goodb_aget _ _ H E) G).
Qed.
Lemma goodb_good v : goodb v = true -> wf v /\ yaml v.
Proof.
  intro H. split.
  - intros p m G. apply goodb_nodup. exact (goodb_get _ _ H G).
  - intros p k n G. pose proof (goodb_get _ _ H G) as X. discriminate X.
Qed.
