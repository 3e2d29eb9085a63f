(* ClcProofs3.v: configurations a client can be made of, switchers, clusters. *)
From Verif Require Import Base Strconv GoStrings GoStrings2 UrlModel UrlSpec UrlProofs ConfModel ConfSpec ConfProofs CtxModel CtxSpec CtxProofs BootModel BootSpec BootProofs ClcModel ClcSpec ClcProofs ClcProofs2.
Ltac Zify.zify_post_hook ::= idtac.

Lemma plain_iff F m : plain m <-> exists u, confToURL F m = Some u.
Proof.
  pose proof (@section_bad F m) as B. split.
  - intro P. destruct (confToURL F m) as [u|] eqn:E; [eauto|]. destruct (proj1 B eq_refl) as (k & v & I1 & I2). destruct (P k v I1 I2).
  - intros [u E] k v I1 I2. assert (X : confToURL F m = None) by (apply B; eauto). rewrite E in X. discriminate X.
Qed.
Lemma plain_sections_iff F m : plain_sections m <-> exists us, confToURLs F m = Some us.
Proof.
  induction m as [|[k v] m IH]; cbn [confToURLs].
  - split; [eauto|]. intros _ k v [].
  - split.
    + intro P. destruct (P k v (or_introl eq_refl)) as (n & info & -> & -> & Pl). apply (plain_iff F) in Pl as [u ->].
      destruct (proj1 IH) as [us ->]; [intros k' v' I'; apply P; right; exact I'|]. eauto.
    + intros [us H]. destruct k as [n|]; [|discriminate H]. destruct v; try discriminate H. destruct (confToURL F m0) as [u|] eqn:E; [|discriminate H]. destruct (confToURLs F m) as [r|]; [|discriminate H].
      intros k v [E'|I']; [|apply (proj2 IH); [eauto|exact I']]. injection E' as <- <-. exists n, m0. split; [reflexivity|]. split; [reflexivity|]. apply (plain_iff F). eauto.
Qed.
Lemma conf_is_section T conf k q : s2b k <> [] -> conf_is T (getSection conf (s2b k)) q <-> conf_is T (Some (section_of conf k)) q.
Proof.
  intro N. unfold conf_is, getSection, getData, section_of, cget. destruct (s2b k) as [|y t]; [contradiction|].
  destruct (aget ckey_eqb conf (KStr (y :: t))) as [[]|]; split; intros H m0 v0 E A; try discriminate E; try (injection E as <-; discriminate A); exact (H m0 v0 E A).
Qed.
Lemma registerSwitchers_ok m : forall sw, snd (registerSwitchers sw m) = true <-> forall k v, In (k, v) m -> exists n b, k = KStr n /\ v = CBool b.
Proof.
  induction m as [|[k v] m IH]; intro sw; cbn [registerSwitchers]; [split; [intros _ k v []|reflexivity]|].
  destruct k as [n|n]; [|split; [discriminate|intro H; destruct (H _ _ (or_introl eq_refl)) as (n' & b & E & _); discriminate E]].
  destruct v; try (split; [discriminate|intro H; destruct (H _ _ (or_introl eq_refl)) as (n' & b' & _ & E); discriminate E]).
  rewrite IH. split.
  - intros H k v [E|E]; [injection E as <- <-; eauto|exact (H _ _ E)].
  - intros H k v E. apply H. right. exact E.
Qed.
Lemma newContext_ok e conf : section_of conf "motan-service" = [] ->
  (exists x, newContext e conf = Some x) <->
  (forall k, In k ["motan-registry"; "motan-basicRefer"; "motan-refer"; "motan-basicService"; "http-client"]%string -> plain_sections (section_of conf k)) /\
  (forall k, In k ["motan-agent"; "motan-client"; "motan-server"]%string -> plain (section_of conf k)).
Proof.
  intro SV. split.
  - intros [x H]. unfold newContext in H. do 10 (apply obind_some in H; destruct H as (? & ?E & H)).
    unfold basicURLs in E4, E8. apply obind_some in E4 as (? & E4 & _). apply obind_some in E8 as (? & E8 & _).
    unfold sectionURLs, hostURL in *. rewrite section_ne in E, E0, E1, E2, E3, E4, E5, E8 by discriminate.
    split; intros k K; repeat (destruct K as [<-|K]; [try (apply (plain_sections_iff (eFloat e)); eauto; fail); try (apply (plain_iff (eFloat e)); eauto; fail)|]); destruct K.
  - intros [P Q]. unfold newContext, basicURLs, sectionURLs, hostURL. rewrite !section_ne by discriminate.
    destruct (proj1 (plain_sections_iff (eFloat e) _) (P "motan-registry"%string ltac:(cbn; tauto))) as [? ->]. cbn [obind].
    destruct (proj1 (plain_iff (eFloat e) _) (Q "motan-agent"%string ltac:(cbn; tauto))) as [ag ->]. cbn [obind].
    destruct (proj1 (plain_iff (eFloat e) _) (Q "motan-client"%string ltac:(cbn; tauto))) as [? ->]. cbn [obind].
    destruct (proj1 (plain_iff (eFloat e) _) (Q "motan-server"%string ltac:(cbn; tauto))) as [? ->]. cbn [obind].
    destruct (proj1 (plain_sections_iff (eFloat e) _) (P "motan-basicRefer"%string ltac:(cbn; tauto))) as [bas ->]. cbn [obind].
    destruct (proj1 (plain_sections_iff (eFloat e) _) (P "motan-refer"%string ltac:(cbn; tauto))) as [us ->]. cbn [obind].
    destruct (basics_total (eOrd e) (Some ag) (eFilters e) (eExt e) bas (s2b "basicRefer") us) as [? ->]. cbn [obind].
    destruct (proj1 (plain_sections_iff (eFloat e) _) (P "motan-basicService"%string ltac:(cbn; tauto))) as [? ->]. cbn [obind].
    rewrite SV. change (confToURLs (eFloat e) []) with (Some (@nil (bs * curl))). cbn [obind basicConfToURLs].
    change (parseServices (eGroup e) (eRegSuffix e) []) with (Some (parseRegGroupSuffix (eRegSuffix e) [])). cbn [obind].
    destruct (proj1 (plain_sections_iff (eFloat e) _) (P "http-client"%string ltac:(cbn; tauto))) as [hs ->]. cbn [obind].
    destruct (basics_total (eOrd e) (Some ag) (eFilters e) (eExt e) bas (s2b "basicRefer") hs) as [? ->]. cbn [obind]. eauto.
Qed.
Lemma accepts e s f conf s' x : section_of conf "motan-service" = [] -> aget bs_eqb (cFiles s) f = None -> cstep e s (CGet f (Some conf)) = Some (s', x) ->
  (client_ok conf <-> x = OCtx (length (cAll s))) /\ (~ client_ok conf <-> x = OPanic).
Proof.
  intros SV A H.
  assert (K : client_ok conf <-> x = OCtx (length (cAll s))).
  { cbn [cstep] in H. rewrite A in H. cbv zeta in H. unfold newClientContext in H. cbn [cFiles cAll cSw cClus cReads cFlags cLogs] in H.
    pose proof (newContext_ok e conf SV) as NC. destruct (newContext e conf) as [c|].
    2:{ injection H as <- <-. split; [|discriminate]. intros (C1 & C2 & _). destruct (proj2 NC (conj C1 C2)) as [? E]. discriminate E. }
    destruct (proj1 NC (ex_intro _ c eq_refl)) as [C1 C2].
    destruct (obind _ _) as [[fs li]|] eqn:L.
    2:{ injection H as <- <-. split; [|discriminate]. intros (_ & _ & _ & D1 & D2 & D3 & D4). exfalso.
        assert (X : forall T q, conf_is T (Some (section_of conf "motan-client")) q -> conf_is T (getSection conf (s2b "motan-client")) q) by (intros T q; apply conf_is_section; discriminate).
        pose proof (proj2 (secStr_conf (getSection conf (s2b "motan-client")) (s2b "log_dir") _) (conj (X _ _ D1) eq_refl)) as E. rewrite E in L. cbn [obind] in L.
        match type of L with initLog ?d ?sec = None => pose proof (proj2 (initLog_iff d sec _) (conj (fun k Hk => X _ _ (D4 k Hk)) (conj (X _ _ D2) (conj (X _ _ D3) eq_refl)))) as E2 end. rewrite E2 in L. discriminate L. }
    apply obind_some in L as (d & L1 & L2). apply secStr_conf in L1 as [L1 _]. apply initLog_iff in L2 as (L3 & L4 & L5 & _).
    assert (Y : forall T q, conf_is T (getSection conf (s2b "motan-client")) q -> conf_is T (Some (section_of conf "motan-client")) q) by (intros T q; apply conf_is_section; discriminate).
    pose proof (registerSwitchers_ok (orNone (getSection conf (s2b "switcher"))) (initSwitcher (cSw s) conf)) as RS. rewrite section_ne in RS by discriminate. rewrite section_ne in H by discriminate.
    destruct (registerSwitchers (initSwitcher (cSw s) conf) (section_of conf "switcher")) as [sw2 [|]]; cbn [snd] in RS.
    - injection H as <- <-. split; [reflexivity|]. intros _. split; [exact C1|]. split; [exact C2|]. split; [apply RS; reflexivity|]. cbv zeta.
      split; [apply Y; exact L1|]. split; [apply Y; exact L4|]. split; [apply Y; exact L5|]. intros k Hk. apply Y. apply L3. exact Hk.
    - injection H as <- <-. split; [|discriminate]. intros (_ & _ & D & _). apply RS in D. discriminate D. }
  split; [exact K|]. assert (Z : x = OCtx (length (cAll s)) \/ x = OPanic).
  { cbn [cstep] in H. rewrite A in H. cbv zeta in H. destruct (newClientContext _ _ conf) as [s2 y] eqn:N. apply newctx_shape in N. cbn [cFiles cClus cReads cAll] in N.
    destruct N as (_ & _ & _ & [[-> _]|[-> _]]); injection H as _ <-; [right|left]; reflexivity. }
  split; [intro N; destruct Z as [Z|Z]; [apply K in Z; contradiction|exact Z]|]. intros E C. apply K in C. rewrite C in E. discriminate E.
Qed.

(* ---- switchers *)
Lemma register_aget sw n v q : aget bs_eqb (register sw n v) q =
  match aget bs_eqb sw q with Some w => Some w | None => if bs_eqb q n then match n with [] => None | _ => Some v end else None end.
Proof.
  unfold register. destruct n as [|y t]; [destruct (aget bs_eqb sw q); [reflexivity|]; destruct (bs_eqb q []); reflexivity|].
  destruct (aget bs_eqb sw (y :: t)) as [w|] eqn:E.
  - destruct (aget bs_eqb sw q) eqn:F; [reflexivity|]. destruct (bs_eqb q (y :: t)) eqn:B; [|reflexivity]. apply bs_eqb_spec in B. subst q. rewrite F in E. discriminate E.
  - rewrite (aget_aset bs_eqb bs_eqb_spec). destruct (bs_eqb q (y :: t)) eqn:B; [apply bs_eqb_spec in B; subst q; rewrite E; reflexivity|]. destruct (aget bs_eqb sw q); reflexivity.
Qed.
Lemma registerAll_aget l : forall sw q, q <> [] -> aget bs_eqb (registerAll sw l) q = match aget bs_eqb sw q with Some w => Some w | None => aget bs_eqb l q end.
Proof.
  unfold registerAll. induction l as [|[n v] l IH]; intros sw q N; cbn [fold_left fst snd aget]; [destruct (aget bs_eqb sw q); reflexivity|].
  rewrite IH, register_aget by exact N. destruct (aget bs_eqb sw q); [reflexivity|]. destruct (bs_eqb q n) eqn:B; [|reflexivity].
  apply bs_eqb_spec in B. subst n. destruct q; [contradiction|reflexivity].
Qed.
Lemma decoded_all m : decoded m <> None <-> forallb (fun kv : ckey * cval => match kv with (KStr _, CBool _) | (KStr _, CNil) => true | _ => false end) m = true.
Proof.
  induction m as [|[k v] m IH]; cbn [decoded forallb]; [split; [reflexivity|discriminate]|].
  destruct k as [n|n]; [|split; [intro H; destruct (H eq_refl)|discriminate]].
  destruct v; cbn [andb]; try (split; [intro H; destruct (H eq_refl)|discriminate]); rewrite <- IH; destruct (decoded m); cbn [obind]; split; try discriminate; auto.
Qed.
Lemma decoded_aget m : forall l, decoded m = Some l -> forall n, aget bs_eqb l n = match aget ckey_eqb m (KStr n) with Some (CBool v) => Some v | Some CNil => Some false | _ => None end.
Proof.
  induction m as [|[k v] m IH]; intros l H n; cbn [decoded] in H; [injection H as <-; reflexivity|].
  destruct k as [q|q]; [|discriminate H]. destruct v; try discriminate H; apply obind_some in H as (r & H & E); injection E as <-; cbn [aget ckey_eqb]; destruct (bs_eqb n q); try reflexivity; exact (IH _ H n).
Qed.
Lemma rswitch_aget m : forall sw n, n <> [] -> snd (registerSwitchers sw m) = true ->
  aget bs_eqb (fst (registerSwitchers sw m)) n = match aget bs_eqb sw n with Some w => Some w | None => match aget ckey_eqb m (KStr n) with Some (CBool v) => Some v | _ => None end end.
Proof.
  induction m as [|[k v] m IH]; intros sw n N H; cbn [registerSwitchers] in *; [cbn; destruct (aget bs_eqb sw n); reflexivity|].
  destruct k as [q|q]; [|discriminate H]. destruct v; try discriminate H. rewrite IH by assumption. rewrite register_aget. cbn [aget ckey_eqb].
  destruct (aget bs_eqb sw n); [reflexivity|]. destruct (bs_eqb n q) eqn:B; [|reflexivity]. apply bs_eqb_spec in B. subst q. destruct n; [contradiction|reflexivity].
Qed.
Lemma rswitch_keep m : forall sw n w, aget bs_eqb sw n = Some w -> aget bs_eqb (fst (registerSwitchers sw m)) n = Some w.
Proof.
  induction m as [|[k v] m IH]; intros sw n w A; cbn [registerSwitchers]; [exact A|]. destruct k as [q|q]; [|exact A]. destruct v; try exact A. apply IH. rewrite register_aget, A. reflexivity.
Qed.
Lemma initSwitcher_aget sw conf n : n <> [] -> aget bs_eqb (initSwitcher sw conf) n =
  match aget bs_eqb sw n with Some w => Some w | None =>
    if forallb (fun kv : ckey * cval => match kv with (KStr _, CBool _) | (KStr _, CNil) => true | _ => false end) (section_of conf "switchers") then
      match aget ckey_eqb (section_of conf "switchers") (KStr n) with Some (CBool v) => Some v | Some CNil => Some false | _ => None end
    else None end.
Proof.
  intro N. unfold initSwitcher, getSection, getData, cget, section_of. change (s2b "switchers") with (x73 :: s2b "witchers"). cbv iota.
  destruct (aget ckey_eqb conf (KStr (x73 :: s2b "witchers"))) as [[]|]; try (cbn [forallb aget]; destruct (aget bs_eqb sw n); reflexivity).
  pose proof (decoded_all m) as D. destruct (decoded m) as [l|] eqn:E.
  - rewrite (proj1 D ltac:(discriminate)), registerAll_aget by exact N. rewrite (decoded_aget _ _ E). reflexivity.
  - destruct (forallb _ m); [destruct (proj2 D eq_refl eq_refl)|]. destruct (aget bs_eqb sw n); reflexivity.
Qed.
Lemma newctx_sw e s conf s' i n : n <> [] -> newClientContext e s conf = (s', OCtx i) ->
  aget bs_eqb (cSw s') n = match aget bs_eqb (cSw s) n with Some v => Some v | None => switches conf n end.
Proof.
  intros N H. unfold newClientContext in H. destruct (newContext e conf) as [c|]; [|discriminate H]. cbv zeta in H. destruct (obind _ _) as [[fs li]|]; [|discriminate H].
  rewrite section_ne in H by discriminate. pose proof (rswitch_aget (section_of conf "switcher") (initSwitcher (cSw s) conf) n N) as R.
  destruct (registerSwitchers _ _) as [sw2 [|]]; [|discriminate H]. injection H as <- _. cbn [cSw]. cbn [fst snd] in R. rewrite (R eq_refl), initSwitcher_aget by exact N.
  destruct (aget bs_eqb (cSw s) n); [reflexivity|]. unfold switches. destruct (forallb _ _); [|reflexivity]. destruct (aget ckey_eqb (section_of conf "switchers") (KStr n)) as [[]|]; reflexivity.
Qed.
Lemma step_switch e s o s' i conf n : n <> [] -> cstep e s o = Some (s', OCtx i) -> cAll s' <> cAll s -> op_conf o = Some conf ->
  aget bs_eqb (cSw s') n = match aget bs_eqb (cSw s) n with Some v => Some v | None => switches conf n end.
Proof.
  intros N H X O1. destruct o as [f c|c|j fa|j k|j]; cbn [cstep op_conf] in *; try discriminate O1.
  - subst c. destruct (aget bs_eqb (cFiles s) f) as [j|]; [injection H as <- _; contradiction|]. cbv zeta in H. destruct (newClientContext _ _ conf) as [s2 y] eqn:E. pose proof E as E0. apply newctx_shape in E0. cbn [cFiles cClus cReads cAll] in E0.
    destruct E0 as (_ & _ & _ & [[-> _]|[-> _]]); [discriminate H|]. injection H as <- _. cbn [cSw]. exact (newctx_sw _ _ _ _ _ _ N E).
  - injection O1 as ->. assert (E : newClientContext e s conf = (s', OCtx i)) by (destruct (newClientContext e s conf); injection H as -> ->; reflexivity). exact (newctx_sw _ _ _ _ _ _ N E).
Qed.
Lemma initSwitcher_keep sw conf n w : aget bs_eqb sw n = Some w -> aget bs_eqb (initSwitcher sw conf) n = Some w.
Proof.
  intro A. unfold initSwitcher. destruct (getSection _ _) as [m|]; [|exact A]. destruct (decoded m) as [l|]; [|exact A]. unfold registerAll.
  revert sw A. induction l as [|[k v] l IH]; intros sw A; cbn [fold_left]; [exact A|]. apply IH. rewrite register_aget. cbn [fst]. rewrite A. reflexivity.
Qed.
Lemma newctx_keep e s conf s' x n w : newClientContext e s conf = (s', x) -> aget bs_eqb (cSw s) n = Some w -> aget bs_eqb (cSw s') n = Some w.
Proof.
  intros H A. unfold newClientContext in H. destruct (newContext e conf) as [c|]; [|injection H as <- _; exact A]. cbv zeta in H. pose proof (initSwitcher_keep _ conf _ _ A) as A1.
  destruct (obind _ _) as [[fs li]|]; [|injection H as <- _; exact A1]. pose proof (rswitch_keep (orNone (getSection conf (s2b "switcher"))) _ _ _ A1) as A2.
  destruct (registerSwitchers _ _) as [sw2 [|]]; injection H as <- _; exact A2.
Qed.
Lemma step_switch_keep e s o s' x n w : cstep e s o = Some (s', x) -> aget bs_eqb (cSw s) n = Some w -> aget bs_eqb (cSw s') n = Some w.
Proof.
  intros H A. destruct o as [f c|c|j fa|j k|j]; cbn [cstep] in H.
  - destruct (aget bs_eqb (cFiles s) f) as [j|]; [injection H as <- _; exact A|]. cbv zeta in H. destruct c as [conf|]; [|injection H as <- _; exact A].
    destruct (newClientContext _ _ conf) as [s2 y] eqn:E. apply (newctx_keep _ _ _ _ _ _ _ E) in A. destruct y; injection H as <- _; exact A.
  - destruct (newClientContext e s c) as [s2 y] eqn:E. injection H as <- <-. exact (newctx_keep _ _ _ _ _ _ _ E A).
  - destruct (nth_error (cAll s) j); [|discriminate H]. injection H as <- _. exact A.
  - destruct (nth_error (cAll s) j); [|discriminate H]. injection H as <- _. exact A.
  - destruct (nth_error (cAll s) j); [|discriminate H]. injection H as <- _. exact A.
Qed.
Lemma run_switch_keep e os : forall s s' tr n w, crun e s os = Some (s', tr) -> aget bs_eqb (cSw s) n = Some w -> aget bs_eqb (cSw s') n = Some w.
Proof.
  induction os as [|o os IH]; intros s s' tr n w H A; cbn [crun] in H; [injection H as <- <-; exact A|].
  destruct (cstep e s o) as [[s1 x]|] eqn:E; [|discriminate H]. destruct (crun e s1 os) as [[s2 t2]|] eqn:R; [|discriminate H]. injection H as <- <-.
  eapply IH; [exact R|]. eapply step_switch_keep; [exact E|exact A].
Qed.
(* the flags of a client *)
Lemma log_flags e s f conf s' i : aget bs_eqb (cFiles s) f = None -> cstep e s (CGet f (Some conf)) = Some (s', OCtx i) ->
  let d := first_text [conf_str (Some (section_of conf "motan-client")) (s2b "log_dir"); s2b "."] in
  exists fs, cFlags s' = cFlags s ++ fs /\ (forall v, In (s2b "log_dir", v) fs <-> v = d /\ d <> s2b "stdout") /\
    cLogs s' = cLogs s + (if bs_eqb d (s2b "stdout") then 0 else 1).
Proof.
  intros A H. cbn [cstep] in H. rewrite A in H. cbv zeta in H. unfold newClientContext in H. cbn [cFiles cAll cSw cClus cReads cFlags cLogs] in H.
  destruct (newContext e conf) as [c|]; [|discriminate H]. destruct (obind _ _) as [[fs li]|] eqn:L; [|discriminate H]. destruct (registerSwitchers _ _) as [sw2 [|]]; [|discriminate H]. injection H as <- _. cbn [cFlags cLogs].
  apply obind_some in L as (d0 & L1 & L2). apply secStr_conf in L1 as [_ ->]. apply initLog_iff in L2 as (_ & _ & _ & L6). cbv zeta in L6 |- *.
  assert (CS : conf_str (getSection conf (s2b "motan-client")) (s2b "log_dir") = conf_str (Some (section_of conf "motan-client")) (s2b "log_dir")).
  { unfold conf_str, getSection, getData, section_of, cget. change (s2b "motan-client") with (x6d :: s2b "otan-client"). cbv iota. destruct (aget ckey_eqb conf (KStr (x6d :: s2b "otan-client"))) as [[]|]; reflexivity. }
  rewrite CS in L6. set (cs := conf_str (Some (section_of conf "motan-client")) (s2b "log_dir")) in *.
  assert (D : match cs with [] => s2b "." | _ => cs end = first_text [cs; s2b "."]) by (destruct cs; reflexivity). rewrite D in L6.
  match type of L6 with context [if _ then (?l, false) else _] => set (fs0 := l) in * end.
  assert (NI : forall v, ~ In (s2b "log_dir", v) fs0).
  { intros v I0. unfold fs0 in I0. clear - I0. repeat (apply in_app_or in I0; destruct I0 as [I0|I0]);
      try (destruct (conf_bool (getSection conf (s2b "motan-client")) _); [destruct I0 as [E|[]]; discriminate E|destruct I0]).
    - unfold llist in I0. destruct (conf_str _ _); [destruct I0|destruct I0 as [E|[]]; discriminate E].
    - unfold nlist in I0. destruct (conf_num _ _); [destruct I0 as [E|[]]; discriminate E|destruct I0]. }
  exists fs. split; [reflexivity|]. destruct (bs_eqb (first_text [cs; s2b "."]) (s2b "stdout")) eqn:B; injection L6 as -> ->; split; try lia.
  - intro v. split; [intro I0; destruct (NI _ I0)|]. intros [_ N]. apply bs_eqb_spec in B. contradiction.
  - intro v. apply bs_eqb_neq in B. split.
    + intro I0. apply in_app_or in I0 as [I0|[E|[]]]; [destruct (NI _ I0)|]. injection E as <-. split; [reflexivity|exact B].
    + intros [-> _]. apply in_or_app. right. left. reflexivity.
Qed.
(* ---- clusters *)
Lemma starts_app R tr o x : starts_of R (tr ++ [(o, x)]) = starts_of R tr + match o with CStart i _ => R i | _ => 0 end.
Proof.
  induction tr as [|[o' x'] tr IH]; cbn [app starts_of]; [destruct o; lia|]. rewrite IH. destruct o'; lia.
Qed.
Lemma refers_len e conf x : eSubSuffix e = [] -> newContext e conf = Some x -> length (xRefers x) = length (section_of conf "motan-refer").
Proof.
  intros S0 H. unfold newContext in H. do 10 (apply obind_some in H; destruct H as (? & ?E & H)). injection H as <-. cbn [xRefers].
  unfold basicURLs in E4. apply obind_some in E4 as (us & E4 & E10). unfold sectionURLs in E4. rewrite section_ne in E4 by discriminate.
  rewrite S0. unfold parseRefers, parseSubGroupSuffix. rewrite map_length, <- (map_length fst), (basics_keys _ _ _ _ _ _ _ _ E10).
  apply secs_keys in E4. rewrite <- (map_length KStr), <- E4, map_length. reflexivity.
Qed.
Lemma clusters e os : forall s tr R, maps os -> crun e cst0 os = Some (s, tr) -> eSubSuffix e = [] ->
  (forall i conf, made_of tr i conf -> R i = length (section_of conf "motan-refer")) -> length (cClus s) = starts_of R tr.
Proof.
  induction os as [|o os IH] using rev_ind; intros s tr R M H S0 HR; [injection H as <- <-; reflexivity|].
  rewrite crun_app in H. destruct (crun e cst0 os) as [[s1 t1]|] eqn:Q; [|discriminate H]. cbn [crun] in H. destruct (cstep e s1 o) as [[s2 x]|] eqn:E; [|discriminate H]. injection H as <- <-.
  assert (M1 : maps os) by (intros o' c I'; apply M; apply in_or_app; left; exact I').
  assert (L : length (cClus s1) = starts_of R t1) by (apply IH; [exact M1|reflexivity|exact S0|intros i conf D; apply HR; apply made_app; exact D]).
  rewrite starts_app, <- L. apply step_shape in E as [(_ & A & _ & K & N)|[(_ & _ & K & N & _)|(j & f & m & -> & _ & E & _ & A & K)]].
  - rewrite K. destruct o; try lia. specialize (N i). cbn [started] in N. rewrite Nat.eqb_refl in N. discriminate N.
  - rewrite K. destruct o; try lia. specialize (N i). cbn [started] in N. rewrite Nat.eqb_refl in N. discriminate N.
  - cbv zeta in K. destruct (good_run _ _ _ _ M1 Q) as [_ [G1 _]]. destruct (G1 _ _ E) as (B1 & B2 & _ & B4).
    rewrite K, (proj1 (start_spec _ _ (context_nodup _ _ _ B2 B1) (mClients m) (cClus s1))), (refers_len _ _ _ S0 B1), (HR j (mConf m)) by (apply made_app; exact B4). reflexivity.
Qed.
