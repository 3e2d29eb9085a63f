(* RiProofs.v *)
From Verif Require Import Base Lists Strconv GoStrings GoStrings2 UrlModel UrlSpec UrlProofs CoreModel CoreSpec CoreProofs CtxProofs
  ClusterModel CmdModel CmdSpec CmdProofs RiModel RiSpec.
Ltac Zify.zify_post_hook ::= idtac.

Lemma fresh_coherent u : coherent_id (fresh u).
Proof. left. reflexivity. Qed.
Lemma identityOf_text u : identityOf u = id_text u.
Proof.
  unfold identityOf, id_text. unfold getIdentity, fresh, identity_of. cbn [cIdentity cUrl]. destruct (getPortStr _) as [p c1] eqn:E.
  unfold getPortStr in E. cbn [cPortStr cUrl] in E. injection E as <- _. cbn [fst]. rewrite getParam_str_or.
  destruct (bs_eqb (uProtocol u) (s2b "direct")); rewrite ?app_nil_r; repeat rewrite <- app_assoc; reflexivity.
Qed.
Lemma withRegistry_text u : withRegistryOf u = id_reg_text u.
Proof.
  unfold withRegistryOf, id_reg_text, getIdentityWithRegistry. pose proof (identityOf_text u) as H. unfold identityOf in H.
  destruct (getIdentity (fresh u)) as [i c1]. cbn [fst] in *. rewrite H. do 2 f_equal.
  unfold fresh. cbn [cUrl]. rewrite getParam_str_or. reflexivity.
Qed.

(* ---- maps built from lists *)
Lemma get_set (m : list (bs * rv)) k v k' : aget bs_eqb (aset bs_eqb m k v) k' = if bs_eqb k' k then Some v else aget bs_eqb m k'.
Proof. apply (aget_aset bs_eqb bs_eqb_spec). Qed.
Lemma asets_new {A} (key : A -> bs) (v : A -> rv) l : forall m, NoDup (akeys m ++ map key l) ->
  fold_left (fun m p => aset bs_eqb m (key p) (v p)) l m = m ++ map (fun p => (key p, v p)) l.
Proof.
  induction l as [|p l IH]; intros m H; cbn [fold_left map]; [symmetry; apply app_nil_r|].
  assert (N : ~ In (key p) (akeys m)) by (cbn in H; apply NoDup_remove_2 in H; rewrite in_app_iff in H; tauto).
  rewrite (aset_new m (key p) (v p) N). rewrite IH; [rewrite <- app_assoc; reflexivity|].
  unfold akeys. rewrite map_app. cbn [map fst]. rewrite <- app_assoc. exact H.
Qed.
Lemma exactly_asets {A} (key : A -> bs) (v : A -> rv) l : NoDup (map key l) ->
  exactly (fold_left (fun m p => aset bs_eqb m (key p) (v p)) l []) l key v.
Proof.
  intro H. rewrite asets_new by exact H. cbn [app].
  assert (K : akeys (map (fun p => (key p, v p)) l) = map key l) by (unfold akeys; rewrite map_map; reflexivity).
  split; [rewrite K; exact H|]. split; [apply map_length|]. intros k x. split.
  - intro G. apply (aget_In bs_eqb bs_eqb_spec) in G. apply in_map_iff in G as (a & E & G). injection E as <- <-. exists a. auto.
  - intros (a & Ha & <- & <-). apply (In_aget bs_eqb bs_eqb_spec); [rewrite K; exact H|]. apply in_map_iff. exists a. auto.
Qed.
Lemma asets_last {A} (key : A -> bs) (v : A -> rv) l : forall m a r, l = r ++ [a] ->
  aget bs_eqb (fold_left (fun m p => aset bs_eqb m (key p) (v p)) l m) (key a) = Some (v a).
Proof. intros m a r ->. rewrite fold_left_app. cbn [fold_left]. rewrite get_set, bs_eqb_refl. reflexivity. Qed.

(* ---- clusters *)
Lemma key_inj a b : place_key a = place_key b -> fst a = fst b.
Proof.
  unfold place_key. intro H. change (s2b "-") with [x2d] in H. cbn [app] in H. apply first_split in H as [H _]; [|apply fmtN_nodash|apply fmtN_nodash].
  apply CtxProofs.fmtN_inj in H. lia.
Qed.
Definition numb (i : nat) (l : list refer) : list (nat * refer) := combine (seq i (length l)) l.
Lemma fold_refers l : forall i up down,
  fold_left addRefer l (N.of_nat i, up, down) = (N.of_nat (i + length l),
    fold_left (fun m p => aset bs_eqb m (place_key p) (callerInfo (rfCaller (snd p)))) (filter (fun p => Bool.eqb (rfUp (snd p)) true) (numb i l)) up,
    fold_left (fun m p => aset bs_eqb m (place_key p) (callerInfo (rfCaller (snd p)))) (filter (fun p => Bool.eqb (rfUp (snd p)) false) (numb i l)) down).
Proof.
  induction l as [|r l IH]; intros i up down; [cbn; rewrite Nat.add_0_r; reflexivity|].
  cbn [fold_left]. unfold numb. cbn [length seq combine filter snd]. fold (numb (S i) l).
  assert (E : addRefer (N.of_nat i, up, down) r = (N.of_nat (S i),
     if rfUp r then aset bs_eqb up (place_key (i, r)) (callerInfo (rfCaller r)) else up,
     if rfUp r then down else aset bs_eqb down (place_key (i, r)) (callerInfo (rfCaller r)))).
  { unfold addRefer, place_key. rewrite identityOf_text. cbn [fst snd]. replace (N.of_nat i + 1)%N with (N.of_nat (S i)) by lia. destruct (rfUp r); reflexivity. }
  rewrite E, IH. replace (S i + length l)%nat with (i + S (length l))%nat by lia. destruct (rfUp r); reflexivity.
Qed.
Lemma numb_fst i l : map fst (numb i l) = seq i (length l).
Proof. unfold numb. revert i. induction l as [|r l IH]; intro i; [reflexivity|]. cbn. rewrite IH. reflexivity. Qed.
Lemma nodup_filter_map {A B} (f : A -> B) g l : NoDup (map f l) -> NoDup (map f (filter g l)).
Proof.
  induction l as [|a l IH]; cbn; intro H; [constructor|]. inversion H as [|? ? N H']; subst. destruct (g a); [|auto]. cbn. constructor; [|auto].
  intro X. apply N. apply in_map_iff in X as (b & E & X). apply filter_In in X as [X _]. rewrite <- E. apply in_map. exact X.
Qed.
Lemma nodup_keys i l g : NoDup (map place_key (filter g (numb i l))).
Proof.
  apply nodup_filter_map. assert (H : NoDup (map fst (numb i l))) by (rewrite numb_fst; apply seq_NoDup).
  remember (numb i l) as n eqn:En. clear En. induction n as [|p n IH]; [constructor|]. cbn in *. inversion H as [|? ? N H']; subst. constructor; [|auto].
  intro X. apply N. apply in_map_iff in X as (b & E & X). apply key_inj in E. rewrite <- E. apply in_map. exact X.
Qed.
Lemma filters_length i l : length (filter (fun p : nat * refer => Bool.eqb (rfUp (snd p)) true) (numb i l)) +
  length (filter (fun p : nat * refer => Bool.eqb (rfUp (snd p)) false) (numb i l)) = length l.
Proof. revert i. induction l as [|r l IH]; intro i; [reflexivity|]. unfold numb. cbn [length seq combine filter snd]. fold (numb (S i) l). specialize (IH (S i)). destruct (rfUp r); cbn [Bool.eqb length]; lia. Qed.

Ltac agets := unfold has, hasnt, set, setUrl; repeat (rewrite get_set; match goal with |- context [bs_eqb (s2b ?a) (s2b ?b)] =>
  let r := eval vm_compute in (bs_eqb (s2b a) (s2b b)) in change (bs_eqb (s2b a) (s2b b)) with r; cbv iota end).

Lemma cluster_report c : let m := clusterInfo c in
  has m "name" (RT (s2b "MotanCluster")) /\ has m "refererSize" (RN (Z.of_nat (length (clRefers c)))) /\ shows_url m (clUrl c) /\
  (exists up down, has m "referers" (RM [(s2b "available", RM up); (s2b "unavailable", RM down)]) /\
     exactly up (placed c true) place_key (fun p => callerInfo (rfCaller (snd p))) /\
     exactly down (placed c false) place_key (fun p => callerInfo (rfCaller (snd p))) /\
     length up + length down = length (clRefers c)) /\
  (exists regs, has m "registries" (RM regs) /\ (NoDup (map (fun r => id_text (fst r)) (clRegs c)) -> exactly regs (clRegs c) (fun r => id_text (fst r)) snd)) /\
  match clFilters c with [] => hasnt m "filters" | l => has m "filters" (RL (map filterInfo l)) end /\
  match clChain c with [] => hasnt m "clusterFilters" | l => has m "clusterFilters" (RL (map filterInfo l)) end.
Proof.
  cbv zeta. unfold clusterInfo. change 0%N with (N.of_nat 0). rewrite (fold_refers (clRefers c) 0 [] []). cbv iota beta zeta.
  assert (U : exactly (fold_left (fun m p => aset bs_eqb m (place_key p) (callerInfo (rfCaller (snd p)))) (placed c true) []) (placed c true) place_key (fun p => callerInfo (rfCaller (snd p))))
    by (apply exactly_asets; apply nodup_keys).
  assert (D : exactly (fold_left (fun m p => aset bs_eqb m (place_key p) (callerInfo (rfCaller (snd p)))) (placed c false) []) (placed c false) place_key (fun p => callerInfo (rfCaller (snd p))))
    by (apply exactly_asets; apply nodup_keys).
  change (filter (fun p : nat * refer => Bool.eqb (rfUp (snd p)) true) (numb 0 (clRefers c))) with (placed c true).
  change (filter (fun p : nat * refer => Bool.eqb (rfUp (snd p)) false) (numb 0 (clRefers c))) with (placed c false).
  assert (R : NoDup (map (fun r => id_text (fst r)) (clRegs c)) ->
     exactly (fold_left (fun m (r : url * rv) => aset bs_eqb m (identityOf (fst r)) (snd r)) (clRegs c) []) (clRegs c) (fun r => id_text (fst r)) snd).
  { intro N. replace (fold_left (fun m (r : url * rv) => aset bs_eqb m (identityOf (fst r)) (snd r)) (clRegs c) []) with
      (fold_left (fun m (r : url * rv) => aset bs_eqb m (id_text (fst r)) (snd r)) (clRegs c) []); [apply exactly_asets; exact N|].
    generalize (@nil (bs * rv)). induction (clRegs c) as [|r l IH]; intro m; [reflexivity|]. cbn [fold_left]. rewrite identityOf_text. apply IH.
    cbn in N. inversion N; assumption. }
  assert (L : length (placed c true) + length (placed c false) = length (clRefers c)) by apply (filters_length 0).
  set (up := fold_left _ (placed c true) []) in *. set (down := fold_left _ (placed c false) []) in *. set (regs := fold_left _ (clRegs c) []) in *.
  clearbody up down regs.
  split; [destruct (clFilters c), (clChain c), (clUrl c); agets; reflexivity|].
  split; [destruct (clFilters c), (clChain c), (clUrl c); agets; reflexivity|].
  split; [unfold shows_url; destruct (clFilters c), (clChain c), (clUrl c); agets; reflexivity|].
  split.
  { exists up, down. split; [destruct (clFilters c), (clChain c), (clUrl c); agets; reflexivity|]. split; [exact U|]. split; [exact D|].
    destruct U as (_ & U & _). destruct D as (_ & D & _). lia. }
  split; [exists regs; split; [destruct (clFilters c), (clChain c), (clUrl c); agets; reflexivity|exact R]|].
  split; destruct (clFilters c), (clChain c), (clUrl c); agets; reflexivity.
Qed.

(* ---- the wrapper *)
Lemma note_ring {V} (items : list (Z * V)) now v : note (ringOf 10 items) now v = ringOf 10 (items ++ [(now, v)]).
Proof. unfold note. pose proof (ring_all 10 [(now, Some v)] ltac:(lia) items) as H. cbn [addAll real_items] in H. destruct (addRecord (ringOf 10 items) now (Some v)) as [r|]; [|discriminate H]. injection H as H. exact H. Qed.
Lemma map_reg l : toRecordInfo l = map id_reg_text l.
Proof. unfold toRecordInfo. apply map_ext. exact withRegistry_text. Qed.
Lemma run_records lib es : forall x tx ls, xCmds x = ringOf 10 tx -> xLists x = ringOf 10 ls ->
  let y := fold_left (xStep lib) es x in
  xW y = wRun lib (xW x) (map snd es) /\ xCmds y = ringOf 10 (fold_left texts_after es tx) /\ xLists y = ringOf 10 (lists_from lib (xW x) ls es).
Proof.
  induction es as [|[t o] es IH]; intros x tx ls H1 H2; [cbn; auto|].
  cbn [fold_left map snd wRun lists_from]. unfold xStep at 2 4 6. destruct (wStep lib (xW x) o) as [w' out] eqn:E. cbn [fst].
  destruct o as [typ info disc|urls disc|id urls disc|urls service disc|]; unfold texts_after at 2; cbn [snd fst].
  - apply (IH (mkCrwr w' _ _)); cbn [xCmds xLists]; [rewrite H1; apply note_ring|]. destruct out as [l|]; [rewrite H2, map_reg; apply note_ring|exact H2].
  - apply (IH (mkCrwr w' _ _)); cbn [xCmds xLists]; [exact H1|]. destruct out as [l|]; [rewrite H2, map_reg; apply note_ring|exact H2].
  - apply (IH (mkCrwr w' _ _)); cbn [xCmds xLists]; [exact H1|]. destruct out as [l|]; [rewrite H2, map_reg; apply note_ring|exact H2].
  - apply (IH (mkCrwr w' _ _)); cbn [xCmds xLists]; [rewrite H1; apply note_ring|exact H2].
  - apply (IH (mkCrwr w' _ _)); cbn [xCmds xLists]; apply newRecorder_ring.
Qed.
Lemma wrapper_report lib u name es : sort_ok lib -> let m := wrapperInfo name (xRun lib u es) in let os := map snd es in
  has m "name" (RT (s2b "commandWrapper:" ++ name)) /\ has m "agentCommand" (RT (last_text 0 os)) /\ has m "serviceCommand" (RT (last_text 1 os)) /\
  has m "weight" (RW (cwWeights (wAfter lib u os))) /\
  match staticOf u with Some c => has m "staticCommand" (RC c) | None => hasnt m "staticCommand" end /\
  has m "commandHistory" (RM (map (fun p => (fst p, RT (snd p))) (numbered 0 (last_n 10 (texts es))))) /\
  has m "notifyHistory" (RM (map (fun p => (fst p, RL (map RT (snd p)))) (numbered 0 (last_n 10 (lists_given lib u es))))).
Proof.
  intro Hs. cbv zeta. unfold wrapperInfo, xRun.
  destruct (run_records lib es (newCrwr u) [] [] (newRecorder_ring _ 10) (newRecorder_ring _ 10)) as (A & B & C). cbv zeta in A, B, C.
  set (x := fold_left (xStep lib) es (newCrwr u)) in *. change (wRun lib (xW (newCrwr u)) (map snd es)) with (wAfter lib u (map snd es)) in A.
  destruct (after_inv lib u (map snd es) Hs) as (I & _ & _ & _ & E1 & E2). rewrite A, B, C, E1, E2, !ring_records.
  assert (S : cwStatic (wAfter lib u (map snd es)) = staticOf u) by apply I. rewrite S.
  change (fold_left texts_after es []) with (texts es). change (lists_from lib (xW (newCrwr u)) [] es) with (lists_given lib u es).
  repeat split; destruct (staticOf u); agets; reflexivity.
Qed.

(* ---- providers, exporters, servers, the agent *)
Lemma exporter_report e : let m := exporterInfo e in
  shows_url m (exUrl e) /\ has m "provider" (RM (providerInfo (exProv e))) /\ has m "isAvailable" (RB (exUp e)).
Proof. cbv zeta. unfold exporterInfo, shows_url. destruct (exUrl e); repeat split; agets; reflexivity. Qed.
Lemma fmtZ_inj_port a b : (0 <= a < 65536)%Z -> (0 <= b < 65536)%Z -> fmtZ a = fmtZ b -> a = b.
Proof. intros A B. apply fmtZ_inj; lia. Qed.
Lemma nodup_ports (l : list (Z * serv)) : Forall (fun p => 0 <= fst p < 65536)%Z l -> NoDup (map fst l) -> NoDup (map (fun p => fmtZ (fst p)) l).
Proof.
  induction l as [|p l IH]; cbn; intros F H; [constructor|]. inversion H as [|? ? N H']; subst. inversion F as [|? ? Fp Fl]; subst. constructor; [|auto].
  intro X. apply N. apply in_map_iff in X as (q & E & X). rewrite Forall_forall in Fl. apply (fmtZ_inj_port _ _ (Fl q X) Fp) in E. rewrite <- E. apply in_map. exact X.
Qed.
Lemma servers_report a s h : aServer a = Some s -> aProxy a = Some h -> Forall (fun p => 0 <= fst p < 65536)%Z (aPorts a) -> NoDup (map fst (aPorts a)) ->
  exists m ports, getServersInfo a = Some m /\ has m "agentServer" (RM (serverInfo s)) /\ has m "agentPortServer" (RM ports) /\
    has m "httpProxyServer" (RM (httpProxyInfo h)) /\ exactly ports (aPorts a) (fun p => fmtZ (fst p)) (fun p => RM (serverInfo (snd p))).
Proof.
  intros A B F N. unfold getServersInfo. rewrite A, B. do 2 eexists. split; [reflexivity|]. split; [agets; reflexivity|]. split; [agets; reflexivity|].
  split; [agets; reflexivity|]. apply exactly_asets. apply nodup_ports; assumption.
Qed.
Lemma gather_get a ks : forall m, (forall k, In k ks -> infoOf a k <> Some None) -> exists m', gather a ks m = Some m' /\
  forall k, aget bs_eqb m' k = if existsb (bs_eqb k) ks then match infoOf a k with Some (Some i) => Some (RM i) | _ => aget bs_eqb m k end else aget bs_eqb m k.
Proof.
  induction ks as [|x ks IH]; intros m H; [exists m; split; reflexivity|]. cbn [gather existsb].
  destruct (infoOf a x) as [[i|]|] eqn:E.
  - destruct (IH (aset bs_eqb m x (RM i))) as (m' & G & P); [intros k Hk; apply H; right; exact Hk|]. exists m'. split; [exact G|]. intro k. rewrite P, get_set.
    destruct (bs_eqb k x) eqn:B; cbn [orb]; [apply bs_eqb_spec in B; subst k; rewrite E; destruct (existsb (bs_eqb x) ks); reflexivity|reflexivity].
  - exfalso. apply (H x); [left; reflexivity|exact E].
  - destruct (IH m) as (m' & G & P); [intros k Hk; apply H; right; exact Hk|]. exists m'. split; [exact G|]. intro k. rewrite P.
    destruct (bs_eqb k x) eqn:B; cbn [orb]; [apply bs_eqb_spec in B; subst k; rewrite E; destruct (existsb (bs_eqb x) ks); reflexivity|reflexivity].
Qed.
Lemma gather_panics a ks : (exists k, In k ks /\ infoOf a k = Some None) -> forall m, gather a ks m = None.
Proof.
  induction ks as [|x ks IH]; intros (k & Hk & E) m; [destruct Hk|]. cbn [gather]. destruct Hk as [<-|Hk]; [rewrite E; reflexivity|].
  destruct (infoOf a x) as [[i|]|]; [|reflexivity|]; apply IH; exists k; auto.
Qed.
Lemma info_panics a k : infoOf a k = Some None <-> k = s2b "servers" /\ getServersInfo a = None.
Proof.
  unfold infoOf.
  destruct (bs_eqb k (s2b "clusters")) eqn:E1; [apply bs_eqb_spec in E1; subst k; split; [discriminate|intros [X _]; vm_compute in X; discriminate X]|].
  destruct (bs_eqb k (s2b "httpClusters")) eqn:E2; [apply bs_eqb_spec in E2; subst k; split; [discriminate|intros [X _]; vm_compute in X; discriminate X]|].
  destruct (bs_eqb k (s2b "exporters")) eqn:E3; [apply bs_eqb_spec in E3; subst k; split; [discriminate|intros [X _]; vm_compute in X; discriminate X]|].
  destruct (bs_eqb k (s2b "servers")) eqn:E4; [apply bs_eqb_spec in E4; subst k; split; [intro X; injection X as X; auto|intros [_ X]; rewrite X; reflexivity]|].
  assert (NS : k <> s2b "servers") by (intro X; subst k; vm_compute in E4; discriminate E4).
  destruct (bs_eqb k (s2b "extensionFactory")); [split; [discriminate|tauto]|]. destruct (bs_eqb k (s2b "basic")); (split; [discriminate|tauto]).
Qed.
Lemma named_keys keys k : In k (if bs_eqb keys [] then defaultKeys else splitOn x2c keys) <-> (keys = [] /\ In k defaultKeys) \/ (keys <> [] /\ In k (splitOn x2c keys)).
Proof. destruct (bs_eqb keys []) eqn:E; [apply bs_eqb_spec in E; tauto|]. assert (keys <> []) by (intro X; subst; discriminate E). tauto. Qed.
Lemma info_known a k : infoOf a k <> None <-> In k defaultKeys.
Proof.
  unfold infoOf. change defaultKeys with [s2b "clusters"; s2b "httpClusters"; s2b "exporters"; s2b "servers"; s2b "extensionFactory"; s2b "basic"]. split.
  - intro H. repeat match type of H with context [bs_eqb k ?y] => let E := fresh in destruct (bs_eqb k y) eqn:E; [apply bs_eqb_spec in E; subst k; cbn; tauto|clear E] end. tauto.
  - intro H. repeat (destruct H as [<-|H]; [vm_compute; discriminate|]). destruct H.
Qed.

Lemma servers_down a : getServersInfo a = None <-> aServer a = None \/ aProxy a = None.
Proof. unfold getServersInfo. destruct (aServer a), (aProxy a); (split; [auto; intro X; discriminate X|intros [X|X]; try discriminate X; reflexivity]). Qed.
Lemma answer_refused a keys : runtimeInfo a keys = None <-> named keys (s2b "servers") /\ (aServer a = None \/ aProxy a = None).
Proof.
  unfold runtimeInfo. rewrite <- servers_down.
  assert (N : named keys (s2b "servers") <-> In (s2b "servers") (if bs_eqb keys [] then defaultKeys else splitOn x2c keys)).
  { rewrite named_keys. unfold named. split.
    - intros [->|H]; [left; split; [reflexivity|cbn; tauto]|]. destruct keys as [|b k]; [left; split; [reflexivity|cbn; tauto]|right; split; [discriminate|exact H]].
    - tauto. }
  rewrite N. clear N. set (ks := if bs_eqb keys [] then defaultKeys else splitOn x2c keys). split.
  - intro H. destruct (existsb (fun k => match infoOf a k with Some None => true | _ => false end) ks) eqn:E.
    + apply existsb_exists in E as (k & Hk & E). assert (X : infoOf a k = Some None) by (destruct (infoOf a k) as [[i|]|]; [discriminate E|reflexivity|discriminate E]).
      apply info_panics in X as [-> X]. auto.
    + exfalso. match type of H with gather _ _ ?m0 = _ => destruct (gather_get a ks m0) as (m' & G & _) end; [|congruence].
      intros k Hk X. rewrite <- not_true_iff_false in E. apply E. apply existsb_exists. exists k. rewrite X. auto.
  - intros [Hk X]. apply gather_panics. exists (s2b "servers"). split; [exact Hk|]. apply info_panics. auto.
Qed.
Definition part_of (a : agt) (k : bs) (x : rv) : Prop := exists i, infoOf a k = Some (Some i) /\ x = RM i.
Lemma answer_parts a keys m : runtimeInfo a keys = Some m -> forall k x, aget bs_eqb m k = Some x <->
  (k = s2b "result" /\ x = RT (s2b "ok")) \/ (k = s2b "instanceType" /\ x = RT (s2b "motan-agent")) \/ (named keys k /\ part_of a k x).
Proof.
  intros H k x. unfold runtimeInfo in H. set (ks := if bs_eqb keys [] then defaultKeys else splitOn x2c keys) in *.
  assert (NP : forall k, In k ks -> infoOf a k <> Some None).
  { intros k' Hk X. pose proof (gather_panics a ks (ex_intro _ k' (conj Hk X))) as G. rewrite G in H. discriminate H. }
  match type of H with gather _ _ ?mm = _ => set (m0 := mm) in *; destruct (gather_get a ks m0 NP) as (m' & G & P) end. rewrite G in H. injection H as ->.
  rewrite P. assert (M0 : aget bs_eqb m0 k = if bs_eqb k (s2b "instanceType") then Some (RT (s2b "motan-agent")) else if bs_eqb k (s2b "result") then Some (RT (s2b "ok")) else None).
  { unfold m0, set. rewrite !get_set. reflexivity. }
  rewrite M0. clear M0 P G.
  assert (N : part_of a k x -> named keys k <-> existsb (bs_eqb k) ks = true).
  { intros (i & X & _). assert (K : In k defaultKeys) by (apply (info_known a); congruence). rewrite (existsb_eqb_In bs_eqb bs_eqb_spec). unfold ks. rewrite named_keys. unfold named.
    destruct keys as [|b r]; [split; [intros _; left; split; [reflexivity|exact K]|intros _; left; reflexivity]|]. split; [intros [Y|Y]; [discriminate Y|right; split; [discriminate|exact Y]]|intros [[Y _]|[_ Y]]; [discriminate Y|auto]]. }
  assert (D : forall i, infoOf a k = Some (Some i) -> k <> s2b "result" /\ k <> s2b "instanceType").
  { intros i X. split; intros ->; vm_compute in X; discriminate X. }
  assert (B : (if bs_eqb k (s2b "instanceType") then Some (RT (s2b "motan-agent")) else if bs_eqb k (s2b "result") then Some (RT (s2b "ok")) else None) = Some x <->
     (k = s2b "result" /\ x = RT (s2b "ok")) \/ (k = s2b "instanceType" /\ x = RT (s2b "motan-agent"))).
  { destruct (bs_eqb k (s2b "instanceType")) eqn:E1; [apply bs_eqb_spec in E1; subst k; split; [intro X; injection X as <-; auto|intros [[X _]|[_ ->]]; [vm_compute in X; discriminate X|reflexivity]]|].
    apply bs_eqb_neq in E1. destruct (bs_eqb k (s2b "result")) eqn:E2; [apply bs_eqb_spec in E2; subst k; split; [intro X; injection X as <-; auto|intros [[_ ->]|[X _]]; [reflexivity|tauto]]|].
    apply bs_eqb_neq in E2. split; [discriminate|tauto]. }
  destruct (infoOf a k) as [[i|]|] eqn:I.
  - destruct (D i eq_refl) as [D1 D2]. destruct (existsb (bs_eqb k) ks) eqn:E.
    + split.
      * intro X. injection X as <-. assert (Q : part_of a k (RM i)) by (exists i; auto). right. right. split; [apply (N Q); reflexivity|exact Q].
      * intros [[X _]|[[X _]|[_ (j & J & ->)]]]; [tauto|tauto|]. rewrite I in J. injection J as <-. reflexivity.
    + rewrite B. split; [tauto|]. intros [X|[X|[X Q]]]; [tauto|tauto|]. apply (N Q) in X. discriminate X.
  - assert (Z : ~ part_of a k x) by (intros (j & J & _); congruence). destruct (existsb (bs_eqb k) ks); rewrite B; tauto.
  - assert (Z : ~ part_of a k x) by (intros (j & J & _); congruence). destruct (existsb (bs_eqb k) ks); rewrite B; tauto.
Qed.

Lemma part_is a k x : part_of a k x <-> part a k x.
Proof.
  unfold part_of, part, infoOf. split.
  - intros (i & H & ->). repeat match type of H with context [bs_eqb k ?y] =>
      let E := fresh in destruct (bs_eqb k y) eqn:E; [apply bs_eqb_spec in E; subst k; injection H as H; subst; auto 8|clear E] end; try discriminate H.
    right. right. right. left. split; [reflexivity|]. exists i. auto.
  - intros [[-> ->]|[[-> ->]|[[-> ->]|[[-> (i & E & ->)]|[[-> ->]|[-> ->]]]]]].
    + exists (getClusterInfo a). split; reflexivity.
    + exists (getHttpClusterInfo a). split; reflexivity.
    + exists (getExporterInfo a). split; reflexivity.
    + exists i. split; [|reflexivity]. change (Some (getServersInfo a) = Some (Some i)). rewrite E. reflexivity.
    + exists (extFactoryInfo a). split; reflexivity.
    + exists (basicInfo a). split; reflexivity.
Qed.
