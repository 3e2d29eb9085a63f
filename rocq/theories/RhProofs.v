(* RhProofs.v *)
From Coq Require Import Lia Permutation.
From Verif Require Import Base Strconv GoStrings GoStrings2 UrlModel UrlSpec UrlProofs CtxModel CtxSpec CtxProofs RhModel RhSpec.
Ltac Zify.zify_post_hook ::= idtac.

Lemma getParam_text : forall u k, getParam u k [] = text u k.
Proof. intros u k. rewrite getParam_str_or. unfold str_or, text. destruct (param u k) as [[|]|]; reflexivity. Qed.
Lemma param_putP : forall u k v k', param (putP u k v) k' = if bs_eqb k' k then Some v else param u k'.
Proof. intros u k v k'. unfold putP. rewrite param_withParams, pget_pset. reflexivity. Qed.
Lemma text_putP : forall u k v k', text (putP u k v) k' = if bs_eqb k' k then v else text u k'.
Proof. intros. unfold text. rewrite param_putP. destruct (bs_eqb k' k); reflexivity. Qed.

(* the groups *)
Lemma reqURLs_groups : forall env b, map uGroup (reqURLs env b) = groups_of env b.
Proof.
  intros env b. unfold reqURLs, groups_of, names. rewrite map_map. cbn [withGrp uGroup]. rewrite map_id, slicesUnique_spec, withEnvGroup_eq. reflexivity.
Qed.
Lemma reqURLs_each : forall env b w, In w (reqURLs env b) -> uProtocol w = uProtocol b /\ uHost w = uHost b /\ uPort w = uPort b /\ uPath w = uPath b /\ uGroup w <> [] /\ (forall k, param w k = param b k) /\ uParams w <> None.
Proof.
  intros env b w H. unfold reqURLs in H. apply in_map_iff in H. destruct H as (g & <- & Hg). cbn [withGrp withParams uProtocol uHost uPort uPath uGroup uParams].
  repeat (split; [reflexivity|]). split.
  - rewrite slicesUnique_spec in Hg. assert (Hin : In g (trimSplit (withEnvGroup env (uGroup b)) (s2b ","))).
    { revert Hg. generalize (trimSplit (withEnvGroup env (uGroup b)) (s2b ",")). induction l as [|x l IH]; intros Hg; [exact Hg|]. cbn [first_occurrences] in Hg. destruct Hg as [<-|Hg]; [left; reflexivity|right].
      apply filter_In in Hg. apply IH. exact (proj1 Hg). }
    rewrite trimSplit_spec in Hin by discriminate. apply filter_In in Hin. destruct Hin as [_ Hn]. intros ->. discriminate Hn.
  - split; [|discriminate]. intros k. unfold param. cbn [uParams]. destruct (uParams b); reflexivity.
Qed.

(* the registry *)
Lemma firstReg_some : forall p regs, ~ In [] (map fst regs) -> firstReg p regs <> [] -> exists r, In (firstReg p regs, r) regs /\ p r = true.
Proof.
  intros p regs _ H. unfold firstReg in *. destruct (find (fun e : bs * url => p (snd e)) regs) as [[i r]|] eqn:F; [|exfalso; apply H; reflexivity]. apply find_some in F. exists r. exact F.
Qed.
Lemma firstReg_none : forall p regs, ~ In [] (map fst regs) -> firstReg p regs = [] -> forall i r, In (i, r) regs -> p r = false.
Proof.
  intros p regs Hn H i r Hin. unfold firstReg in *. destruct (find (fun e : bs * url => p (snd e)) regs) as [[i0 r0]|] eqn:F.
  - cbn [fst] in H. subst i0. apply find_some in F. exfalso. apply Hn. apply in_map_iff. exists ([], r0). split; [reflexivity|exact (proj1 F)].
  - exact (find_none _ _ F (i, r) Hin).
Qed.
Lemma regEquals_spec : forall a b, regEquals a b = true <-> same_address a b.
Proof.
  intros a b. unfold regEquals, same_address. rewrite !andb_true_iff, !bs_eqb_spec, Z.eqb_eq. tauto.
Qed.
Lemma asks_addr_b : forall b r, asks_addr b r <-> text b (s2b "proxyRegistry") <> [] /\ bs_eqb (regText r) (text b (s2b "proxyRegistry")) = true.
Proof. intros b r. unfold asks_addr, names_registry, regText. rewrite bs_eqb_spec. split; intros [A B]; split; auto. Qed.
Lemma findRegistry_spec : forall unesc regs b, ~ In [] (map fst regs) ->
  (findRegistry unesc regs b = [] /\ no_registry unesc regs b) \/ (findRegistry unesc regs b <> [] /\ right_registry unesc regs b (findRegistry unesc regs b)).
Proof.
  intros unesc regs b Hn. unfold findRegistry. rewrite !getParam_text. unfold ProxyRegistryKey, ProxyRegistryUrlString.
  set (pr := text b (s2b "proxyRegistry")). set (ps := text b (s2b "proxyRegistryUrlString")).
  set (id := if bs_eqb pr [] then [] else firstReg (fun r => bs_eqb (regText r) pr) regs).
  assert (A : (id = [] /\ forall i r, In (i, r) regs -> ~ asks_addr b r) \/ (id <> [] /\ exists r, In (id, r) regs /\ asks_addr b r)).
  { unfold id. destruct (bs_eqb pr []) eqn:E.
    - apply bs_eqb_spec in E. left. split; [reflexivity|]. intros i r _ H. apply asks_addr_b in H. destruct H as [H _]. apply H. exact E.
    - apply bs_eqb_neq in E. destruct (firstReg (fun r => bs_eqb (regText r) pr) regs) as [|x y] eqn:F.
      + left. split; [reflexivity|]. intros i r Hin H. apply asks_addr_b in H. destruct H as [_ H]. pose proof (firstReg_none _ _ Hn F i r Hin) as Z0. cbv beta in Z0. fold pr in H. rewrite Z0 in H. discriminate.
      + right. split; [discriminate|]. rewrite <- F. assert (X : firstReg (fun r => bs_eqb (regText r) pr) regs <> []) by (rewrite F; discriminate).
        destruct (firstReg_some _ _ Hn X) as (r & H1 & H2). exists r. split; [exact H1|]. apply asks_addr_b. split; [exact E|exact H2]. }
  destruct A as [[-> A]|[Hid (r & H1 & H2)]].
  - rewrite bs_eqb_refl. cbn [negb]. destruct (bs_eqb ps []) eqn:E.
    + apply bs_eqb_spec in E. left. split; [reflexivity|]. intros i r Hin. split; [apply (A i r Hin)|]. intros [H _]. apply H. exact E.
    + apply bs_eqb_neq in E. destruct (unesc ps) as [t|] eqn:U; [|left; split; [reflexivity|]; intros i r Hin; split; [apply (A i r Hin)|]; intros (_ & t & x & H & _); fold ps in H; congruence].
      destruct (fromExtInfo t) as [x|] eqn:X; [|left; split; [reflexivity|]; intros i r Hin; split; [apply (A i r Hin)|]; intros (_ & t' & x' & H & H' & _); fold ps in H; congruence].
      destruct (firstReg (regEquals x) regs) as [|c l] eqn:F.
      * left. split; [reflexivity|]. intros i r Hin. split; [apply (A i r Hin)|]. intros (_ & t' & x' & H & H' & S'). fold ps in H. assert (t' = t) by congruence. subst t'. assert (x' = x) by congruence. subst x'.
        apply regEquals_spec in S'. rewrite (firstReg_none _ _ Hn F i r Hin) in S'. discriminate.
      * right. split; [discriminate|]. rewrite <- F. assert (Y : firstReg (regEquals x) regs <> []) by (rewrite F; discriminate).
        destruct (firstReg_some _ _ Hn Y) as (r & H1 & H2). exists r. split; [exact H1|]. right. split; [exact A|]. split; [exact E|]. exists t, x. split; [exact U|]. split; [exact X|]. apply regEquals_spec. exact H2.
  - right. rewrite (proj2 (bs_eqb_neq id [])) by exact Hid. cbn [negb]. split; [exact Hid|]. exists r. auto.
Qed.
Lemma right_not_no : forall unesc regs b id, right_registry unesc regs b id -> no_registry unesc regs b -> False.
Proof. intros unesc regs b id (r & Hin & [H|[_ H]]) N; destruct (N id r Hin) as [N1 N2]; auto. Qed.

(* the request decides by parameters only *)
Lemma text_eq : forall a b, (forall k, param a k = param b k) -> forall k, text a k = text b k.
Proof. intros a b H k. unfold text. rewrite H. reflexivity. Qed.
Lemma findRegistry_params : forall unesc regs a b, (forall k, param a k = param b k) -> findRegistry unesc regs a = findRegistry unesc regs b.
Proof. intros unesc regs a b H. unfold findRegistry. rewrite !getParam_text, !(text_eq _ _ H). reflexivity. Qed.

(* the filters *)
Lemma for_agent_b : forall n, (hasPrefix n afPrefix && negb (bs_eqb n afPrefix) = true) <-> exists s, for_agent n s.
Proof.
  intros n. rewrite andb_true_iff, hasPrefix_spec, negb_true_iff, bs_eqb_neq. split.
  - intros [[s ->] H]. exists s. split; [reflexivity|]. intros ->. apply H. reflexivity.
  - intros (s & -> & Hs). split; [exists s; reflexivity|]. intros E. apply (app_inv_head afPrefix s []) in E. congruence.
Qed.
Lemma af_skip : forall s, skipn (length afPrefix) (s2b "af_" ++ s) = s.
Proof. intros s. change (s2b "af_") with afPrefix. apply skipn_app_exact. Qed.
Lemma agentFilters_in : forall u f, In f (agentFilters u) <-> exists n s, In n (names (text u (s2b "filter"))) /\ for_agent n s /\ f = trimSpace s.
Proof.
  intros u f. unfold agentFilters. rewrite getParam_text. change FilterKey with (s2b "filter"). fold (names (text u (s2b "filter"))). rewrite in_flat_map. split.
  - intros (n & Hn & Hf). destruct (hasPrefix n afPrefix && negb (bs_eqb n afPrefix)) eqn:E; [|destruct Hf]. destruct Hf as [<-|[]]. apply for_agent_b in E. destruct E as (s & Hs).
    exists n, s. split; [exact Hn|]. split; [exact Hs|]. destruct Hs as [-> _]. rewrite af_skip. reflexivity.
  - intros (n & s & Hn & Hs & ->). exists n. split; [exact Hn|]. assert (E : hasPrefix n afPrefix && negb (bs_eqb n afPrefix) = true) by (apply for_agent_b; exists s; exact Hs). rewrite E.
    left. destruct Hs as [-> _]. rewrite af_skip. reflexivity.
Qed.

Lemma af_nonblank : forall n s, trimSpace n = n -> for_agent n s -> trimSpace s <> [].
Proof.
  intros n s Ht [-> Hs] E. destruct (trimSpace_split s) as (p & q & H1 & H2 & H3 & _). rewrite E in H1. cbn [app] in H1.
  destruct (trimSpace_split (s2b "af_" ++ s)) as (p' & q' & _ & _ & _ & [_ Tr]). rewrite Ht in Tr.
  assert (F : Forall (fun c => isSpace c = true) s) by (rewrite H1; apply Forall_app; split; assumption).
  destruct (exists_last Hs) as (s' & c & Es). rewrite Es in F. apply Forall_app in F. destruct F as [_ F]. inversion F as [|? ? F1 _]; subst.
  rewrite (Tr c (s2b "af_" ++ s')) in F1; [discriminate|]. rewrite Es, <- app_assoc. reflexivity.
Qed.
Lemma trim_part : forall s x, In x (trimSpace s) -> In x s.
Proof. intros s x H. destruct (trimSpace_split s) as (p & q & E & _). rewrite E. apply in_or_app. right. apply in_or_app. left. exact H. Qed.
Lemma af_names : forall u y, In y (agentFilters u) -> names y = [y].
Proof.
  intros u y H. apply agentFilters_in in H. destruct H as (n & s & Hn & Hs & ->). destruct (names_trimmed _ _ Hn) as (T1 & T2 & T3).
  apply names_single; [apply trimSpace_idem|apply (af_nonblank n s T1 Hs)|]. intros X. apply T3. destruct Hs as [-> _]. apply in_or_app. right. apply trim_part. exact X.
Qed.
Lemma agentFilters_params : forall a b, text a (s2b "filter") = text b (s2b "filter") -> agentFilters a = agentFilters b.
Proof. intros a b H. unfold agentFilters. rewrite !getParam_text. change FilterKey with (s2b "filter"). rewrite H. reflexivity. Qed.
Lemma join_nil : forall l : list bs, (forall x, In x l -> x <> []) -> joinStr (s2b ",") l = [] -> l = [].
Proof. intros [|x [|y l]] H E; [reflexivity| |]; cbn [joinStr] in E; [exfalso; exact (H x (or_introl eq_refl) E)|apply app_eq_nil in E; destruct E as [_ E]; discriminate E]. Qed.
Lemma af_ne : forall u x, In x (agentFilters u) -> x <> [].
Proof. intros u x H. apply agentFilters_in in H. destruct H as (n & s & Hn & Hs & ->). destruct (names_trimmed _ _ Hn) as (T1 & _). apply (af_nonblank n s T1 Hs). Qed.

(* one URL *)
Lemma parse_one : forall unesc v calls regs ord b w, ~ In [] (map fst regs) -> (forall l, Permutation (ord l) l) -> re_ext v = fold_left addRelevantFilter calls [] ->
  uProtocol w = uProtocol b -> uHost w = uHost b -> uPort w = uPort b -> uPath w = uPath b -> uGroup w <> [] -> (forall k, param w k = param b k) ->
  match parseURL unesc v regs ord w with
  | None => no_registry unesc regs b
  | Some u => parsed unesc v calls regs b (uGroup w) u
  end.
Proof.
  intros unesc v calls regs ord b w Hn Ho He H1 H2 H3 H4 Hg Hp. unfold parseURL.
  assert (E0 : match uGroup w with [] => withParams (withGrp w (getParam w GrpKey [])) (match uParams w with Some m => Some (adel bs_eqb m GrpKey) | None => None end) | _ => w end = w) by (destruct (uGroup w); [congruence|reflexivity]).
  rewrite E0. clear E0. cbv zeta. rewrite (findRegistry_params unesc regs w b Hp).
  destruct (findRegistry_spec unesc regs b Hn) as [[-> N]|[Hid R]]; [rewrite bs_eqb_refl; exact N|].
  rewrite (proj2 (bs_eqb_neq _ _) Hid). set (id := findRegistry unesc regs b) in *.
  set (u1 := putP w RegKey id). set (fs := joinStr (s2b ",") (agentFilters u1)). set (u2 := if bs_eqb fs [] then u1 else putP u1 FilterKey fs).
  assert (Ptx : forall k, text w k = text b k) by (apply text_eq; exact Hp).
  assert (T1 : text u1 (s2b "filter") = text b (s2b "filter")) by (unfold u1; rewrite text_putP; exact (Ptx _)).
  assert (F1 : uProtocol u2 = uProtocol w /\ uHost u2 = uHost w /\ uPort u2 = uPort w /\ uPath u2 = uPath w /\ uGroup u2 = uGroup w) by (unfold u2, u1, putP, withParams; destruct (bs_eqb fs []); repeat split).
  assert (P2 : forall k, k <> s2b "filter" -> param u2 k = if bs_eqb k (s2b "registry") then Some id else param b k).
  { intros k Hk. unfold u2. destruct (bs_eqb fs []); [|rewrite param_putP; change FilterKey with (s2b "filter"); rewrite (proj2 (bs_eqb_neq _ _) Hk)]; unfold u1; rewrite param_putP; change RegKey with (s2b "registry"); rewrite Hp; reflexivity. }
  (* the fields of the result *)
  assert (SF : forall c, uProtocol (cUrl (setFilters ord (Some (re_agent v)) (re_filters v) (re_ext v) c)) = uProtocol (cUrl c) /\ uHost (cUrl (setFilters ord (Some (re_agent v)) (re_filters v) (re_ext v) c)) = uHost (cUrl c)
    /\ uPort (cUrl (setFilters ord (Some (re_agent v)) (re_filters v) (re_ext v) c)) = uPort (cUrl c) /\ uPath (cUrl (setFilters ord (Some (re_agent v)) (re_filters v) (re_ext v) c)) = uPath (cUrl c)
    /\ uGroup (cUrl (setFilters ord (Some (re_agent v)) (re_filters v) (re_ext v) c)) = uGroup (cUrl c)).
  { intros c. unfold setFilters. destruct (finalFilters _ _ _ _); repeat split. }
  destruct (SF (fresh u2)) as (S1 & S2 & S3 & S4 & S5). destruct F1 as (Q1 & Q2 & Q3 & Q4 & Q5). change (cUrl (fresh u2)) with u2 in *.
  assert (Pres : forall k, k <> s2b "filter" -> param (cUrl (setFilters ord (Some (re_agent v)) (re_filters v) (re_ext v) (fresh u2))) k = if bs_eqb k (s2b "registry") then Some id else param b k).
  { intros k Hk. rewrite filters_rest by exact Hk. change (cUrl (fresh u2)) with u2. apply P2. exact Hk. }
  unfold parsed. rewrite S1, S2, S3, S4, S5, Q1, Q2, Q3, Q4, Q5. repeat (split; [assumption || reflexivity|]). split; [|split].
  - unfold text. rewrite Pres by discriminate. cbv iota. exact R.
  - intros f. rewrite He, (filters_ok ord (Some (re_agent v)) (re_filters v) calls (fresh u2) f Ho). change (cUrl (fresh u2)) with u2.
    assert (TT : forall k, k <> s2b "filter" -> k <> s2b "registry" -> text u2 k = text b k).
    { intros k K1 K2. unfold text. rewrite P2 by exact K1. rewrite (proj2 (bs_eqb_neq _ _) K2). reflexivity. }
    assert (M : In f (names (text u2 (s2b "filter"))) <-> meant b f).
    { assert (AF : agentFilters u1 = agentFilters b) by (apply agentFilters_params; exact T1).
      unfold u2. destruct (bs_eqb fs []) eqn:E.
      - apply bs_eqb_spec in E. unfold fs in E. apply join_nil in E; [|intros x; apply af_ne]. rewrite AF in E. rewrite T1. unfold meant. split.
        + intros H. right. split; [|exact H]. intros n s Hin Hs. assert (X : In (trimSpace s) (agentFilters b)) by (apply agentFilters_in; exists n, s; auto). rewrite E in X. destruct X.
        + intros [(n & s & Hin & Hs & _)|[_ H]]; [|exact H]. assert (X : In (trimSpace s) (agentFilters b)) by (apply agentFilters_in; exists n, s; auto). rewrite E in X. destruct X.
      - apply bs_eqb_neq in E. rewrite text_putP. change (bs_eqb (s2b "filter") FilterKey) with true. cbv iota. unfold fs. rewrite names_join, AF. split.
        + intros (y & Hy & Hf). rewrite (af_names _ _ Hy) in Hf. destruct Hf as [<-|[]]. left. apply agentFilters_in. exact Hy.
        + intros [H|[H _]].
          * apply agentFilters_in in H. exists f. split; [exact H|]. rewrite (af_names _ _ H). left. reflexivity.
          * exfalso. apply E. unfold fs. rewrite AF. assert (X : agentFilters b = []). { destruct (agentFilters b) as [|y l] eqn:Y; [reflexivity|]. assert (Z : In y (agentFilters b)) by (rewrite Y; left; reflexivity).
              apply agentFilters_in in Z. destruct Z as (n & s & Hin & Hs & _). exfalso. exact (H n s Hin Hs). } rewrite X. reflexivity. }
    unfold wanted, of_agent. rewrite M, !TT by discriminate. split.
    + intros [(a & Ea & A)|[(a & Ea & A)|[A|[A|A]]]]; [injection Ea as <-; left; left; exact A|injection Ea as <-; left; right; left; exact A|left; right; right; left; exact A|left; right; right; right; exact A|right; exact A].
    + intros [[A|[A|[A|A]]]|A]; [left; eexists; split; [reflexivity|exact A]|right; left; eexists; split; [reflexivity|exact A]|right; right; left; exact A|right; right; right; left; exact A|right; right; right; right; exact A].
  - intros k K1 K2. rewrite Pres by exact K2. rewrite (proj2 (bs_eqb_neq _ _) K1). reflexivity.
Qed.
Lemma parse_all : forall unesc v calls regs ord b ws, ~ In [] (map fst regs) -> (forall l, Permutation (ord l) l) -> re_ext v = fold_left addRelevantFilter calls [] ->
  (forall w, In w ws -> uProtocol w = uProtocol b /\ uHost w = uHost b /\ uPort w = uPort b /\ uPath w = uPath b /\ uGroup w <> [] /\ (forall k, param w k = param b k) /\ uParams w <> None) ->
  match parseURLs unesc v regs ord ws with
  | None => ws <> [] /\ no_registry unesc regs b
  | Some us => Forall2 (parsed unesc v calls regs b) (map uGroup ws) us
  end.
Proof.
  intros unesc v calls regs ord b ws Hn Ho He. induction ws as [|w ws IH]; intros H; cbn [parseURLs map]; [constructor|].
  destruct (H w (or_introl eq_refl)) as (A1 & A2 & A3 & A4 & A5 & A6 & _).
  pose proof (parse_one unesc v calls regs ord b w Hn Ho He A1 A2 A3 A4 A5 A6) as P. destruct (parseURL unesc v regs ord w) as [u|]; [|split; [discriminate|exact P]].
  specialize (IH (fun w' Hw' => H w' (or_intror Hw'))). destruct (parseURLs unesc v regs ord ws) as [us|]; [constructor; assumption|]. split; [discriminate|exact (proj2 IH)].
Qed.
Lemma change_spec : forall unesc v calls regs ord b f, ~ In [] (map fst regs) -> (forall l, Permutation (ord l) l) -> re_ext v = fold_left addRelevantFilter calls [] ->
  (exists ws, change unesc v regs ord (Some b) f = (200%Z, map f ws) /\ Forall2 (parsed unesc v calls regs b) (groups_of (re_group v) b) ws) \/
  (change unesc v regs ord (Some b) f = (400%Z, []) /\ groups_of (re_group v) b <> [] /\ no_registry unesc regs b).
Proof.
  intros unesc v calls regs ord b f Hn Ho He. unfold change.
  pose proof (parse_all unesc v calls regs ord b (reqURLs (re_group v) b) Hn Ho He (reqURLs_each (re_group v) b)) as P. rewrite reqURLs_groups in P.
  destruct (parseURLs unesc v regs ord (reqURLs (re_group v) b)) as [us|]; [left; exists us; auto|]. right. split; [reflexivity|]. destruct P as [P1 P2]. split; [|exact P2].
  rewrite <- reqURLs_groups. destruct (reqURLs (re_group v) b); [congruence|discriminate].
Qed.
Lemma service_ok : forall v w, exported v w (serviceURL v w).
Proof.
  intros v w. unfold serviceURL. set (u1 := putP w ProxyKeyP (uProtocol w ++ s2b ":" ++ fmtZ (uPort w))).
  set (ex := uProtocol u1 ++ s2b ":" ++ fmtZ (re_eport v)). assert (Eex : ex = uProtocol w ++ s2b ":" ++ fmtZ (re_eport v)) by reflexivity.
  set (u2 := putP u1 ExportKeyP ex). unfold initProxyServiceURL.
  assert (G : getParam u2 ExportKeyP [] = ex). { rewrite getParam_text. unfold u2. rewrite text_putP, bs_eqb_refl. reflexivity. }
  rewrite G. destruct (parseExportInfo ex) as [[proto port] err] eqn:PE.
  set (u3 := mkUrl proto (re_ip v) port (uPath u2) (uGroup u2) (uParams u2)).
  assert (P3 : forall k, param u3 k = if bs_eqb k ExportKeyP then Some ex else if bs_eqb k ProxyKeyP then Some (uProtocol w ++ s2b ":" ++ fmtZ (uPort w)) else param w k).
  { intros k. change (param u3 k) with (param u2 k). unfold u2. rewrite param_putP. destruct (bs_eqb k ExportKeyP); [reflexivity|]. unfold u1. apply param_putP. }
  assert (T3 : text u3 AppKey = text w AppKey) by (unfold text; rewrite P3; reflexivity).
  rewrite getParam_text, T3, getParam_text.
  set (u4 := if bs_eqb (text w AppKey) [] then putP u3 AppKey (text (re_agent v) AppKey) else u3).
  assert (P4 : forall k, k <> AppKey -> param u4 k = param u3 k).
  { intros k Hk. unfold u4. destruct (bs_eqb (text w AppKey) []); [|reflexivity]. rewrite param_putP, (proj2 (bs_eqb_neq _ _) Hk). reflexivity. }
  assert (F4 : uProtocol u4 = proto /\ uHost u4 = re_ip v /\ uPort u4 = port /\ uPath u4 = uPath w /\ uGroup u4 = uGroup w).
  { unfold u4. destruct (bs_eqb (text w AppKey) []); repeat split. }
  destruct F4 as (F1 & F2 & F3 & F4 & F5). unfold exported. split; [|split; [exact F2|split; [exact F4|split; [exact F5|split; [|split; [|split]]]]]].
  - intros H1 H2 H3 H4. rewrite Eex in PE. rewrite parseExport_both in PE; [|exact H3|rewrite H1; exact H2|change (2 ^ 63)%Z with 9223372036854775808%Z in H4; lia].
    rewrite H1 in PE. injection PE as <- <- _. rewrite F1, F3. split; reflexivity.
  - rewrite P4 by discriminate. rewrite P3. reflexivity.
  - rewrite P4 by discriminate. rewrite P3. rewrite <- Eex. reflexivity.
  - change (s2b "application") with AppKey. unfold u4. destruct (bs_eqb (text w AppKey) []); [rewrite text_putP, bs_eqb_refl; reflexivity|exact T3].
  - intros k Hk. assert (K : k <> AppKey /\ k <> ExportKeyP /\ k <> ProxyKeyP) by (repeat split; intros ->; apply Hk; cbn; auto).
    destruct K as (K1 & K2 & K3). rewrite (P4 k K1), P3, (proj2 (bs_eqb_neq _ _) K2), (proj2 (bs_eqb_neq _ _) K3). reflexivity.
Qed.
Lemma service_same : forall v w w', same_service w w' -> same_service (serviceURL v w) (serviceURL v w').
Proof.
  intros v w w' (H1 & H2 & H3 & H4 & H5 & H6).
  destruct (service_ok v w) as (_ & A1 & A2 & A3 & A4 & A5 & A6 & A7). destruct (service_ok v w') as (_ & B1 & B2 & B3 & B4 & B5 & B6 & B7).
  assert (Q : uProtocol (serviceURL v w) = uProtocol (serviceURL v w') /\ uPort (serviceURL v w) = uPort (serviceURL v w')).
  { assert (Q0 : forall x, uProtocol (serviceURL v x) = fst (fst (parseExportInfo (uProtocol x ++ s2b ":" ++ fmtZ (re_eport v)))) /\ uPort (serviceURL v x) = snd (fst (parseExportInfo (uProtocol x ++ s2b ":" ++ fmtZ (re_eport v))))).
    { intros x. unfold serviceURL, initProxyServiceURL. rewrite getParam_text, text_putP, bs_eqb_refl.
      change (uProtocol (putP x ProxyKeyP (uProtocol x ++ s2b ":" ++ fmtZ (uPort x)))) with (uProtocol x).
      destruct (parseExportInfo (uProtocol x ++ s2b ":" ++ fmtZ (re_eport v))) as [[p q] e]. cbn [fst snd]. match goal with |- context [if ?c then _ else _] => destruct c end; split; reflexivity. }
    destruct (Q0 w) as [-> ->], (Q0 w') as [-> ->]. rewrite H1. split; reflexivity. }
  destruct Q as [Q1 Q2]. assert (TA : text w (s2b "application") = text w' (s2b "application")) by (unfold text; rewrite H6 by discriminate; reflexivity).
  unfold same_service. rewrite Q1, Q2, A1, B1, A2, B2, A3, B3, H4, H5. repeat (split; [reflexivity|]).
  intros k Hk. destruct (bs_eq_dec k (s2b "proxy")) as [->|K1]; [rewrite A4, B4, H1, H3; reflexivity|].
  destruct (bs_eq_dec k (s2b "export")) as [->|K2]; [rewrite A5, B5, H1; reflexivity|].
  destruct (bs_eq_dec k (s2b "application")) as [->|K3].
  - unfold serviceURL, initProxyServiceURL. rewrite !getParam_text, !text_putP, !bs_eqb_refl.
    change (uProtocol (putP w ProxyKeyP (uProtocol w ++ s2b ":" ++ fmtZ (uPort w)))) with (uProtocol w).
    change (uProtocol (putP w' ProxyKeyP (uProtocol w' ++ s2b ":" ++ fmtZ (uPort w')))) with (uProtocol w'). rewrite H1.
    destruct (parseExportInfo (uProtocol w' ++ s2b ":" ++ fmtZ (re_eport v))) as [[p q] e].
    assert (TT : forall x a c h g pp, text (mkUrl p h q pp g (uParams (putP (putP x ProxyKeyP a) ExportKeyP c))) AppKey = text x AppKey
       /\ param (mkUrl p h q pp g (uParams (putP (putP x ProxyKeyP a) ExportKeyP c))) AppKey = param x AppKey).
    { intros x a c h g pp. assert (X : param (mkUrl p h q pp g (uParams (putP (putP x ProxyKeyP a) ExportKeyP c))) AppKey = param x AppKey).
      { match goal with |- param (mkUrl _ _ _ _ _ (uParams ?y)) _ = _ => change (param y AppKey = param x AppKey) end. rewrite !param_putP. reflexivity. }
      split; [unfold text; rewrite X; reflexivity|exact X]. }
    rewrite !getParam_text, (proj1 (TT w _ _ _ _ _)), (proj1 (TT w' _ _ _ _ _)). change (s2b "application") with AppKey in *. rewrite TA.
    destruct (bs_eqb (text w' AppKey) []).
    + rewrite !param_putP, !bs_eqb_refl. reflexivity.
    + rewrite (proj2 (TT w _ _ _ _ _)), (proj2 (TT w' _ _ _ _ _)). apply H6. discriminate.
  - assert (K : ~ In k [s2b "proxy"; s2b "export"; s2b "application"]) by (intros [E|[E|[E|[]]]]; congruence).
    rewrite (A7 k K), (B7 k K). apply H6. exact Hk.
Qed.
Lemma right_unique : forall unesc regs regs' b i i', Permutation regs regs' -> distinct_addresses regs -> right_registry unesc regs b i -> right_registry unesc regs' b i' -> i = i'.
Proof.
  intros unesc regs regs' b i i' P D (r & H1 & H2) (r' & H1' & H2'). apply (Permutation_in _ (Permutation_sym P)) in H1'.
  destruct H2 as [[_ A]|[N [_ (t & x & U & X & (E1 & E2 & E3))]]], H2' as [[Q A']|[N' [Q' (t' & x' & U' & X' & (E1' & E2' & E3'))]]].
  - exact (D _ i r i' r' H1 H1' A A').
  - exfalso. apply (N' i r (Permutation_in _ P H1)). split; [|exact A]. intros E. rewrite E in A. unfold names_registry in A. destruct (uProtocol r); discriminate A.
  - exfalso. apply (N i' r' H1'). split; [exact Q|exact A'].
  - assert (t' = t) by congruence. subst t'. assert (x' = x) by congruence. subst x'.
    apply (D (regText x) i r i' r' H1 H1'); unfold names_registry, regText; congruence.
Qed.
Lemma no_perm : forall unesc regs regs' b i, Permutation regs regs' -> right_registry unesc regs b i -> no_registry unesc regs' b -> False.
Proof.
  intros unesc regs regs' b i P R N. apply (right_not_no unesc regs b i R). intros j r Hin. apply (N j r). exact (Permutation_in _ P Hin).
Qed.
Lemma text_param : forall u w k, text u k = text w k -> text u k <> [] -> param u k = param w k.
Proof. intros u w k E H. rewrite E in H. unfold text in *. destruct (param u k), (param w k); congruence. Qed.
Lemma parsed_same : forall unesc v calls regs regs' b g w w', ~ In [] (map fst regs) -> Permutation regs regs' -> distinct_addresses regs ->
  parsed unesc v calls regs b g w -> parsed unesc v calls regs' b g w' -> same_service w w'.
Proof.
  intros unesc v calls regs regs' b g w w' Hn P D (A1 & A2 & A3 & A4 & A5 & A6 & _ & A8) (B1 & B2 & B3 & B4 & B5 & B6 & _ & B8).
  unfold same_service. rewrite A1, A2, A3, A4, A5, B1, B2, B3, B4, B5. repeat (split; [reflexivity|]). intros k Hk.
  destruct (bs_eq_dec k (s2b "registry")) as [->|K]; [|rewrite A8, B8 by assumption; reflexivity].
  apply text_param; [exact (right_unique unesc regs regs' b _ _ P D A6 B6)|]. destruct A6 as (r & Hin & _). intros E. rewrite E in Hin. apply Hn. apply in_map_iff. exists ([], r). auto.
Qed.
Lemma forall2_both : forall (A B C : Type) (P : A -> B -> Prop) (Q : A -> C -> Prop) (R : B -> C -> Prop) l x y,
  (forall a b c, P a b -> Q a c -> R b c) -> Forall2 P l x -> Forall2 Q l y -> Forall2 R x y.
Proof.
  intros A B C P Q R l x y H F. revert y. induction F as [|a b l x p F IH]; intros y G; inversion G; subst; constructor; eauto.
Qed.
