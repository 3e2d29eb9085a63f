(* ClcProofs.v: proofs about client contexts. *)
From Verif Require Import Base Strconv GoStrings GoStrings2 UrlModel UrlSpec UrlProofs ConfModel ConfSpec ConfProofs CtxModel CtxSpec CtxProofs BootModel BootSpec BootProofs ClcModel ClcSpec.
Require Import Coq.Sorting.Permutation.
Ltac Zify.zify_post_hook ::= idtac.

(* ---- reading a configuration *)
Lemma getSection_of conf k : orNone (getSection conf (s2b k)) = section_of conf k \/ s2b k = [].
Proof.
  unfold getSection, getData, section_of, cget. destruct (s2b k) as [|x r]; [right; reflexivity|left].
  destruct (aget ckey_eqb conf (KStr (x :: r))) as [[]|]; reflexivity.
Qed.
Ltac secof k := let H := fresh in destruct (getSection_of k) as [H|H]; [|discriminate H].
Lemma section_ne conf k : s2b k <> [] -> orNone (getSection conf (s2b k)) = section_of conf k.
Proof. intro N. destruct (getSection_of conf k) as [H|H]; [exact H|contradiction]. Qed.
Lemma secs_aget F m : forall us, confToURLs F m = Some us -> forall k, aget bs_eqb us k =
  match aget ckey_eqb m (KStr k) with
  | Some (CMap info) => option_map (fun u => fresh (withParams u (pset (uParams u) (s2b "conf-id") k))) (confToURL F info)
  | _ => None
  end.
Proof.
  induction m as [|[q v] m IH]; intros us H k; cbn [confToURLs] in H; [injection H as <-; reflexivity|].
  destruct q as [q|]; [|discriminate H]. destruct v; try discriminate H. destruct (confToURL F m0) as [u|] eqn:E; [|discriminate H]. destruct (confToURLs F m) as [r|]; [|discriminate H]. injection H as <-.
  cbn [aget ckey_eqb]. destruct (bs_eqb k q) eqn:B; [|apply IH; reflexivity]. apply bs_eqb_spec in B. subst q. rewrite E. reflexivity.
Qed.
Lemma secs_some F m us k info : confToURLs F m = Some us -> aget ckey_eqb m (KStr k) = Some (CMap info) -> exists u, confToURL F info = Some u.
Proof.
  revert us. induction m as [|[q v] m IH]; intros us H A; [discriminate A|]. cbn [confToURLs] in H.
  destruct q as [q|]; [|discriminate H]. destruct v; try discriminate H. destruct (confToURL F m0) as [u|] eqn:E; [|discriminate H]. destruct (confToURLs F m) as [r|]; [|discriminate H].
  cbn [aget ckey_eqb] in A. destruct (bs_eqb k q); [injection A as ->; eauto|]. eapply IH; [reflexivity|exact A].
Qed.
Lemma secs_map F m us k v : confToURLs F m = Some us -> aget ckey_eqb m (KStr k) = Some v -> exists info, v = CMap info.
Proof.
  revert us. induction m as [|[q w] m IH]; intros us H A; [discriminate A|]. cbn [confToURLs] in H.
  destruct q as [q|]; [|discriminate H]. destruct w; try discriminate H. destruct (confToURL F m0) as [u|] eqn:E; [|discriminate H]. destruct (confToURLs F m) as [r|]; [|discriminate H].
  cbn [aget ckey_eqb] in A. destruct (bs_eqb k q); [injection A as <-; eauto|]. eapply IH; [reflexivity|exact A].
Qed.
Lemma secs_keys F m : forall us, confToURLs F m = Some us -> map fst m = map KStr (map fst us).
Proof.
  induction m as [|[q v] m IH]; intros us H; cbn [confToURLs] in H; [injection H as <-; reflexivity|].
  destruct q as [q|]; [|discriminate H]. destruct v; try discriminate H. destruct (confToURL F m0) as [u|] eqn:E; [|discriminate H]. destruct (confToURLs F m) as [r|]; [|discriminate H]. injection H as <-.
  cbn [map fst]. rewrite (IH _ eq_refl). reflexivity.
Qed.
Lemma NoDup_map_back {A B} (f : A -> B) l : NoDup (map f l) -> NoDup l.
Proof.
  induction l as [|a l IH]; intro H; [constructor|]. inversion H as [|? ? N1 N2]; subst. constructor; [|apply IH; exact N2].
  intro I. apply N1. apply in_map. exact I.
Qed.
Lemma secs_nodup F m us : confToURLs F m = Some us -> NoDup (map fst m) -> NoDup (map fst us).
Proof. intros H N. rewrite (secs_keys _ _ _ H) in N. exact (NoDup_map_back _ _ N). Qed.
Lemma basics_aget ord ag env ext bs0 key us : forall ns, basicConfToURLs ord ag env ext bs0 key us = Some ns -> forall k, aget bs_eqb ns k =
  match aget bs_eqb us k with Some c => option_map (setFilters ord ag env ext) (deriveURL bs0 key c) | None => None end.
Proof.
  induction us as [|[q c] us IH]; intros ns H k; cbn [basicConfToURLs] in H; [injection H as <-; reflexivity|].
  destruct (deriveURL bs0 key c) as [n|] eqn:E; [|discriminate H]. destruct (basicConfToURLs _ _ _ _ _ _ us) as [r|]; [|discriminate H]. injection H as <-.
  cbn [aget]. destruct (bs_eqb k q); [rewrite E; reflexivity|]. apply IH. reflexivity.
Qed.
Lemma basics_keys ord ag env ext bs0 key us : forall ns, basicConfToURLs ord ag env ext bs0 key us = Some ns -> map fst ns = map fst us.
Proof.
  induction us as [|[q c] us IH]; intros ns H; cbn [basicConfToURLs] in H; [injection H as <-; reflexivity|].
  destruct (deriveURL bs0 key c) as [n|] eqn:E; [|discriminate H]. destruct (basicConfToURLs _ _ _ _ _ _ us) as [r|]; [|discriminate H]. injection H as <-.
  cbn [map fst]. rewrite (IH _ eq_refl). reflexivity.
Qed.
Lemma derive_total bs0 key c : exists n, deriveURL bs0 key c = Some n.
Proof.
  unfold deriveURL. destruct (getParam (cUrl c) key []); [eauto|]. destruct (aget bs_eqb bs0 _) as [bb|]; [|eauto].
  unfold mergeParams. cbn [cUrl uParams copyUrl fresh withParams]. eauto.
Qed.
Lemma basics_total ord ag env ext bs0 key us : exists ns, basicConfToURLs ord ag env ext bs0 key us = Some ns.
Proof.
  induction us as [|[q c] us [ns IH]]; cbn [basicConfToURLs]; [eauto|]. destruct (derive_total bs0 key c) as [n ->]. rewrite IH. eauto.
Qed.
(* names of parameters are there once *)
Lemma confFrom_nodup F m : forall u r, NoDup (map fst (pairs u)) -> confToURLFrom F u m = Some r -> NoDup (map fst (pairs r)).
Proof.
  induction m as [|[k v] m IH]; intros u r N H; cbn [confToURLFrom] in H; [injection H as <-; exact N|].
  destruct (confEntry F u k v) as [u'|] eqn:E; [|discriminate H]. apply (IH u' r); [|exact H].
  destruct k as [s|]; [|discriminate E]. cbn [confEntry] in E.
  repeat match type of E with context [if bs_eqb s ?x then _ else _] => destruct (bs_eqb s x) end;
    try (destruct (strField v); [|discriminate E]; injection E as <-; exact N).
  - destruct v; try discriminate E; injection E as <-; exact N.
  - injection E as <-. unfold pairs, withParams, pset. cbn [uParams].
    change (NoDup (akeys (aset bs_eqb (match uParams u with Some m => m | None => [] end) s (interfaceToString F v)))).
    apply (NoDup_aset bs_eqb bs_eqb_spec). exact N.
Qed.
Lemma conf_nodup F m r : confToURL F m = Some r -> NoDup (map fst (pairs r)).
Proof. intro H. eapply confFrom_nodup; [|exact H]. constructor. Qed.
Lemma confFrom_params F m : forall u r, uParams u <> None -> confToURLFrom F u m = Some r -> uParams r <> None.
Proof.
  induction m as [|[k v] m IH]; intros u r N H; cbn [confToURLFrom] in H; [injection H as <-; exact N|].
  destruct (confEntry F u k v) as [u'|] eqn:E; [|discriminate H]. apply (IH u' r); [|exact H].
  destruct k as [s|]; [|discriminate E]. cbn [confEntry] in E.
  repeat match type of E with context [if bs_eqb s ?x then _ else _] => destruct (bs_eqb s x) end;
    try (destruct (strField v); [|discriminate E]; injection E as <-; exact N).
  - destruct v; try discriminate E; injection E as <-; exact N.
  - injection E as <-. discriminate.
Qed.
(* the url of a section with its name *)
Definition named (u : url) (k : bs) : curl := fresh (withParams u (pset (uParams u) (s2b "conf-id") k)).
Lemma named_param u k p : param (cUrl (named u k)) p = if bs_eqb p (s2b "conf-id") then Some k else param u p.
Proof. unfold named, fresh. cbn [cUrl]. rewrite param_withParams, pget_pset. reflexivity. Qed.
Lemma named_nodup u k : NoDup (map fst (pairs u)) -> NoDup (map fst (pairs (cUrl (named u k)))).
Proof.
  intro N. unfold named, fresh, pairs, withParams, pset. cbn [cUrl uParams].
  change (NoDup (akeys (aset bs_eqb (match uParams u with Some m => m | None => [] end) (s2b "conf-id") k))).
  apply (NoDup_aset bs_eqb bs_eqb_spec). exact N.
Qed.
Lemma rename_aget sfx m k : sfx = [] -> aget bs_eqb (parseRefers true sfx m) k = option_map renameV1 (aget bs_eqb m k).
Proof.
  intros ->. unfold parseRefers, parseSubGroupSuffix. induction m as [|[q c] m IH]; [reflexivity|]. cbn [map aget fst snd].
  destruct (bs_eqb k q); [reflexivity|exact IH].
Qed.
Lemma sub_nodup sfx todo : forall ids m, NoDup (map fst m) -> NoDup (map fst (subLoop sfx ids m todo)).
Proof.
  induction todo as [|[k c] r IH]; intros ids m N; cbn [subLoop]; [exact N|]. destruct (hasSuffix _ _); [apply IH; exact N|].
  destruct (existsb _ ids); [apply IH; exact N|]. apply IH.
  match goal with |- NoDup (map fst ?x) => change (NoDup (akeys x)) end. apply (NoDup_aset bs_eqb bs_eqb_spec). exact N.
Qed.
Lemma map_fst_snd {A B C} (f : B -> C) (m : list (A * B)) : map fst (map (fun kc : A * B => (fst kc, f (snd kc))) m) = map fst m.
Proof. induction m as [|[a b] m IH]; [reflexivity|]. cbn [map fst snd]. rewrite IH. reflexivity. Qed.
Lemma refers_nodup sfx m : NoDup (map fst m) -> NoDup (map fst (parseRefers true sfx m)).
Proof.
  intro N. unfold parseRefers. rewrite (map_fst_snd renameV1). unfold parseSubGroupSuffix. destruct sfx; [exact N|]. cbv zeta.
  apply sub_nodup. rewrite (map_fst_snd (fun c => snd (getIdentity c))). exact N.
Qed.
Lemma context_nodup e conf x : conf_map conf -> newContext e conf = Some x -> NoDup (map fst (xRefers x)).
Proof.
  intros M H. unfold newContext in H. do 10 (apply obind_some in H; destruct H as (? & ?E & H)). injection H as <-. cbn [xRefers].
  apply refers_nodup. unfold basicURLs in E4. apply obind_some in E4 as (us & E4 & E10). rewrite (basics_keys _ _ _ _ _ _ _ _ E10).
  apply (secs_nodup _ _ _ E4). unfold getSection, getData. change (s2b "motan-refer") with (x6d :: s2b "otan-refer"). cbv iota.
  unfold cget. destruct (aget ckey_eqb conf (KStr (x6d :: s2b "otan-refer"))) as [[]|] eqn:A; cbn [orNone map]; try constructor.
  apply (M (KStr (x6d :: s2b "otan-refer"))). apply (aget_In ckey_eqb ckey_eqb_spec). exact A.
Qed.

Lemma filters_fields ord ag env ext c : let u := cUrl (setFilters ord ag env ext c) in
  uProtocol u = uProtocol (cUrl c) /\ uHost u = uHost (cUrl c) /\ uPort u = uPort (cUrl c) /\ uPath u = uPath (cUrl c) /\ uGroup u = uGroup (cUrl c).
Proof. unfold setFilters. destruct (finalFilters _ _ _ _); repeat split. Qed.
Lemma first_of_nil a : first_of a [] = a.
Proof. destruct a; reflexivity. Qed.
Lemma conf_empty F u : confToURL F [] = Some u -> u = mkUrl [] [] 0 [] [] (Some []).
Proof. intro H. injection H as <-. reflexivity. Qed.
Lemma not_reserved_conf : ~ In (s2b "conf-id") reserved.
Proof. intros [H|[H|[H|[H|[H|[]]]]]]; discriminate H. Qed.
Lemma not_reserved_basic : ~ In (s2b "basicRefer") reserved.
Proof. intros [H|[H|[H|[H|[H|[]]]]]]; discriminate H. Qed.
Lemma section_nodup conf k : conf_map conf -> NoDup (map fst (section_of conf k)).
Proof.
  intro M. unfold section_of. destruct (aget ckey_eqb conf (KStr (s2b k))) as [[]|] eqn:A; try constructor.
  apply (M (KStr (s2b k))). apply (aget_In ckey_eqb ckey_eqb_spec). exact A.
Qed.
Lemma section_in_nodup conf k q info : conf_map conf -> aget ckey_eqb (section_of conf k) (KStr q) = Some (CMap info) -> NoDup (map fst info).
Proof.
  intros M A. unfold section_of in A. destruct (aget ckey_eqb conf (KStr (s2b k))) as [[]|] eqn:A1; try discriminate A.
  apply (aget_In ckey_eqb ckey_eqb_spec) in A1, A. exact (proj2 (M _ _ A1) _ _ A).
Qed.
Lemma refer_none e conf x k : newContext e conf = Some x -> eSubSuffix e = [] -> refer_info conf k = None -> aget bs_eqb (xRefers x) k = None.
Proof.
  intros H S0 R. unfold newContext in H. do 10 (apply obind_some in H; destruct H as (? & ?E & H)). injection H as <-. cbn [xRefers].
  rewrite (rename_aget _ _ _ S0). unfold basicURLs in E4. apply obind_some in E4 as (us & E4 & E10). rewrite (basics_aget _ _ _ _ _ _ _ _ E10).
  unfold sectionURLs in E4. rewrite section_ne in E4 by discriminate. rewrite (secs_aget _ _ _ E4). unfold refer_info in R.
  destruct (aget ckey_eqb (section_of conf "motan-refer") (KStr k)) as [[]|]; try reflexivity. discriminate R.
Qed.
Lemma refer_some e calls conf x k info : conf_map conf -> newContext e conf = Some x -> eSubSuffix e = [] ->
  (forall l, Permutation (eOrd e l) l) -> eExt e = fold_left addRelevantFilter calls [] ->
  refer_info conf k = Some info -> exists c, aget bs_eqb (xRefers x) k = Some c /\ refer_is e calls conf k info (cUrl c).
Proof.
  intros M H S0 Ho He R. unfold newContext in H. do 10 (apply obind_some in H; destruct H as (? & ?E & H)). injection H as <-. cbn [xRefers].
  rename x1 into agent, x4 into basics, x5 into refers. unfold basicURLs in E4. apply obind_some in E4 as (us & E4 & E10).
  unfold sectionURLs in E4, E3. unfold hostURL in E0. rewrite section_ne in E4, E3, E0 by discriminate.
  unfold refer_info in R. destruct (aget ckey_eqb (section_of conf "motan-refer") (KStr k)) as [[]|] eqn:A; try discriminate R. injection R as ->.
  destruct (secs_some _ _ _ _ _ E4 A) as [u U].
  pose proof (@section_fields (eFloat e) _ _ (section_in_nodup _ _ _ _ M A) U) as (P1 & P2 & P3 & P4 & P5 & P6).
  assert (V : forall p, ~ In p reserved -> param u p = said e info p) by (intros p N; rewrite (P6 p N); reflexivity).
  (* the url with the basic section *)
  assert (D : exists n, deriveURL basics (s2b "basicRefer") (named u k) = Some n /\
    let b := basic_info e conf info in
    uProtocol (cUrl n) = first_of (text_field info "protocol") (text_field b "protocol") /\
    uHost (cUrl n) = first_of (text_field info "host") (text_field b "host") /\
    uPort (cUrl n) = (if Z.eqb (int_field info "port") 0 then int_field b "port" else int_field info "port") /\
    uPath (cUrl n) = first_of (text_field info "path") (text_field b "path") /\
    uGroup (cUrl n) = first_of (text_field info "group") (text_field b "group") /\
    forall p, ~ In p reserved -> param (cUrl n) p = if bs_eqb p (s2b "conf-id") then Some k else match said e info p with Some v => Some v | None => said e b p end).
  { assert (Q : str_or (cUrl (named u k)) (s2b "basicRefer") [] = said_or e info (s2b "basicRefer")).
    { unfold str_or, said_or. rewrite named_param. change (bs_eqb (s2b "basicRefer") (s2b "conf-id")) with false. cbv iota. rewrite (V _ not_reserved_basic).
      destruct (said e info (s2b "basicRefer")) as [[|]|]; reflexivity. }
    destruct (aget bs_eqb basics (said_or e info (s2b "basicRefer"))) as [b|] eqn:B.
    - destruct (said_or e info (s2b "basicRefer")) as [|y t] eqn:Y.
      + destruct (derive_plain basics (s2b "basicRefer") (named u k) (or_introl Q)) as (n & D & En).
        exists n. split; [exact D|]. cbv zeta. unfold basic_info. rewrite Y, En. change (cUrl (named u k)) with (withParams u (pset (uParams u) (s2b "conf-id") k)). cbn [uProtocol uHost uPort uPath uGroup withParams].
        rewrite P1, P2, P3, P4, P5. change (text_field [] "protocol") with (@nil byte). change (text_field [] "host") with (@nil byte). change (text_field [] "path") with (@nil byte). change (text_field [] "group") with (@nil byte). rewrite !first_of_nil.
        repeat (split; [reflexivity|]). split; [destruct (Z.eqb_spec (int_field info "port") 0) as [->|]; reflexivity|]. repeat (split; [reflexivity|]).
        intros p N. change (withParams u (pset (uParams u) (s2b "conf-id") k)) with (cUrl (named u k)). rewrite named_param, (V p N). destruct (bs_eqb p _); [reflexivity|]. destruct (said e info p); reflexivity.
      + assert (Qn : str_or (cUrl (named u k)) (s2b "basicRefer") [] <> []) by (rewrite Q; discriminate).
        assert (Bn : aget bs_eqb basics (str_or (cUrl (named u k)) (s2b "basicRefer") []) = Some b) by (rewrite Q; exact B).
        destruct (derive_basic basics (s2b "basicRefer") (named u k) (named_nodup _ _ (conf_nodup _ _ _ U)) Qn Bn) as (n & D & D1 & D2 & D3 & D4 & D5 & D6).
        exists n. split; [exact D|]. cbv zeta. unfold basic_info. rewrite Y.
        pose proof (secs_aget _ _ _ E3 (y :: t)) as BB. rewrite B in BB.
        destruct (aget ckey_eqb (section_of conf "motan-basicRefer") (KStr (y :: t))) as [[]|] eqn:BA; try discriminate BB.
        destruct (confToURL (eFloat e) m) as [ub|] eqn:UB; [|discriminate BB]. injection BB as ->.
        pose proof (@section_fields (eFloat e) _ _ (section_in_nodup _ _ _ _ M BA) UB) as (B1 & B2 & B3 & B4 & B5 & B6).
        change (cUrl (named u k)) with (withParams u (pset (uParams u) (s2b "conf-id") k)) in D1, D2, D3, D4, D5.
        change (fresh (withParams ub (pset (uParams ub) (s2b "conf-id") (y :: t)))) with (named ub (y :: t)) in *.
        change (cUrl (named ub (y :: t))) with (withParams ub (pset (uParams ub) (s2b "conf-id") (y :: t))) in D1, D2, D3, D4, D5.
        cbn [uProtocol uHost uPort uPath uGroup withParams] in D1, D2, D3, D4, D5.
        rewrite D1, D2, D3, D4, D5, P1, P2, P3, P4, P5, B1, B2, B3, B4, B5. repeat (split; [reflexivity|]).
        intros p N. rewrite D6, !named_param, (V p N), (B6 p N). destruct (bs_eqb p _); [reflexivity|]. destruct (said e info p); reflexivity.
    - destruct (derive_plain basics (s2b "basicRefer") (named u k)) as (n & D & En); [right; rewrite Q; exact B|].
      assert (BI : basic_info e conf info = []).
      { unfold basic_info. destruct (said_or e info (s2b "basicRefer")) as [|y t]; [reflexivity|]. pose proof (secs_aget _ _ _ E3 (y :: t)) as BB. rewrite B in BB.
        destruct (aget ckey_eqb (section_of conf "motan-basicRefer") (KStr (y :: t))) as [[]|] eqn:BA; try reflexivity.
        destruct (secs_some _ _ _ _ _ E3 BA) as [ub UB]. rewrite UB in BB. discriminate BB. }
      exists n. split; [exact D|]. cbv zeta. rewrite BI, En. change (cUrl (named u k)) with (withParams u (pset (uParams u) (s2b "conf-id") k)). cbn [uProtocol uHost uPort uPath uGroup withParams].
      rewrite P1, P2, P3, P4, P5. change (text_field [] "protocol") with (@nil byte). change (text_field [] "host") with (@nil byte). change (text_field [] "path") with (@nil byte). change (text_field [] "group") with (@nil byte). rewrite !first_of_nil.
      repeat (split; [reflexivity|]). split; [destruct (Z.eqb_spec (int_field info "port") 0) as [->|]; reflexivity|]. repeat (split; [reflexivity|]).
      intros p N. change (withParams u (pset (uParams u) (s2b "conf-id") k)) with (cUrl (named u k)). rewrite named_param, (V p N). destruct (bs_eqb p _); [reflexivity|]. destruct (said e info p); reflexivity. }
  destruct D as (n & D & D1 & D2 & D3 & D4 & D5 & D6).
  rewrite (rename_aget _ _ _ S0), (basics_aget _ _ _ _ _ _ _ _ E10), (secs_aget _ _ _ E4), A, U. cbn [option_map]. fold (named u k). rewrite D. cbn [option_map].
  eexists. split; [reflexivity|]. set (c := setFilters (eOrd e) (Some agent) (eFilters e) (eExt e) n).
  assert (RN : uProtocol (cUrl (renameV1 c)) = modern (uProtocol (cUrl c)) /\ uHost (cUrl (renameV1 c)) = uHost (cUrl c) /\ uPort (cUrl (renameV1 c)) = uPort (cUrl c) /\
    uPath (cUrl (renameV1 c)) = uPath (cUrl c) /\ uGroup (cUrl (renameV1 c)) = uGroup (cUrl c) /\ forall p, param (cUrl (renameV1 c)) p = param (cUrl c) p).
  { unfold renameV1, modern. destruct (bs_eqb (uProtocol (cUrl c)) (s2b "motanV1Compatible")); repeat split. }
  destruct RN as (R1 & R2 & R3 & R4 & R5 & R6).
  pose proof (filters_fields (eOrd e) (Some agent) (eFilters e) (eExt e) n) as (F1 & F2 & F3 & F4 & F5). cbv zeta in F1, F2, F3, F4, F5. fold c in F1, F2, F3, F4, F5.
  unfold refer_is. cbv zeta. rewrite R1, R2, R3, R4, R5, F1, F2, F3, F4, F5, D1, D2, D3, D4, D5. repeat (split; [reflexivity|]). split.
  - intros p N NF. rewrite R6. unfold c. rewrite filters_rest by exact NF. apply D6. exact N.
  - exists agent, (cUrl n). split; [|split].
    + intros p N. pose proof (@section_fields (eFloat e) _ _ (section_nodup _ "motan-agent" M) E0) as (_ & _ & _ & _ & _ & G). unfold text. rewrite (G p N). reflexivity.
    + intros p N. apply D6. exact N.
    + intro f. unfold text at 1. rewrite R6. change (match param (cUrl c) (s2b "filter") with Some v => v | None => [] end) with (text (cUrl c) (s2b "filter")).
      unfold c. rewrite He. apply filters_ok. exact Ho.
Qed.
