(* HttpProps.v: C40 choice of http locations and rewriting, C64 headers of converted requests, C65 forms. *)
From Verif Require Import Base GoStrings GoStrings2 HttpModel HttpSpec HttpProofs.

(* ------------------------------------------------------------ C40 *)

(* Pick returns the location nginx would choose and nothing when there is none. *)
Theorem C40_pick : forall K ls path query qget rw,
  match pick (newLocationMatcher K ls) path query qget rw with
  | Some (up, p) => exists l, nginx_choice K ls path l /\ up = l_up l /\ p = determinePath (compileRules K (l_rules l)) path query qget rw
  | None => forall l, ~ nginx_choice K ls path l
  end.
Proof. exact pick_choice. Qed.
Print Assumptions C40_pick.

(* There is at most one choice, so "the" location is well defined. *)
Theorem C40_unique : forall K ls path l1 l2, nginx_choice K ls path l1 -> nginx_choice K ls path l2 -> l1 = l2.
Proof. exact choice_unique. Qed.
Print Assumptions C40_unique.

(* Without rewriting the path is returned as it is; with rewriting the first rule that applies decides. *)
Theorem C40_rewrite : forall rs path query qget,
  determinePath rs path query qget false = path /\
  ((exists r p, first_such (fun r => exists p, rule_gives r path query qget p) rs r /\ rule_gives r path query qget p /\
      determinePath rs path query qget true = p) \/
   (forall r p, In r rs -> ~ rule_gives r path query qget p) /\ determinePath rs path query qget true = path).
Proof. intros. split; [reflexivity|]. apply firstRewrite_spec. Qed.
Print Assumptions C40_rewrite.

(* The text of a rule: four fields separated by white space, "!" for a negated condition. *)
Theorem C40_rule_text : forall K f0 w1 f1 w2 f2 w3 f3,
  f0 <> [] -> f1 <> [] -> f2 <> [] -> spaceless f0 -> spaceless f1 -> spaceless f2 -> spaceless f3 -> blank w1 -> blank w2 -> blank w3 ->
  newRewriteRule K (f0 ++ (w1 ++ f1) ++ (w2 ++ f2) ++ (w3 ++ f3)) =
  let neg := match f0 with c :: _ => byte_eqb c x21 | [] => false end in
  match condTypeOf (if neg then tl f0 else f0), K f2 with
  | Some CExact, Some p => Some (mkRule neg CExact f1 None p f3)
  | Some CStart, Some p => Some (mkRule neg CStart f1 None p f3)
  | Some CRegexp, Some p => match K f1 with Some c => Some (mkRule neg CRegexp f1 (Some c) p f3) | None => None end
  | Some CRegexpVar, Some p => match K f1 with Some c => Some (mkRule neg CRegexpVar f1 (Some c) p f3) | None => None end
  | Some CIRegexp, Some p => match K (s2b "(?i)" ++ f1) with Some c => Some (mkRule neg CIRegexp f1 (Some c) p f3) | None => None end
  | _, _ => None
  end.
Proof.
  intros K f0 w1 f1 w2 f2 w3 f3 N0 N1 N2 S0 S1 S2 S3 B1 B2 B3. unfold newRewriteRule.
  replace (f0 ++ (w1 ++ f1) ++ (w2 ++ f2) ++ w3 ++ f3) with (f0 ++ text_of [(w1, f1); (w2, f2); (w3, f3)])
    by (unfold text_of; cbn [flat_map fst snd]; rewrite app_nil_r; reflexivity).
  rewrite patternSplit_fields; [|exact S0| |destruct f0; [contradiction|discriminate]].
  - cbn [map snd]. cbv zeta.
    assert (E : hasPrefix f0 (s2b "!") = match f0 with c :: _ => byte_eqb c x21 | [] => false end).
    { destruct f0 as [|c f0]; [contradiction|]. change (s2b "!") with [x21]. cbn [hasPrefix]. destruct (byte_eqb c x21) eqn:E; [destruct f0; reflexivity|]. cbn. reflexivity. }
    rewrite E. assert (T : skipn 1 f0 = tl f0) by (destruct f0; reflexivity). rewrite T.
    destruct (condTypeOf _) as [[]|]; destruct (K f2); try (destruct (K f1); reflexivity); try (destruct (K (_ ++ f1)); reflexivity); reflexivity.
  - cbn. repeat split; try apply B1; try apply B2; try apply B3; auto; intro H; congruence.
Qed.
Print Assumptions C40_rule_text.

(* The first field of a rule is one of five words. *)
Theorem C40_rule_words : forall w t, condTypeOf w = Some t <-> In (w, t) condition_words.
Proof.
  intros w t. unfold condTypeOf, condition_words. split.
  - intro H. repeat match type of H with (if bs_eqb w ?k then _ else _) = _ => let E := fresh "E" in destruct (bs_eqb w k) eqn:E; [apply bs_eqb_spec in E; injection H as <-; rewrite E; cbn; tauto|] end.
    discriminate H.
  - intro H. cbn [In] in H. repeat (destruct H as [H|H]; [injection H as <- <-; reflexivity|]). destruct H.
Qed.
Print Assumptions C40_rule_words.

(* Variables of a path are replaced by the values of the query. *)
Theorem C40_variables : forall qget query ps, Forall piece_ok ps -> (forall k, ~ In x7b (qget k) /\ ~ In x7d (qget k)) -> query <> [] ->
  rewriteVar CRegexpVar (concat (map piece_text ps)) query qget = concat (map (piece_value qget) ps).
Proof. exact rewriteVar_pieces. Qed.
Print Assumptions C40_variables.

(* Without a query, and by rules of the other kinds, the path is left as it is. *)
Theorem C40_no_variables : forall t uri query qget, query = [] \/ t <> CRegexpVar -> rewriteVar t uri query qget = uri.
Proof. intros t uri query qget [->|H]; destruct t; try reflexivity. contradiction. Qed.
Print Assumptions C40_no_variables.

(* The query is asked for exactly when some rule has variables. *)
Theorem C40_query_needed : forall K ls, m_query (newLocationMatcher K ls) = true <->
  exists l text r, In l ls /\ In text (l_rules l) /\ text <> [] /\ newRewriteRule K text = Some r /\ r_type r = CRegexpVar.
Proof.
  intros K ls. unfold newLocationMatcher.
  assert (G : forall m, m_query (fold_left (addLocation K) ls m) = m_query m || existsb (fun l => existsb isVarRule (compileRules K (l_rules l))) ls).
  { induction ls as [|l ls IH]; intro m; cbn [fold_left existsb]; [rewrite orb_false_r; reflexivity|]. rewrite IH.
    replace (m_query (addLocation K m l)) with (m_query m || existsb isVarRule (compileRules K (l_rules l))); [rewrite orb_assoc; reflexivity|].
    unfold addLocation. cbv zeta. destruct (matchTypeOf _) as [[]|]; try reflexivity; destruct (K _); reflexivity. }
  rewrite G. cbn [m_query orb]. rewrite existsb_exists. split.
  - intros (l & Hl & H). apply existsb_exists in H as (r & Hr & Hv). unfold compileRules in Hr. apply in_flat_map in Hr as (t & Ht & Hr).
    destruct (bs_empty t) eqn:E; [destruct Hr|]. destruct (newRewriteRule K t) as [r'|] eqn:En; [|destruct Hr]. destruct Hr as [<-|[]].
    exists l, t, r'. repeat split; auto. { intros ->. discriminate E. } unfold isVarRule in Hv. destruct (r_type r'); try discriminate Hv. reflexivity.
  - intros (l & t & r & Hl & Ht & Hne & Hr & Hv). exists l. split; [exact Hl|]. apply existsb_exists. exists r. split.
    + unfold compileRules. apply in_flat_map. exists t. split; [exact Ht|]. destruct (bs_empty t) eqn:E; [apply bs_empty_spec in E; contradiction|]. rewrite Hr. left. reflexivity.
    + unfold isVarRule. rewrite Hv. reflexivity.
Qed.
Print Assumptions C40_query_needed.

(* The cluster serves a path only for the upstream of its location, if that is known. *)
Theorem C40_can_serve : forall K ls inGroup ups uri s, canServeUri (newLocationMatcher K ls) inGroup ups uri = Some s ->
  s <> [] /\ (exists l, nginx_choice K ls uri l /\ s = l_up l) /\
  match inGroup with None => In s ups | Some f => f s = true end.
Proof.
  intros K ls inGroup ups uri s. unfold canServeUri, uriToServiceName. pose proof (pick_choice K ls uri [] (fun _ => []) false) as P.
  destruct (pick _ _ _ _ _) as [[up p]|]; [|intro H; discriminate H]. destruct P as (l & H1 & -> & _).
  destruct (bs_empty (l_up l)) eqn:E; [intro H; discriminate H|].
  assert (NE : l_up l <> []) by (intro Hx; apply bs_empty_spec in Hx; congruence).
  destruct inGroup as [f|].
  - destruct (f (l_up l)) eqn:F; [|intro H; discriminate H]. intro H. injection H as <-. split; [exact NE|]. eauto.
  - destruct (existsb _ ups) eqn:F; [|intro H; discriminate H]. intro H. injection H as <-. split; [exact NE|]. split; [eauto|].
    apply (existsb_eqb_In bs_eqb bs_eqb_spec). exact F.
Qed.
Print Assumptions C40_can_serve.

(* Finding: the catch-all prefix, the empty string, is never chosen. *)
Theorem C40_empty_prefix_refuted : forall K up rules path query qget rw,
  pick (newLocationMatcher K [mkLoc up [] (s2b "start") rules]) path query qget rw = None.
Proof. intros. unfold pick, newLocationMatcher. cbn [fold_left]. unfold addLocation. cbn. destruct path; reflexivity. Qed.
Print Assumptions C40_empty_prefix_refuted.

(* Finding: a rule with white space at its end is refused. *)
Theorem C40_trailing_space_refuted : forall K,
  newRewriteRule K (s2b "start /a b c ") = None /\ patternSplit (s2b "start /a b c ") = map s2b ["start"; "/a"; "b"; "c"; ""]%string.
Proof. intro K. split; vm_compute; reflexivity. Qed.
Print Assumptions C40_trailing_space_refuted.

(* Finding: a value taken from the query is itself searched for variables that come later in the path. *)
Theorem C40_value_rescanned_refuted :
  let qget k := if bs_eqb k (s2b "a") then s2b "{b}" else s2b "secret" in
  rewriteVar CRegexpVar (s2b "/{a}/{b}") (s2b "q") qget = s2b "/secret/secret" /\
  rewriteVar CRegexpVar (s2b "/{b}/{a}") (s2b "q") qget = s2b "/secret/{b}".
Proof. split; vm_compute; reflexivity. Qed.
Print Assumptions C40_value_rescanned_refuted.

(* a compiler of "regular expressions" that match by prefix, and replace the whole path *)
Definition demoK : compiler := fun p => Some (mkRx (fun s => hasPrefix s p) (fun t s => if hasPrefix s p then Some t else None)).
Definition demoLs : list location :=
  [mkLoc (s2b "root") (s2b "/") [] []; mkLoc (s2b "api") (s2b "/api") (s2b "start") [s2b "start /api /api/old /api/{v}"; s2b "!exact /x / /y"];
   mkLoc (s2b "re") (s2b "/re") (s2b "regexp") []; mkLoc (s2b "ex") (s2b "/re/x") (s2b "exact") []; mkLoc (s2b "bad") (s2b "/re/x") (s2b "what") []].
Example C40_example :
  pick (newLocationMatcher demoK demoLs) (s2b "/re/x") [] (fun _ => []) true = Some (s2b "ex", s2b "/re/x") /\
  pick (newLocationMatcher demoK demoLs) (s2b "/re/y") [] (fun _ => []) true = Some (s2b "re", s2b "/re/y") /\
  pick (newLocationMatcher demoK demoLs) (s2b "/api/z") [] (fun _ => []) true = Some (s2b "api", s2b "/y") /\
  pick (newLocationMatcher demoK demoLs) (s2b "/q") [] (fun _ => []) true = Some (s2b "root", s2b "/q") /\
  nginx_choice demoK demoLs (s2b "/re/x") (mkLoc (s2b "ex") (s2b "/re/x") (s2b "exact") []).
Proof.
  repeat split; try (vm_compute; reflexivity). left.
  exists (firstn 3 demoLs), [mkLoc (s2b "bad") (s2b "/re/x") (s2b "what") []]. split; [reflexivity|]. split; [split; reflexivity|].
  intros y [<-|[<-|[<-|[]]]] [H _]; discriminate H.
Qed.
Example C40_variables_example :
  Forall piece_ok [Lit (s2b "/u/"); Var (s2b "id"); Lit (s2b "/"); Var (s2b "id")] /\
  rewriteVar CRegexpVar (s2b "/u/{id}/{id}") (s2b "id=7") (fun k => if bs_eqb k (s2b "id") then s2b "7" else []) = s2b "/u/7/7".
Proof.
  split; [|vm_compute; reflexivity]. repeat constructor; try discriminate; cbn; intros H; repeat (destruct H as [H|H]; [discriminate H|]); destruct H.
Qed.

(* ------------------------------------------------------------ C64 *)

(* Each attachment makes at most one call, with its own value. *)
Theorem C64_calls : forall att args dm r, toHttp att args dm = HOk r ->
  exists own, h_calls r = flat_map (fun kv => opt_list (headerCall kv)) att ++ own /\
  (own = [] \/ own = [HContentType (s2b "application/x-www-form-urlencoded")]) /\
  forall k v c, headerCall (k, v) = Some c -> match c with HSet _ w | HHost w | HContentType w => w = v end.
Proof.
  intros att args dm r H.
  assert (V : forall k v c, headerCall (k, v) = Some c -> match c with HSet _ w | HHost w | HContentType w => w = v end).
  { intros k v c Hc. destruct (headerCall_cases k v) as [(m & _ & E)|(_ & [(_ & E)|(_ & [E|[E|[(m & _ & E)|E]]])])]; rewrite Hc in E;
    try discriminate E; injection E as ->; reflexivity. }
  unfold toHttp in H. cbv zeta in H.
  destruct args as [|[|m|s|b|] [|? ?]]; try discriminate H;
    try (injection H as <-; exists []; cbn [h_calls]; rewrite app_nil_r; auto; fail).
  destruct (bs_eqb _ (s2b "GET")); [injection H as <-; exists []; cbn [h_calls]; rewrite app_nil_r; auto|].
  destruct (formBody m); injection H as <-; cbn [h_calls]; [exists []; rewrite app_nil_r; auto|eexists; split; [reflexivity|]; auto].
Qed.
Print Assumptions C64_calls.

(* How names are chosen. *)
Theorem C64_names : forall v,
  (forall k n, In (k, n) motan_names -> headerCall (k, v) = Some (HSet n v)) /\
  (forall k, In k unsent_names -> headerCall (k, v) = None) /\
  (forall k, ~ In k (map fst motan_names) -> ~ In k unsent_names -> k <> s2b "Content-Type" -> k <> s2b "content-type" ->
     (forall n, k <> s2b "http_" ++ n) -> headerCall (k, v) = Some (HSet k v)) /\
  (forall n, n <> s2b "host" -> n <> s2b "Host" -> headerCall (s2b "http_" ++ n, v) = Some (HSet n v)) /\
  headerCall (s2b "http_Host", v) = Some (HHost v) /\ headerCall (s2b "http_host", v) = Some (HHost v) /\
  headerCall (s2b "Content-Type", v) = Some (HContentType v) /\ headerCall (s2b "content-type", v) = Some (HContentType v).
Proof.
  intro v. change motan_names with innerNames. change unsent_names with privateNames. change (s2b "http_") with HeaderPrefix.
  split; [|split; [|split; [|split; [|repeat split]]]].
  - intros k n H. cbn [innerNames In] in H. repeat (destruct H as [H|H]; [injection H as <- <-; vm_compute; reflexivity|]). destruct H.
  - intros k H. cbn [privateNames In] in H. repeat (destruct H as [<-|H]; [vm_compute; reflexivity|]). destruct H.
  - intros k H1 H2 H3 H4 H5. unfold headerCall. rewrite (proj2 (aget_None bs_eqb bs_eqb_spec innerNames k) H1).
    destruct (existsb (bs_eqb k) privateNames) eqn:E; [apply (existsb_eqb_In bs_eqb bs_eqb_spec) in E; contradiction|].
    rewrite (proj2 (bs_eqb_neq _ _) (H5 _)), (proj2 (bs_eqb_neq _ _) (H5 _)), (proj2 (bs_eqb_neq _ _) H3), (proj2 (bs_eqb_neq _ _) H4). cbn [orb].
    destruct (hasPrefix k HeaderPrefix) eqn:P; [|reflexivity]. apply hasPrefix_spec in P as (n & ->). destruct (H5 n). reflexivity.
  - intros n H1 H2. unfold headerCall.
    rewrite (proj2 (aget_None bs_eqb bs_eqb_spec innerNames (HeaderPrefix ++ n))).
    2:{ cbn [innerNames map fst In]. intro H. repeat (destruct H as [H|H]; [discriminate H|]). destruct H. }
    replace (existsb (bs_eqb (HeaderPrefix ++ n)) privateNames) with false.
    2:{ symmetry. destruct (existsb (bs_eqb (HeaderPrefix ++ n)) privateNames) eqn:E; [|reflexivity]. apply (existsb_eqb_In bs_eqb bs_eqb_spec) in E.
        cbn [privateNames In] in E. repeat (destruct E as [E|E]; [discriminate E|]). destruct E. }
    rewrite (proj2 (bs_eqb_neq _ _) (fun H => H1 (app_inv_head _ _ _ H))), (proj2 (bs_eqb_neq _ _) (fun H => H2 (app_inv_head _ _ _ H))). cbn [orb].
    rewrite (proj2 (bs_eqb_neq (HeaderPrefix ++ n) (s2b "Content-Type"))) by discriminate.
    rewrite (proj2 (bs_eqb_neq (HeaderPrefix ++ n) (s2b "content-type"))) by discriminate. cbn [orb].
    replace (hasPrefix (HeaderPrefix ++ n) HeaderPrefix) with true by (symmetry; apply hasPrefix_spec; exists n; reflexivity).
    rewrite skipn_app_exact. reflexivity.
Qed.
Print Assumptions C64_names.

(* Two attachments end in the same header only if one is the other with the prefix, or one is a MOTAN- header. *)
Theorem C64_clashes : forall k1 v1 k2 v2 n, headerCall (k1, v1) = Some (HSet n v1) -> headerCall (k2, v2) = Some (HSet n v2) ->
  k1 = k2 \/ (k1 = n /\ k2 = s2b "http_" ++ n) \/ (k2 = n /\ k1 = s2b "http_" ++ n) \/ In n (map snd motan_names).
Proof. exact header_clash. Qed.
Print Assumptions C64_clashes.

(* Which bytes may stand in the name of a variable; how a byte is written in a form. *)
Theorem C64_var_char : forall c, isVarChar c = true <-> In c (letters ++ s2b "_-").
Proof.
  intro c. assert (E : isVarChar c = existsb (byte_eqb c) (letters ++ s2b "_-")) by (destruct c; reflexivity).
  rewrite E. apply (existsb_eqb_In byte_eqb byte_eqb_spec).
Qed.
Print Assumptions C64_var_char.
Theorem C64_escape : forall c, (In c (letters ++ s2b "-_.~") -> queryEscape [c] = [c]) /\ queryEscape (s2b " ") = s2b "+" /\
  (~ In c (letters ++ s2b "-_.~ ") -> exists h l, queryEscape [c] = [x25; h; l] /\ In h (s2b "0123456789ABCDEF") /\ In l (s2b "0123456789ABCDEF") /\
     exists m n, unhex h = Some m /\ unhex l = Some n /\ b2n c = (16 * m + n)%N).
Proof.
  intro c. split; [|split; [reflexivity|]].
  - intro H. apply (existsb_eqb_In byte_eqb byte_eqb_spec) in H. destruct c; try (vm_compute in H; discriminate H); reflexivity.
  - intro H. assert (B : existsb (byte_eqb c) (letters ++ s2b "-_.~ ") = false).
    { destruct (existsb (byte_eqb c) (letters ++ s2b "-_.~ ")) eqn:E; [|reflexivity]. apply (existsb_eqb_In byte_eqb byte_eqb_spec) in E. contradiction. }
    clear H. destruct c; try (vm_compute in B; discriminate B); clear B;
      (eexists; eexists; split; [vm_compute; reflexivity|]; split; [vm_compute; tauto|]; split; [vm_compute; tauto|]; do 2 eexists; split; [reflexivity|]; split; reflexivity).
Qed.
Print Assumptions C64_escape.

(* method, query string, and refusals *)
Theorem C64_rest : forall (att : list (bs * bs)) args (dm : bs),
  (toHttp att args dm = HManyArgs <-> 2 <= length args) /\ (toHttp att args dm = HBadArg <-> args = [ArgOther]) /\
  (forall r, toHttp att args dm = HOk r ->
     h_method r = (match aget bs_eqb att (s2b "HTTP_Method") with Some (c :: m) => c :: m | _ => dm end) /\
     h_query r = (match aget bs_eqb att (s2b "HTTP_QueryString") with Some (c :: q) => Some (c :: q) | _ => None end) /\
     (forall b, args = [ArgStr b] \/ args = [ArgBytes b] -> h_body r = Some b)).
Proof.
  intros att args dm. unfold toHttp. cbv zeta. split; [|split].
  - split.
    + intro H. destruct args as [|a [|a' args]]; [discriminate H| |cbn; lia]. destruct a; try discriminate H.
      destruct (bs_eqb _ (s2b "GET")); [discriminate H|]. destruct (formBody m); discriminate H.
    + intro H. destruct args as [|a [|a' args]]; cbn in H; [lia|lia|]. destruct a; reflexivity.
  - split.
    + intro H. destruct args as [|a [|a' args]]; [discriminate H| |destruct a; discriminate H]. destruct a; try discriminate H; [|reflexivity].
      destruct (bs_eqb _ (s2b "GET")); [discriminate H|]. destruct (formBody m); discriminate H.
    + intros ->. reflexivity.
  - intros r H.
    assert (M : (if bs_empty (loadA att (s2b "HTTP_Method")) then dm else loadA att (s2b "HTTP_Method")) =
                match aget bs_eqb att (s2b "HTTP_Method") with Some (c :: m) => c :: m | _ => dm end).
    { unfold loadA. destruct (aget bs_eqb att (s2b "HTTP_Method")) as [[|c m]|]; reflexivity. }
    assert (Q : (if bs_empty (loadA att (s2b "HTTP_QueryString")) then None else Some (loadA att (s2b "HTTP_QueryString"))) =
                match aget bs_eqb att (s2b "HTTP_QueryString") with Some (c :: m) => Some (c :: m) | _ => None end).
    { unfold loadA. destruct (aget bs_eqb att (s2b "HTTP_QueryString")) as [[|c m]|]; reflexivity. }
    rewrite <- M, <- Q.
    destruct args as [|[|m|s|b|] [|? ?]]; try discriminate H;
      try (injection H as <-; cbn [h_method h_query h_body]; repeat split; intros b' [E|E]; first [discriminate E|injection E as <-; reflexivity]).
    destruct (bs_eqb _ (s2b "GET")); [injection H as <-; cbn [h_method h_query h_body]; repeat split; intros b' [E|E]; discriminate E|].
    destruct (formBody m); injection H as <-; cbn [h_method h_query h_body]; repeat split; intros b' [E|E]; discriminate E.
Qed.
Print Assumptions C64_rest.

(* ------------------------------------------------------------ C65 *)

(* The body made of a map argument is a form that reads back as the map. *)
Theorem C65_form : forall (att m : list (bs * bs)) (dm : bs), m <> [] -> Forall (fun kv => plain_name (fst kv)) m ->
  (forall method : bs, method = (match aget bs_eqb att (s2b "HTTP_Method") with Some (c :: m) => c :: m | _ => dm end) -> method <> s2b "GET") ->
  exists r body, toHttp att [ArgMap m] dm = HOk r /\ h_body r = Some body /\ parse_form body = Some m.
Proof.
  intros att m dm Hne Hm Hg. unfold toHttp. cbv zeta.
  replace (bs_eqb _ (s2b "GET")) with false.
  - destruct m as [|kv m]; [contradiction|]. destruct (form_roundtrip kv m Hm) as (body & -> & H). eexists. exists body. split; [reflexivity|]. auto.
  - symmetry. apply bs_eqb_neq. unfold loadA. clear - Hg. destruct (aget bs_eqb att (s2b "HTTP_Method")) as [[|c x]|]; cbn [bs_empty]; apply Hg; reflexivity.
Qed.
Print Assumptions C65_form.

(* Finding: names are not escaped, so a name with '&' or '=' is read as something else. *)
Theorem C65_names_refuted : exists m r body, NoDup (map fst m) /\ toHttp [] [ArgMap m] (s2b "POST") = HOk r /\ h_body r = Some body /\
  parse_form body = Some [(s2b "a", s2b "1"); (s2b "admin", s2b "x")] /\ m = [(s2b "a=1&admin", s2b "x")].
Proof. do 3 eexists. split; [|split; [|split; [|split; [|reflexivity]]]]; [repeat constructor; intros []|vm_compute; reflexivity|reflexivity|vm_compute; reflexivity]. Qed.
Print Assumptions C65_names_refuted.

Example C65_example : toHttp [(s2b "M_g", s2b "grp"); (s2b "http_X-Id", s2b "7"); (s2b "HTTP_Method", s2b "PUT")]
    [ArgMap [(s2b "q", s2b "a b&c"); (s2b "n", s2b "1+1")]] (s2b "GET") =
  HOk (mkHttp (s2b "PUT") None [HSet (s2b "MOTAN-g") (s2b "grp"); HSet (s2b "X-Id") (s2b "7"); HContentType (s2b "application/x-www-form-urlencoded")] []
         (Some (s2b "q=a+b%26c&n=1%2B1"))).
Proof. vm_compute. reflexivity. Qed.
