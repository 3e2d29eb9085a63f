(* HprovProps.v: C86. *)
From Verif Require Import Base GoStrings GoStrings2 Strconv UrlModel HttpModel HttpSpec HttpProofs HprovModel HprovSpec HprovProofs.
From Coq Require Import Permutation.
Ltac Zify.zify_post_hook ::= idtac.

(* Every call makes at most one http request. *)
Theorem C86_once : forall spf ord newReq world hasXff rawHeader queryOf qget p q,
  length (fst (httpCall spf ord newReq world hasXff rawHeader queryOf qget p q)) <= 1 /\ length (fst (httpxCall spf ord world p q)) <= 1.
Proof. intros. split; [apply once_http|apply once_httpx]. Qed.
Print Assumptions C86_once.

(* A GET carries the request id and the arguments, mixed-in variables included, in its URL, where the receiver finds
   them as they were; so for both providers. *)
Theorem C86_get : forall spf ord newReq world hasXff rawHeader queryOf qget u sec sc mix mt q m rest,
  clear_section sec -> settings_of sec u (q_method q) sc -> simple_format (url_format u sc) ->
  q_args q = DOk (ArgMap m :: rest) -> NoDup (map fst m) -> any_order ord -> (forall k, In k (map fst m) \/ In k mix -> plain_arg k) ->
  (forall addr, stands_for (url_format u sc) (q_method q) addr -> ~ In x3f addr /\ ~ In x23 addr) ->
  http_method u sc q = s2b "GET" ->
  let p := newHprov u sec mix mt in
  let carried s := exists url hs l qs, s = SFormat (s2b "GET") url hs None /\ asked u sc q (s2b "GET") url qs /\
                     carries m mix (q_att q) l /\ parse_form (url_query url) = Some (id_pair q :: l) in
  (direct u q -> (forall a b, newReq a b = None) ->
     exists s, fst (httpCall spf ord newReq world hasXff rawHeader queryOf qget p q) = [s] /\ carried s) /\
  (exists s, fst (httpxCall spf ord world p q) = [s] /\ carried s).
Proof.
  intros spf ord newReq world hasXff rawHeader queryOf qget u sec sc mix mt q m rest C S F A N O P Q M p carried.
  assert (X : exists qs, buildQueryStr ord q (ArgMap m :: rest) mix = Some qs) by (eexists; reflexivity). destruct X as (qs & B).
  assert (G : forall addr hs, stands_for (url_format u sc) (q_method q) addr -> carried (SFormat (s2b "GET") (addr ++ s2b "?" ++ qs) hs None)).
  { intros addr hs St. destruct (Q addr St) as [Q1 Q2]. destruct (args_get ord q m mix rest addr O N P Q1 Q2) as (qs' & l & B' & Ca & Pa & _).
    rewrite B in B'. injection B' as <-. exists (addr ++ s2b "?" ++ qs), hs, l, qs. split; [reflexivity|]. split; [|auto].
    split; [symmetry; exact M|]. exists addr. split; [exact St|]. left. auto. }
  split.
  - intros D Nr. destruct (sends_http spf ord newReq world hasXff rawHeader queryOf qget u sec sc mix mt q _ qs C S F D A B Nr) as (addr & St & E).
    rewrite M in E. rewrite place_get in E. cbn [fst snd] in E. eexists. split; [exact E|]. apply G. exact St.
  - destruct (sends_httpx spf ord world u sec sc mix mt q _ qs C S F A B) as (addr & St & E).
    rewrite M in E. rewrite place_get in E. cbn [fst snd] in E. eexists. split; [exact E|]. apply G. exact St.
Qed.
Print Assumptions C86_get.

(* A POST carries them in its body, in some order. *)
Theorem C86_post : forall spf ord newReq world hasXff rawHeader queryOf qget u sec sc mix mt q m rest,
  clear_section sec -> settings_of sec u (q_method q) sc -> simple_format (url_format u sc) ->
  q_args q = DOk (ArgMap m :: rest) -> NoDup (map fst m) -> any_order ord -> (forall k, In k (map fst m) \/ In k mix -> plain_arg k) ->
  http_method u sc q = s2b "POST" ->
  let p := newHprov u sec mix mt in
  let carried s := exists url hs body l got, s = SFormat (s2b "POST") url hs (Some body) /\ asked u sc q (s2b "POST") url [] /\
                     carries m mix (q_att q) l /\ parse_form body = Some got /\ Permutation got (id_pair q :: l) /\
                     In (s2b "Content-Type", s2b "application/x-www-form-urlencoded") hs in
  (direct u q -> (forall a b, newReq a b = None) ->
     exists s, fst (httpCall spf ord newReq world hasXff rawHeader queryOf qget p q) = [s] /\ carried s) /\
  (exists s, fst (httpxCall spf ord world p q) = [s] /\ carried s).
Proof.
  intros spf ord newReq world hasXff rawHeader queryOf qget u sec sc mix mt q m rest C S F A N O P M p carried.
  assert (X : exists qs, buildQueryStr ord q (ArgMap m :: rest) mix = Some qs) by (eexists; reflexivity). destruct X as (qs & B).
  assert (G : forall addr hs, stands_for (url_format u sc) (q_method q) addr -> In (s2b "Content-Type", s2b "application/x-www-form-urlencoded") hs ->
    carried (SFormat (s2b "POST") addr hs (Some (encodeForm (parseQuery qs))))).
  { intros addr hs St Hc. destruct (args_get ord q m mix rest [] O N P (fun x => x) (fun x => x)) as (qs' & l & B' & Ca & _ & Pe & Pa).
    rewrite B in B'. injection B' as <-. exists addr, hs. do 2 eexists. exists (sortKV (id_pair q :: l)). split; [reflexivity|]. split; [|eauto].
    split; [symmetry; exact M|]. exists addr. split; [exact St|]. right. split; [discriminate|reflexivity]. }
  split.
  - intros D Nr. destruct (sends_http spf ord newReq world hasXff rawHeader queryOf qget u sec sc mix mt q _ qs C S F D A B Nr) as (addr & St & E).
    rewrite M in E. rewrite place_post in E. cbn [fst snd] in E. eexists. split; [exact E|]. apply G; [exact St|].
    unfold http_hs. destruct (bs_empty _); [apply in_or_app; left|]; left; reflexivity.
  - destruct (sends_httpx spf ord world u sec sc mix mt q _ qs C S F A B) as (addr & St & E).
    rewrite M in E. rewrite place_post in E. cbn [fst snd] in E. eexists. split; [exact E|]. apply G; [exact St|].
    unfold httpx_hs. change (bs_eqb (s2b "POST") (s2b "POST")) with true. destruct (existsb _ _); [|apply in_or_app; left]; left; reflexivity.
Qed.
Print Assumptions C86_post.

(* The attachments of the call go out as headers, and the client's address with them unless the call names one. *)
Theorem C86_headers : forall spf ord newReq world hasXff rawHeader queryOf qget p q m url hs body,
  In (SFormat m url hs body) (fst (httpCall spf ord newReq world hasXff rawHeader queryOf qget p q)) ->
  exists own more, hs = (s2b "Content-Type", s2b "application/x-www-form-urlencoded") :: own ++ more /\
    length own = length (q_att q) /\
    (forall i k v n, nth_error (q_att q) i = Some (k, v) -> sent_as k n -> nth_error own i = Some (n, v)) /\
    ((more = [] /\ exists n v, In (n, v) own /\ same_header n (s2b "X-Forwarded-For") /\ v <> []) \/
     (more = [(s2b "X-Forwarded-For", client_addr q)] /\
      forall a n v b, own = a ++ (n, v) :: b -> same_header n (s2b "X-Forwarded-For") ->
        (forall n' v', In (n', v') a -> ~ same_header n' (s2b "X-Forwarded-For")) -> v = [])).
Proof.
  intros spf ord newReq world hasXff rawHeader queryOf qget p q m url hs body H.
  assert (E : hs = http_hs q (clientIp (q_att q))).
  { unfold httpCall in H. destruct (boolOr _ false).
    - unfold doTransparent in H. destruct (q_pair q) as [e|[hb b]]; [destruct H|]. destruct (rewritePath _ _ _ _); [|destruct H]. destruct H as [H|[]]. discriminate H.
    - destruct (bs_empty (p_proxy p)).
      + unfold doFormat in H. destruct (q_args q); [destruct H|]. destruct (buildReqURL _ _ _ _ _) as [[? ?]|]; [|destruct H].
        destruct (buildQueryStr _ _ _ _); [|destruct H]. destruct (place _ _ _) as [? ?]. destruct (newReq _ _); [destruct H|].
        destruct H as [H|[]]. injection H as _ _ <- _. reflexivity.
      + unfold doProxy in H. destruct (q_args q); [destruct H|]. destruct (toHttp _ _ _); [|destruct H|destruct H].
        destruct (rewritePath _ _ _ _); [|destruct H]. destruct H as [H|[]]. discriminate H. }
  exists (renamed q). unfold http_hs in E. cbv zeta in E.
  set (f := fun h : bs * bs => bs_eqb (canonKey (fst h)) (canonKey XFF)) in *.
  assert (Hg : headerGet ((s2b "Content-Type", s2b "application/x-www-form-urlencoded") :: renamed q) XFF = match find f (renamed q) with Some h => snd h | None => [] end).
  { unfold headerGet. fold f. cbn [find]. replace (f (s2b "Content-Type", s2b "application/x-www-form-urlencoded")) with false by (vm_compute; reflexivity). reflexivity. }
  assert (Fs : forall n v, f (n, v) = true <-> same_header n (s2b "X-Forwarded-For")) by (intros n v; apply xff_canon).
  exists (if bs_empty (match find f (renamed q) with Some h => snd h | None => [] end) then [(XFF, clientIp (q_att q))] else []).
  rewrite Hg in E. split; [|split; [|split]].
  - rewrite E. destruct (bs_empty _); [reflexivity|]. rewrite app_nil_r. reflexivity.
  - unfold renamed. apply map_length.
  - intros i k v n Hi Hs. unfold renamed. rewrite nth_error_map, Hi. cbn [option_map fst snd]. rewrite (headerName_sent k n Hs). reflexivity.
  - destruct (find f (renamed q)) as [[n v]|] eqn:Fi.
    + destruct (find_some _ _ Fi) as [F1 F2]. destruct v as [|c v].
      * right. cbn [snd bs_empty]. split; [rewrite clientIp_addr; reflexivity|]. intros a n' v' b Ho Hs Hn.
        rewrite Ho in Fi. assert (find f (a ++ (n', v') :: b) = Some (n', v')) as F3.
        { clear Ho Fi. induction a as [|[n0 v0] a IH]; cbn [app find].
          - rewrite (proj2 (Fs n' v') Hs). reflexivity.
          - destruct (f (n0, v0)) eqn:E0; [exfalso; apply (Hn n0 v0); [left; reflexivity|apply (Fs n0 v0); exact E0]|].
            apply IH. intros n1 v1 Hi. apply Hn with v1. right. exact Hi. }
        rewrite F3 in Fi. injection Fi as _ ->. reflexivity.
      * left. cbn [snd bs_empty]. split; [reflexivity|]. exists n, (c :: v). split; [exact F1|]. split; [apply (Fs n (c :: v)); exact F2|discriminate].
    + right. cbn [bs_empty]. split; [rewrite clientIp_addr; reflexivity|]. intros a n v b Ho Hs _. exfalso.
      assert (K : f (n, v) = false) by (apply (find_none _ _ Fi); rewrite Ho; apply in_or_app; right; left; reflexivity).
      rewrite (proj2 (Fs n v) Hs) in K. discriminate K.
Qed.
Print Assumptions C86_headers.

(* What came back is what the call answers: a request that could not be made is an exception, a failing status is one
   only if the service asks for it, and otherwise the body is the value and the status an attachment. *)
Theorem C86_answer : forall spf ord newReq world hasXff rawHeader queryOf qget u sec mix mt q s r,
  httpCall spf ord newReq world hasXff rawHeader queryOf qget (newHprov u sec mix mt) q = ([s], Some r) ->
  NoDup (map fst (q_att q)) -> (forall st h b e, world s = WResp st h b e -> NoDup (map fst h)) ->
  a_id r = q_id q /\
  match world s with
  | WErr e => a_exc r = Some (503%Z, e, 2%Z)
  | WResp st h b (Some e) => True
  | WResp st h b None =>
      (status_fails u st -> a_exc r = Some (st, b, 2%Z) /\ a_val r = HvNone) /\
      (~ status_fails u st -> a_exc r = None /\ aget bs_eqb (a_att r) (s2b "upstreamCode") = Some (fmtZ st) /\
         match s with
         | SFormat _ _ _ _ => a_val r = HvStr b /\ forall k, k <> s2b "upstreamCode" -> aget bs_eqb (a_att r) k = latest [q_att q; h] k
         | SProxy _ _ _ _ _ => a_val r = HvBytes b /\ forall k, k <> s2b "upstreamCode" -> aget bs_eqb (a_att r) k = aget bs_eqb h k
         | STransparent _ _ _ _ _ _ => a_val r = HvPair (rawHeader st h) b /\ forall k, k <> s2b "upstreamCode" -> aget bs_eqb (a_att r) k = None
         end)
  end.
Proof.
  intros spf ord newReq world hasXff rawHeader queryOf qget u sec mix mt q s r H Na Nh. destruct (answer_http _ _ _ _ _ _ _ _ u sec mix mt q s r H) as [I A].
  split; [exact I|]. destruct (world s) as [e|st h b [e|]] eqn:W; [apply A|exact Logic.I|].
  assert (A' : (status_fails u st /\ a_exc r = Some (st, b, BizException) /\ a_val r = HvNone) \/
                (~ status_fails u st /\ a_exc r = None /\
                 a_val r = (match s with SFormat _ _ _ _ => HvStr b | SProxy _ _ _ _ _ => HvBytes b | STransparent _ _ _ _ _ _ => HvPair (rawHeader st h) b end) /\
                 a_att r = upstream st (match s with SFormat _ _ _ _ => setAll h (setAll (q_att q) []) | SProxy _ _ _ _ _ => setAll h [] | STransparent _ _ _ _ _ _ => [] end)))
    by (destruct s; exact A).
  specialize (Nh _ _ _ _ eq_refl).
  destruct A' as [(X & Y & Z)|(X & Y & Z & T)]; (split; intro K; [try contradiction|try contradiction]); [auto|].
  split; [exact Y|]. rewrite T. rewrite upstream_get. rewrite (proj2 (bs_eqb_spec (s2b "upstreamCode") (s2b "upstreamCode")) eq_refl). split; [reflexivity|].
  destruct s; (split; [exact Z|]); intros k Hk; rewrite upstream_get; (apply bs_eqb_neq in Hk; rewrite Hk); [| |reflexivity].
  - rewrite (setAll_get h Nh), (setAll_get (q_att q) Na). unfold latest. cbn [fold_left]. destruct (aget bs_eqb h k); [reflexivity|]. destruct (aget bs_eqb (q_att q) k); reflexivity.
  - rewrite (setAll_get h Nh). destruct (aget bs_eqb h k); reflexivity.
Qed.
Print Assumptions C86_answer.

(* The other provider: a request that could not be made is an exception, any status is a value. *)
Theorem C86_answer_httpx : forall spf ord world p q s r, httpxCall spf ord world p q = ([s], Some r) ->
  NoDup (map fst (q_att q)) -> (forall st h b e, world s = WResp st h b e -> NoDup (map fst h)) ->
  a_id r = q_id q /\
  match world s with
  | WErr e => a_exc r = Some (503%Z, e, 503%Z)
  | WResp st h b _ => a_exc r = None /\ a_val r = HvStr b /\ forall k, aget bs_eqb (a_att r) k = latest [q_att q; h] k
  end.
Proof.
  intros spf ord world p q s r H Na Nh. destruct (answer_httpx _ _ _ p q s r H) as [I A]. split; [exact I|].
  destruct (world s) as [e|st h b e] eqn:W; [apply A|]. destruct A as (A1 & A2 & A3). specialize (Nh _ _ _ _ eq_refl). split; [exact A1|]. split; [exact A2|].
  intro k. rewrite A3, (setAll_get h Nh), (setAll_get (q_att q) Na). unfold latest. cbn [fold_left].
  destruct (aget bs_eqb h k); [reflexivity|]. destruct (aget bs_eqb (q_att q) k); reflexivity.
Qed.
Print Assumptions C86_answer_httpx.

(* A call for which no request is made is answered by an exception naming the call (or panics, see below). *)
Theorem C86_refused : forall spf ord newReq world hasXff rawHeader queryOf qget p q r,
  httpCall spf ord newReq world hasXff rawHeader queryOf qget p q = ([], Some r) ->
  a_id r = q_id q /\ a_val r = HvNone /\ exists code msg, a_exc r = Some (code, msg, 2%Z) /\ (code = 400 \/ code = 404 \/ code = 503)%Z.
Proof. intros. eapply nothing_http. eassumption. Qed.
Print Assumptions C86_refused.

(* A format with two places for the method's name is refused, by both providers, and nothing is sent. *)
Theorem C86_two_holes : forall spf ord newReq world hasXff rawHeader queryOf qget u sec sc mix mt q args,
  clear_section sec -> settings_of sec u (q_method q) sc -> two_holes (url_format u sc) -> q_args q = DOk args -> 
  (direct u q -> exists r, httpCall spf ord newReq world hasXff rawHeader queryOf qget (newHprov u sec mix mt) q = ([], Some r) /\ a_exc r <> None) /\
  (exists r, httpxCall spf ord world (newHprov u sec mix mt) q = ([], Some r) /\ a_exc r <> None).
Proof.
  intros spf ord newReq world hasXff rawHeader queryOf qget u sec sc mix mt q args C S F A. split.
  - intro D. rewrite (direct_call spf ord newReq world hasXff rawHeader queryOf qget u sec mix mt q D). unfold doFormat. rewrite A.
    pose proof (buildReqURL_two spf u sec sc mix mt q C S F) as E. cbn [newHprov p_srv p_url p_defMethod] in *. rewrite E. eexists. split; [reflexivity|discriminate].
  - unfold httpxCall. rewrite A. pose proof (buildReqURL_two spf u sec sc mix mt q C S F) as E. cbn [newHprov p_srv p_url p_defMethod] in *. rewrite E. eexists. split; [reflexivity|discriminate].
Qed.
Print Assumptions C86_two_holes.

(* Which of the three ways is taken. *)
Theorem C86_ways : forall spf ord newReq world hasXff rawHeader queryOf qget u sec mix mt q s,
  In s (fst (httpCall spf ord newReq world hasXff rawHeader queryOf qget (newHprov u sec mix mt) q)) ->
  match s with
  | STransparent hb _ _ _ _ body => parseBool (pgetD (Some (q_att q)) (s2b "HTTP_PROXY")) = Some true /\ q_pair q = DOk (hb, body)
  | SProxy _ _ _ _ _ => parseBool (pgetD (Some (q_att q)) (s2b "HTTP_PROXY")) <> Some true /\ getParam u (s2b "proxyAddress") [] <> []
  | SFormat _ _ _ _ => direct u q
  end.
Proof. intros. apply (kind_http spf ord newReq world hasXff rawHeader queryOf qget u sec mix mt q s H). Qed.
Print Assumptions C86_ways.

(* Through a proxy: the request of C64 and C65, at the path the locations of C40 give (or the method's own if rewriting
   is off), for the host the call or else the service names, in the name of the client. *)
Theorem C86_proxied : forall spf ord newReq world hasXff rawHeader queryOf qget u sec mix mt q r schema path host fwd,
  In (SProxy r schema path host fwd) (fst (httpCall spf ord newReq world hasXff rawHeader queryOf qget (newHprov u sec mix mt) q)) ->
  (exists args, q_args q = DOk args /\ toHttp (q_att q) args (first_of [pget (uParams u) (s2b "HTTP_REQUEST_METHOD")] (s2b "GET")) = HOk r) /\
  schema = getParam u (s2b "proxySchema") (s2b "http") /\
  (parseBool (getParam u (s2b "enableRewrite") (s2b "true")) = Some false -> path = q_method q) /\
  (parseBool (getParam u (s2b "enableRewrite") (s2b "true")) <> Some false ->
     exists query service, pick mt (q_method q) query (qget query) true = Some (service, path)) /\
  (host = None \/ host = Some (getParam u (s2b "domain") []) /\ forall a v, h_calls r = a ++ [HHost v] -> v = []) /\
  (fwd = None /\ (exists n v, In (HSet n v) (h_calls r) /\ same_header n (s2b "X-Forwarded-For")) \/
   fwd = Some (client_addr q) /\ forall n v, In (HSet n v) (h_calls r) -> ~ same_header n (s2b "X-Forwarded-For")).
Proof.
  intros spf ord newReq world hasXff rawHeader queryOf qget u sec mix mt q r schema path host fwd H.
  unfold httpCall in H. destruct (boolOr _ false).
  { unfold doTransparent in H. destruct (q_pair q) as [e|[hb b]]; [destruct H|]. destruct (rewritePath _ _ _ _); [|destruct H]. destruct H as [H|[]]. discriminate H. }
  destruct (bs_empty (p_proxy _)).
  { unfold doFormat in H. destruct (q_args q); [destruct H|]. destruct (buildReqURL _ _ _ _ _) as [[? ?]|]; [|destruct H].
    destruct (buildQueryStr _ _ _ _); [|destruct H]. destruct (place _ _ _) as [? ?]. destruct (newReq _ _); [destruct H|]. destruct H as [H|[]]. discriminate H. }
  unfold doProxy in H. destruct (q_args q) as [|args] eqn:A; [destruct H|]. cbn [newHprov p_defMethod p_schema p_domain] in H.
  destruct (toHttp _ _ _) as [r0| |] eqn:T; [|destruct H|destruct H]. destruct (rewritePath _ _ _ _) as [path0|] eqn:R; [|destruct H].
  destruct H as [H|[]]. injection H as -> <- -> <- <-. split; [|split; [reflexivity|split; [|split; [|split]]]].
  - exists args. split; [reflexivity|]. cbn [first_of]. destruct (pget (uParams u) (s2b "HTTP_REQUEST_METHOD")); exact T.
  - intro P. unfold rewritePath in R. cbn [newHprov p_rewrite] in R. unfold boolOr in R. rewrite P in R. congruence.
  - intro P. unfold rewritePath in R. cbn [newHprov p_rewrite p_matcher] in R. unfold boolOr in R.
    assert (E : match parseBool (getParam u (s2b "enableRewrite") (s2b "true")) with Some b => b | None => true end = true)
      by (destruct (parseBool _) as [[]|]; congruence).
    rewrite E in R. cbv zeta in R. destruct (pick _ _ _ _ _) as [[sv pa]|] eqn:K; [|discriminate R]. injection R as ->. eauto.
  - destruct (bs_empty (lastHost (h_calls r))) eqn:L; [right|left; reflexivity]. split; [reflexivity|]. intros a v E. rewrite E in L.
    unfold lastHost in L. rewrite fold_left_app in L. cbn [fold_left] in L. destruct v; [reflexivity|discriminate L].
  - destruct (callsName (h_calls r) XFF) eqn:L.
    + left. split; [reflexivity|]. unfold callsName in L. apply existsb_exists in L as ([n v|v|v] & I & L); try discriminate L. exists n, v. split; [exact I|]. apply xff_same. exact L.
    + right. split; [rewrite clientIp_addr; reflexivity|]. intros n v I K. apply xff_same in K.
      assert (X : callsName (h_calls r) XFF = true) by (unfold callsName; apply existsb_exists; exists (HSet n v); auto). congruence.
Qed.
Print Assumptions C86_proxied.

(* Every call that comes through a proxy is sent, or answered by an exception that says what is wrong. *)
Lemma rewritePath_goes qget u sec mix mt q query : goes_to u mt (q_method q) query qget (rewritePath qget (newHprov u sec mix mt) q query).
Proof.
  unfold goes_to, rewritePath. cbn [newHprov p_rewrite p_matcher]. unfold boolOr. split.
  - intros ->. reflexivity.
  - intros P seen S1 S2. assert (E : match parseBool (getParam u (s2b "enableRewrite") (s2b "true")) with Some b => b | None => true end = true)
      by (destruct (parseBool _) as [[]|]; congruence).
    rewrite E. cbv zeta. assert (Es : (if m_query mt then query else []) = seen) by (destruct (m_query mt); symmetry; auto). rewrite Es.
    destruct (pick _ _ _ _ _) as [[sv pa]|]; reflexivity.
Qed.
Theorem C86_proxy_sends : forall spf ord newReq world hasXff rawHeader queryOf qget u sec mix mt q,
  let res := httpCall spf ord newReq world hasXff rawHeader queryOf qget (newHprov u sec mix mt) q in
  let refused (code : Z) (why : bs -> Prop) := fst res = [] /\ exists r msg, snd res = Some r /\ a_id r = q_id q /\ a_exc r = Some (code, msg, 2%Z) /\ why msg in
  (parseBool (pgetD (Some (q_att q)) (s2b "HTTP_PROXY")) <> Some true -> getParam u (s2b "proxyAddress") [] <> [] ->
     match q_args q with
     | DErr e => refused 400%Z (eq e)
     | DOk args =>
         match toHttp (q_att q) args (first_of [pget (uParams u) (s2b "HTTP_REQUEST_METHOD")] (s2b "GET")) with
         | HOk r => exists path, goes_to u mt (q_method q) (queryOf (SProxy r [] [] None None)) qget path /\
                      match path with
                      | Some pa => exists schema host fwd, fst res = [SProxy r schema pa host fwd]
                      | None => refused 404%Z (eq (s2b "service not found"))
                      end
         | HManyArgs => refused 400%Z (eq (s2b "http rpc only support one parameter"))
         | HBadArg => refused 400%Z (fun msg => exists ty, msg = s2b "http rpc unsupported parameter type: " ++ ty)
         end
     end) /\
  (parseBool (pgetD (Some (q_att q)) (s2b "HTTP_PROXY")) = Some true ->
     match q_pair q with
     | DErr e => refused 400%Z (eq e)
     | DOk (hb, body) => exists path, goes_to u mt (q_method q) (queryOf (STransparent hb [] [] [] None [])) qget path /\
                           match path with
                           | Some pa => exists calls fwd, fst res = [STransparent hb calls (getParam u (s2b "proxySchema") (s2b "http")) pa fwd body] /\
                                          fwd = (if hasXff hb then None else Some (client_addr q)) /\
                                          (forall n v, In (HSet n v) calls <-> exists k, In (k, v) (q_att q) /\ aget bs_eqb motan_names k = Some n)
                           | None => refused 404%Z (eq (s2b "service not found"))
                           end
     end).
Proof.
  intros spf ord newReq world hasXff rawHeader queryOf qget u sec mix mt q res refused. change motan_names with innerNames. split.
  - intros P A.
    assert (R : res = doProxy world queryOf qget (newHprov u sec mix mt) q (clientIp (q_att q))).
    { subst res. unfold httpCall, boolOr. cbn [newHprov p_proxy]. destruct (getParam u (s2b "proxyAddress") []); [contradiction|]. cbn [bs_empty].
      destruct (parseBool (pgetD (Some (q_att q)) (s2b "HTTP_PROXY"))) as [[]|]; [congruence|reflexivity|reflexivity]. }
    subst refused. cbv beta. rewrite R. clear R res. unfold doProxy. destruct (q_args q) as [e|args].
    + split; [reflexivity|]. do 2 eexists. repeat split.
    + cbn [newHprov p_defMethod].
      assert (E : first_of [pget (uParams u) (s2b "HTTP_REQUEST_METHOD")] (s2b "GET") = match pget (uParams u) (s2b "HTTP_REQUEST_METHOD") with Some m => m | None => s2b "GET" end)
        by (cbn [first_of]; destruct (pget (uParams u) (s2b "HTTP_REQUEST_METHOD")); reflexivity).
      rewrite E. destruct (toHttp _ _ _) as [r| |].
      * exists (rewritePath qget (newHprov u sec mix mt) q (queryOf (SProxy r [] [] None None))). split; [apply rewritePath_goes|].
        destruct (rewritePath _ _ _ _) as [pa|]; [do 3 eexists; reflexivity|]. split; [reflexivity|]. do 2 eexists. repeat split.
      * split; [reflexivity|]. do 2 eexists. repeat split.
      * split; [reflexivity|]. do 2 eexists. repeat split. exists []. reflexivity.
  - intros P.
    assert (R : res = doTransparent world hasXff rawHeader queryOf qget (newHprov u sec mix mt) q (clientIp (q_att q))).
    { subst res. unfold httpCall, boolOr. rewrite P. reflexivity. }
    subst refused. cbv beta. rewrite R. clear R res. unfold doTransparent. destruct (q_pair q) as [e|[hb body]].
    + split; [reflexivity|]. do 2 eexists. repeat split.
    + exists (rewritePath qget (newHprov u sec mix mt) q (queryOf (STransparent hb [] [] [] None []))). split; [apply rewritePath_goes|].
      destruct (rewritePath _ _ _ _) as [pa|]; [|split; [reflexivity|]; do 2 eexists; repeat split].
      do 2 eexists. split; [reflexivity|]. split; [rewrite clientIp_addr; reflexivity|].
      intros n v. rewrite in_flat_map. split.
      * intros ([k w] & I & H). cbn [fst snd] in H. destruct (aget bs_eqb innerNames k) as [n'|] eqn:G; [|destruct H]. destruct H as [H|[]]. injection H as <- <-. eauto.
      * intros (k & I & G). exists (k, v). split; [exact I|]. cbn [fst snd]. rewrite G. left. reflexivity.
Qed.
Print Assumptions C86_proxy_sends.

(* Findings. *)

(* A call without arguments panics: the first argument is read before their number is looked at. *)
Theorem C86_no_arguments_refuted : forall spf ord newReq world hasXff rawHeader queryOf qget u sec sc mix mt q,
  clear_section sec -> settings_of sec u (q_method q) sc -> simple_format (url_format u sc) -> q_args q = DOk [] ->
  (direct u q -> httpCall spf ord newReq world hasXff rawHeader queryOf qget (newHprov u sec mix mt) q = ([], None)) /\
  httpxCall spf ord world (newHprov u sec mix mt) q = ([], None).
Proof.
  intros spf ord newReq world hasXff rawHeader queryOf qget u sec sc mix mt q C S F A.
  destruct (buildReqURL_ok spf u sec sc mix mt q C S F) as (addr & E & _). cbn [newHprov p_srv p_url p_defMethod] in *. split.
  - intro D. rewrite (direct_call spf ord newReq world hasXff rawHeader queryOf qget u sec mix mt q D). unfold doFormat. rewrite A. cbn [newHprov p_srv p_url p_defMethod]. rewrite E. reflexivity.
  - unfold httpxCall. rewrite A. cbn [newHprov p_srv p_url p_defMethod]. rewrite E. reflexivity.
Qed.
Print Assumptions C86_no_arguments_refuted.

(* With any method but GET and POST the arguments are dropped. *)
Theorem C86_other_methods_refuted : forall spf ord world u sec sc mix mt q args url m hs body,
  clear_section sec -> settings_of sec u (q_method q) sc -> simple_format (url_format u sc) -> q_args q = DOk args ->
  http_method u sc q <> s2b "GET" -> http_method u sc q <> s2b "POST" ->
  In (SFormat m url hs body) (fst (httpxCall spf ord world (newHprov u sec mix mt) q)) -> stands_for (url_format u sc) (q_method q) url /\ body = None.
Proof.
  intros spf ord world u sec sc mix mt q args url m hs body C S F A G P H.
  destruct (buildQueryStr ord q args mix) as [qs|] eqn:B.
  - destruct (sends_httpx spf ord world u sec sc mix mt q args qs C S F A B) as (addr & St & E). rewrite E in H. rewrite (place_other _ _ _ G P) in H.
    destruct H as [H|[]]. injection H as _ <- _ <-. auto.
  - unfold httpxCall in H. rewrite A in H. destruct (buildReqURL_ok spf u sec sc mix mt q C S F) as (addr & E & _). cbn [newHprov p_srv p_url p_defMethod p_mix] in *. rewrite E, B in H. destruct H.
Qed.
Print Assumptions C86_other_methods_refuted.

(* A string argument is sent as one name without a value, so "a=1&b=2" arrives as neither a nor b. *)
Theorem C86_string_refuted : forall ord q s rest mix qs, buildQueryStr ord q (ArgStr s :: rest) mix = Some qs -> parse_form qs = Some [id_pair q; (s, [])].
Proof.
  intros ord q s rest mix qs H. unfold parse_form.
  assert (Eq : qs = (s2b "requestIdFromClient" ++ s2b "=" ++ fmtN (q_id q)) ++ s2b "&" ++ queryEscape s) by (unfold buildQueryStr in H; congruence).
  assert (E : splitOn x26 ((s2b "requestIdFromClient" ++ s2b "=" ++ fmtN (q_id q)) ++ s2b "&" ++ queryEscape s) =
              [s2b "requestIdFromClient" ++ x3d :: queryEscape (fmtN (q_id q)); queryEscape s]).
  { rewrite (escape_digits (fmtN (q_id q))) by apply fmtN_spec. change (s2b "&" ++ queryEscape s) with (x26 :: queryEscape s). rewrite splitOn_app.
    - rewrite splitOn_none by (apply queryEscape_clean). reflexivity.
    - intro K. rewrite <- (escape_digits (fmtN (q_id q))) in K by apply fmtN_spec. apply in_app_or in K as [K|[K|K]]; [vm_compute in K; intuition discriminate|discriminate K|].
      apply escape_bytes in K. intuition congruence. }
  rewrite Eq, E. cbn [map]. rewrite cut_app by (intro K; vm_compute in K; intuition discriminate). rewrite (cut_none x3d (queryEscape s)) by (apply queryEscape_clean).
  rewrite !unescape_escape. rewrite unescape_plain by (intro K; vm_compute in K; intuition discriminate). reflexivity.
Qed.
Print Assumptions C86_string_refuted.

(* An address that already has a query: the request id is lost in the last of its values. *)
Definition exU (fmt : bs) : url := mkUrl (s2b "http") (s2b "h") 80 (s2b "svc") (s2b "g") (Some [(s2b "URL_FORMAT", fmt)]).
Definition exQ (att : strmap) (m : strmap) : mreq := mkMreq 7 (s2b "hello") att (DOk [ArgMap m]) (DErr []).
Definition noMatcher := mkMatcher [] [] [] false.
Theorem C86_query_in_format_refuted : forall spf, exists u q url hs,
  fst (httpxCall spf (fun l => l) (fun _ => WErr []) (newHprov u [] [] noMatcher) q) = [SFormat (s2b "GET") url hs None] /\
  parse_form (url_query url) = Some [(s2b "v", s2b "1?requestIdFromClient=7"); (s2b "a", s2b "x y")].
Proof.
  intro spf. exists (exU (s2b "http://b/api?v=1")), (exQ [] [(s2b "a", s2b "x y")]). do 2 eexists. split; [vm_compute; reflexivity|vm_compute; reflexivity].
Qed.
Print Assumptions C86_query_in_format_refuted.

(* M_ is replaced inside names too. *)
Theorem C86_inner_names_refuted : headerName (s2b "ITEM_ID") = s2b "ITEMOTAN-ID" /\ headerName (s2b "M_p") = s2b "MOTAN-p".
Proof. split; vm_compute; reflexivity. Qed.
Print Assumptions C86_inner_names_refuted.

(* A failed call of the second provider before the request is built does not name the call. *)
Theorem C86_httpx_id_refuted : forall spf ord world p q e, q_args q = DErr e -> q_id q <> 0%N ->
  exists r, httpxCall spf ord world p q = ([], Some r) /\ a_id r <> q_id q.
Proof. intros spf ord world p q e A N. unfold httpxCall. rewrite A. eexists. split; [reflexivity|]. cbn. congruence. Qed.
Print Assumptions C86_httpx_id_refuted.

(* the hypotheses are met by an ordinary configuration: one method with its own format and POST, a default for others *)
Definition exSec : srvSection :=
  [(s2b "conf", [(s2b "hello, hi", [(s2b "URL_FORMAT", s2b "http://b/%s.json"); (s2b "HTTP_REQUEST_METHOD", s2b "POST")]);
                 (s2b "http_default_motan_method", [(s2b "URL_FORMAT", s2b "http://b/other")])])].
Definition exU2 : url := mkUrl (s2b "http") (s2b "h") 80 (s2b "svc") (s2b "g") (Some [(s2b "conf-id", s2b "conf")]).
Example C86_example_post : fst (httpxCall (fun _ _ => []) (fun l => l) (fun _ => WErr []) (newHprov exU2 exSec [s2b "uid"] noMatcher)
    (exQ [(s2b "M_g", s2b "grp"); (s2b "uid", s2b "9"); (s2b "host", s2b "1.2.3.4")] [(s2b "z", s2b "a&b"); (s2b "b", s2b "1")])) =
  [SFormat (s2b "POST") (s2b "http://b/hello.json")
     [(s2b "Content-Type", s2b "application/x-www-form-urlencoded"); (s2b "MOTAN-g", s2b "grp"); (s2b "uid", s2b "9"); (s2b "X-Forwarded-For", s2b "1.2.3.4")]
     (Some (s2b "b=1&requestIdFromClient=7&uid=9&z=a%26b"))].
Proof. vm_compute. reflexivity. Qed.
Example C86_example_hypotheses : clear_section exSec /\
  settings_of exSec exU2 (s2b "hello") [(s2b "URL_FORMAT", s2b "http://b/%s.json"); (s2b "HTTP_REQUEST_METHOD", s2b "POST")] /\
  settings_of exSec exU2 (s2b "nope") [(s2b "URL_FORMAT", s2b "http://b/other")] /\
  simple_format (s2b "http://b/%s.json") /\ (forall k, In k [s2b "z"; s2b "b"] \/ In k [s2b "uid"] -> plain_arg k) /\ direct exU2 (exQ [] []).
Proof.
  split; [|split; [|split; [|split; [|split]]]].
  - split; [repeat constructor; intros []|]. intros id info [E|[]] n1 c1 n2 c2 k I1 I2 L1 L2. injection E as _ <-.
    destruct I1 as [I1|[I1|[]]]; destruct I2 as [I2|[I2|[]]]; injection I1 as <- <-; injection I2 as <- <-; try reflexivity; vm_compute in L1, L2; intuition congruence.
  - right. eexists. split; [left; reflexivity|]. left. exists (s2b "hello, hi"). split; [left; reflexivity|]. vm_compute. auto.
  - right. eexists. split; [left; reflexivity|]. right. split.
    + intros c (names & [I|[I|[]]] & L); injection I as <- <-; vm_compute in L; intuition discriminate.
    + left. exists (s2b "http_default_motan_method"). split; [right; left; reflexivity|]. vm_compute. auto.
  - right. exists (s2b "http://b/"), (s2b ".json"). split; [reflexivity|]. split; intro K; vm_compute in K; intuition discriminate.
  - intros k [[<-|[<-|[]]]|[<-|[]]]; unfold plain_arg, plain_name; repeat split; intro K; vm_compute in K; intuition discriminate.
  - split; [vm_compute; reflexivity|]. vm_compute. discriminate.
Qed.
Example C86_example_answer : forall spf, exists s r,
  httpCall spf (fun l => l) (fun _ _ => None) (fun _ => WResp 200 [(s2b "Server", s2b "x")] (s2b "ok") None) (fun _ => false) (fun _ _ => []) (fun _ => []) (fun _ _ => [])
    (newHprov exU2 exSec [] noMatcher) (exQ [(s2b "uid", s2b "9")] [(s2b "b", s2b "1")]) = ([s], Some r) /\ a_val r = HvStr (s2b "ok") /\
  a_att r = [(s2b "uid", s2b "9"); (s2b "Server", s2b "x"); (s2b "upstreamCode", s2b "200")].
Proof. intro spf. do 2 eexists. split; [vm_compute; reflexivity|split; reflexivity]. Qed.
