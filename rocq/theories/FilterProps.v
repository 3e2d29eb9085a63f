(* FilterProps.v: C25 (filter chains) and C60 (circuit breaker filters). *)
From Coq Require Import Permutation Sorted.
From Verif Require Import Base Strconv GoStrings GoStrings2 UrlModel UrlSpec UrlProofs FilterModel FilterSpec FilterProofs.
Local Open Scope nat_scope.

(* ---- C25 *)
(* every request to a cluster passes each configured cluster filter once, lower index first, and the answer comes back in reverse *)
Theorem C25_cluster_chain {R A} (lib : flib R A) u : sorters_ok lib ->
  exists order, Permutation order (configured_cluster lib u) /\ StronglySorted (fun a b => (fiIndex a <= fiIndex b)%Z) order /\
                goes_through order (runChain (clusterChain lib u)).
Proof. exact (@cluster_chain R A lib u). Qed.
Print Assumptions C25_cluster_chain.
(* the same for the endpoint filters of a cluster, for every endpoint [eu], and which of them are asked for availability *)
Theorem C25_endpoint_chain {R A} (lib : flib R A) cu eu : sorters_ok lib ->
  exists order, Permutation order (configured_endpoint lib cu) /\ StronglySorted (fun a b => (fdIndex a <= fdIndex b)%Z) order /\
                goes_through (endpoint_filters eu order) (runChain (fst (addFilter (snd (getURLFilters lib cu)) eu))) /\
                snd (addFilter (snd (getURLFilters lib cu)) eu) =
                  rev (filter (fun i => match fiStatus i with Some _ => true | None => false end) (endpoint_filters eu order)).
Proof. exact (@endpoint_chain R A lib cu eu). Qed.
Print Assumptions C25_endpoint_chain.
(* and for a provider on the server *)
Theorem C25_provider_chain {R A} (lib : flib R A) u : sorters_ok lib ->
  exists order, Permutation order (configured_endpoint lib u) /\ StronglySorted (fun a b => (fdIndex a <= fdIndex b)%Z) order /\
                goes_through (endpoint_filters u order) (runChain (wrapWithFilter lib u)).
Proof.
  intro S. destruct (endpoint_chain lib u u S) as (o & P & Q & G & _). exists o. split; [exact P|]. split; [exact Q|]. exact G.
Qed.
Print Assumptions C25_provider_chain.
(* an endpoint is available when all its status filters and the endpoint itself are; they are asked in order until one refuses *)
Theorem C25_status {R A} (fs : list (finst R A)) c : (forall f, In f fs -> fiStatus f <> None) ->
  (snd (fepAvailable (rev fs) c) = true <-> Forall (fun f => fiStatus f = Some true) fs /\ c = true) /\
  exists asked rest, fs = asked ++ rest /\ fst (fepAvailable (rev fs) c) = map (fun f => fiName f) asked /\
    (rest <> [] -> exists pre f, asked = pre ++ [f] /\ fiStatus f = Some false) /\ Forall (fun f => fiStatus f = Some true) (removelast asked).
Proof.
  intro H. unfold fepAvailable. rewrite rev_involutive. destruct (askStatus_spec fs H) as [I X]. destruct (askStatus fs) as [a b]. cbn [fst snd] in *. split; [|exact X].
  rewrite Bool.andb_true_iff, I. reflexivity.
Qed.
Print Assumptions C25_status.

(* the hypotheses are met: a library with three filters, an insertion sort, and a chain in which one filter refuses some requests *)
Fixpoint insBy {B} (key : B -> Z) (x : B) (l : list B) : list B :=
  match l with [] => [x] | y :: r => if (key y <=? key x)%Z then x :: l else y :: insBy key x r end.
Definition sortDesc {B} (key : B -> Z) (l : list B) : list B := fold_right (insBy key) [] l.
Lemma insBy_perm {B} key (x : B) l : Permutation (insBy key x l) (x :: l).
Proof.
  induction l as [|y r IH]; [apply Permutation_refl|]. cbn. destruct (key y <=? key x)%Z; [apply Permutation_refl|].
  eapply perm_trans; [apply perm_skip, IH|apply perm_swap].
Qed.
Lemma insBy_sorted {B} key (x : B) l : StronglySorted (fun a b => (key b <= key a)%Z) l -> StronglySorted (fun a b => (key b <= key a)%Z) (insBy key x l).
Proof.
  induction l as [|y r IH]; intro H; cbn; [repeat constructor|]. apply StronglySorted_inv in H. destruct H as [H F]. destruct (key y <=? key x)%Z eqn:E.
  - constructor; [constructor; assumption|]. apply Z.leb_le in E. constructor; [exact E|]. eapply Forall_impl; [|exact F]. intros a K. cbn in K. lia.
  - constructor; [exact (IH H)|]. apply Z.leb_gt in E. rewrite (insBy_perm key x r). constructor; [lia|exact F].
Qed.
Lemma sortDesc_ok {B} (key : B -> Z) l : Permutation (sortDesc key l) l /\ StronglySorted (fun a b => (key b <= key a)%Z) (sortDesc key l).
Proof.
  induction l as [|x l [P S]]; [split; constructor|]. cbn. split.
  - eapply perm_trans; [apply insBy_perm|apply perm_skip, P].
  - apply insBy_sorted, S.
Qed.
Definition f_add (n : string) (i : Z) : finst nat nat := mkFinst (s2b n) i true None (fun r => inr (r + 1, fun a => a * 2)).
Definition f_limit (n : string) (i : Z) : finst nat nat := mkFinst (s2b n) i true (Some true) (fun r => if 5 <? r then inl 400 else inr (r, fun a => a)).
Definition lib0 : flib nat nat :=
  mkFlib (fun n => if bs_eqb n (s2b "add") then Some (mkFdef 2 false (fun _ => Some (f_add "add" 2)))
                   else if bs_eqb n (s2b "limit") then Some (mkFdef 3 false (fun _ => Some (f_limit "limit" 3)))
                   else if bs_eqb n (s2b "top") then Some (mkFdef 1 false (fun _ => Some (f_add "top" 1))) else None)
         (sortDesc (fun d => fdIndex d)) (sortDesc (fun i => fiIndex i)).
Example C25_sorters : sorters_ok lib0.
Proof. split; intro l; apply sortDesc_ok. Qed.
Definition u25 : url := mkUrl (s2b "motan2") (s2b "h") 1 (s2b "s") (s2b "g") (Some [(s2b "filter", s2b "limit, add,nosuch ,top")]).
Example C25_example :
  runChain (wrapWithFilter lib0 u25) (fun r => r * 100) 3 =
    ([FEnter (s2b "top"); FEnter (s2b "add"); FEnter (s2b "limit"); FInner; FLeave (s2b "limit"); FLeave (s2b "add"); FLeave (s2b "top")], 2000) /\
  runChain (wrapWithFilter lib0 u25) (fun r => r * 100) 5 =
    ([FEnter (s2b "top"); FEnter (s2b "add"); FEnter (s2b "limit"); FLeave (s2b "limit"); FLeave (s2b "add"); FLeave (s2b "top")], 1600) /\
  length (configured_endpoint lib0 u25) = 3.
Proof. repeat split. Qed.

(* ---- C60: what a circuit breaker filter answers *)
(* the answer is the one from below when that carries no counted exception and came in time; otherwise it is an error of code 400
   carrying the id of the request; the call below is made at most once, and not at all when the circuit refuses it *)
Theorem C60_answer h biz id down : rId down = id ->
  let (called, a) := cbFilter h biz id down in
  rId a = id /\
  (called = false <-> exists m, h = HRefused m) /\
  ((a = down /\ h = HRan /\ (forall e, rEx down = Some e -> biz = false /\ xType e = BizException)) \/
   (exists m, rEx a = Some (mkFex 400 m ServiceException) /\
      (h = HRefused m \/ h = HTimeout m \/ (h = HRan /\ exists e, rEx down = Some e /\ xMsg e = m /\ (biz = true \/ xType e <> BizException))))).
Proof.
  intro I. destruct h as [m| |m]; cbn [cbFilter].
  - split; [reflexivity|]. split; [split; [intros _; exists m; reflexivity|reflexivity]|]. right. exists m. split; [reflexivity|]. left. reflexivity.
  - unfold checkException. destruct (rEx down) as [e|] eqn:E.
    + destruct biz; cbn [orb].
      * split; [reflexivity|]. split; [split; [intro X; discriminate X|intros [m X]; discriminate X]|]. right. exists (xMsg e). split; [reflexivity|]. right. right.
        split; [reflexivity|]. exists e. split; [reflexivity|]. split; [reflexivity|]. left. reflexivity.
      * destruct (xType e =? BizException)%Z eqn:B; cbn [negb].
        -- split; [exact I|]. split; [split; [intro X; discriminate X|intros [m X]; discriminate X]|]. left. split; [reflexivity|]. split; [reflexivity|].
           intros e' X. injection X as <-. split; [reflexivity|]. apply Z.eqb_eq. exact B.
        -- split; [reflexivity|]. split; [split; [intro X; discriminate X|intros [m X]; discriminate X]|]. right. exists (xMsg e). split; [reflexivity|]. right. right.
           split; [reflexivity|]. exists e. split; [reflexivity|]. split; [reflexivity|]. right. apply Z.eqb_neq. exact B.
    + split; [exact I|]. split; [split; [intro X; discriminate X|intros [m X]; discriminate X]|]. left. split; [reflexivity|]. split; [reflexivity|]. intros e' X. discriminate X.
  - split; [reflexivity|]. split; [split; [intro X; discriminate X|intros [m' X]; discriminate X]|]. right. exists m. split; [reflexivity|]. right. left. reflexivity.
Qed.
Print Assumptions C60_answer.
(* "the caller sees the exception of the service" is false with the default configuration: code and type of a business exception are lost *)
Theorem C60_exception_preserved_refuted : exists u id down e, param u (s2b "circuitBreaker.bizException") = None /\ rId down = id /\ rEx down = Some e /\
  xCode e <> 400%Z /\ xType e = BizException /\ rEx (snd (cbFilter HRan (includeBizOf u) id down)) = Some (mkFex 400 (xMsg e) ServiceException).
Proof.
  exists u25, 7%N, (mkFresp 7 (Some (mkFex 1024 (s2b "no such user") BizException)) []), (mkFex 1024 (s2b "no such user") BizException).
  repeat split. intro X. discriminate X.
Qed.
Print Assumptions C60_exception_preserved_refuted.
(* business exceptions are counted, and replaced, unless the parameter "circuitBreaker.bizException" says no *)
Theorem C60_biz : forall u, includeBizOf u = false <-> exists v, param u (s2b "circuitBreaker.bizException") = Some v /\ parseBool v = Some false.
Proof.
  intro u. unfold includeBizOf. rewrite getParam_str_or. unfold str_or. destruct (param u (s2b "circuitBreaker.bizException")) as [v|].
  - destruct v as [|b v].
    + change (parseBool (s2b "true")) with (Some true). cbv iota. split; [discriminate|]. intros (v & H & P). injection H as <-. vm_compute in P. discriminate P.
    + destruct (parseBool (b :: v)) as [[]|] eqn:P; split; try discriminate; try reflexivity; try (intros (w & H & Q); injection H as <-; congruence). intros _. exists (b :: v). split; [reflexivity|exact P].
  - split; [discriminate|]. intros (v & H & _). discriminate H.
Qed.
Print Assumptions C60_biz.
(* the numbers handed to the breaker are positive, and the error percentage is at most 100, whatever the URL says *)
Theorem C60_config u key d : (0 < d)%Z -> (0 < cbConfigValue u key d)%Z /\ (d <= 100 -> key = s2b "circuitBreaker.errorPercent" -> cbConfigValue u key d <= 100)%Z /\
  (forall v, int_param u key = Some v -> (0 < v)%Z -> (key = s2b "circuitBreaker.errorPercent" -> v <= 100)%Z -> cbConfigValue u key d = v).
Proof.
  intro D. unfold cbConfigValue, int_param. rewrite pget_param. destruct (param u key) as [v|].
  - destruct (parseInt64 v) as [t e]. destruct (0 <? t)%Z eqn:T.
    + apply Z.ltb_lt in T. destruct (bs_eqb key ErrorPercentThreshold) eqn:K.
      * apply bs_eqb_spec in K; subst key. destruct (t <=? 100)%Z eqn:L.
        -- apply Z.leb_le in L. split; [exact T|]. split; [intros; exact L|]. intros w H. destruct e; [injection H as <-; reflexivity|discriminate H|discriminate H].
        -- apply Z.leb_gt in L. split; [exact D|]. split; [intros; assumption|]. intros w H P Q. destruct e; [injection H as <-|discriminate H|discriminate H].
           specialize (Q eq_refl). lia.
      * split; [exact T|]. split.
        -- intros _ ->. discriminate K.
        -- intros w H. destruct e; [injection H as <-; reflexivity|discriminate H|discriminate H].
    + apply Z.ltb_ge in T. split; [exact D|]. split; [intros; assumption|]. intros w H P. destruct e; [injection H as <-; lia|discriminate H|discriminate H].
  - split; [exact D|]. split; [intros; assumption|]. intros w H. discriminate H.
Qed.
Print Assumptions C60_config.
(* every setting of the breaker comes from its own parameter: a positive number in it (at most 100 for the percentage) is taken, and
   anything else gives the default *)
Theorem C60_settings : forall hd u, let c := buildCommandConfig hd u in
  (fits u (s2b "circuitBreaker.requestThreshold") -> positive_of u (s2b "circuitBreaker.requestThreshold") (hy_volume hd) (cb_volume c)) /\
  (fits u (s2b "circuitBreaker.sleepWindow") -> positive_of u (s2b "circuitBreaker.sleepWindow") (hy_sleep hd) (cb_sleep c)) /\
  (fits u (s2b "circuitBreaker.maxConcurrent") -> positive_of u (s2b "circuitBreaker.maxConcurrent") 5000 (cb_concurrent c)) /\
  (fits u (s2b "requestTimeout") -> positive_of u (s2b "requestTimeout") (hy_timeout hd) (cb_timeout c)) /\
  ((int_param u (s2b "circuitBreaker.errorPercent") = Some (cb_percent c) /\ (0 < cb_percent c <= 100)%Z) \/
   ((forall w, int_param u (s2b "circuitBreaker.errorPercent") = Some w -> ~ (0 < w <= 100)%Z) /\ cb_percent c = hy_percent hd)).
Proof.
  intros hd u c.
  assert (G : forall k d, k <> s2b "circuitBreaker.errorPercent" -> fits u k -> positive_of u k d (cbConfigValue u k d)).
  { intros k d K F. unfold positive_of, cbConfigValue, int_param, fits in *. rewrite pget_param. destruct (param u k) as [t|]; [|right; split; [discriminate|reflexivity]].
    specialize (F t eq_refl). destruct (parseInt64 t) as [z e] eqn:P. cbn [snd] in F.
    assert (B : bs_eqb k ErrorPercentThreshold = false) by (apply bs_eqb_neq; exact K). rewrite B.
    destruct (0 <? z)%Z eqn:Z0.
    - apply Z.ltb_lt in Z0. destruct e; [left; auto| |contradiction].
      exfalso. destruct (parseInt64_syntax t z P). lia.
    - apply Z.ltb_ge in Z0. right. split; [|reflexivity]. intros w H. destruct e; try discriminate H. injection H as <-. exact Z0. }
  split; [intro F; apply G; [discriminate|exact F]|]. split; [intro F; apply G; [discriminate|exact F]|]. split; [intro F; apply G; [discriminate|exact F]|].
  split; [intro F; apply G; [discriminate|exact F]|].
  subst c. cbn [buildCommandConfig cb_percent]. unfold cbConfigValue, int_param. rewrite pget_param. fold ErrorPercentThreshold. destruct (param u ErrorPercentThreshold) as [t|]; [|right; split; [discriminate|reflexivity]].
  destruct (parseInt64 t) as [z e] eqn:P. rewrite bs_eqb_refl. destruct (0 <? z)%Z eqn:Z0.
  - apply Z.ltb_lt in Z0. destruct (z <=? 100)%Z eqn:L.
    + apply Z.leb_le in L. destruct e; [left; auto|exfalso; destruct (parseInt64_syntax t z P); lia|exfalso; pose proof (parseInt64_rangeval t z P); lia].
    + apply Z.leb_gt in L. right. split; [|reflexivity]. intros w H. destruct e; try discriminate H. injection H as <-. lia.
  - apply Z.ltb_ge in Z0. right. split; [|reflexivity]. intros w H. destruct e; try discriminate H. injection H as <-. lia.
Qed.
Print Assumptions C60_settings.
(* Finding: a number too large for an int is taken as the largest int, not replaced by the default. *)
Theorem C60_overflow_refuted : forall hd, exists u, int_param u (s2b "circuitBreaker.maxConcurrent") = None /\
  cb_concurrent (buildCommandConfig hd u) = 9223372036854775807%Z.
Proof. intro hd. exists (mkUrl [] [] 0 [] [] (Some [(s2b "circuitBreaker.maxConcurrent", s2b "99999999999999999999")])). split; vm_compute; reflexivity. Qed.
Print Assumptions C60_overflow_refuted.
(* what is logged about a breaker says what it is configured with *)
Theorem C60_logged : forall c, getConfigStr c = concat (map (fun kv => s2b (fst kv) ++ s2b ":" ++ fmtZ (snd kv) ++ (if String.eqb (fst kv) "timeout" then s2b "ms " else s2b " "))
  [("requestThreshold", cb_volume c); ("sleepWindow", cb_sleep c); ("errorPercent", cb_percent c); ("maxConcurrent", cb_concurrent c); ("timeout", cb_timeout c)]%string).
Proof. intro c. unfold getConfigStr. cbn [map concat fst snd String.eqb]. repeat rewrite <- app_assoc. reflexivity. Qed.
Print Assumptions C60_logged.
Example C60_settings_met : let u := mkUrl [] [] 0 [] [] (Some [(s2b "circuitBreaker.maxConcurrent", s2b "7"); (s2b "circuitBreaker.sleepWindow", s2b "x")]) in
  fits u (s2b "circuitBreaker.maxConcurrent") /\ fits u (s2b "circuitBreaker.sleepWindow") /\ fits u (s2b "requestTimeout") /\
  cb_concurrent (buildCommandConfig (mkHy 20 5000 50 1000) u) = 7%Z.
Proof.
  cbv zeta. split; [|split; [|split; [|reflexivity]]]; intros t H; vm_compute in H; try discriminate H; injection H as <-; vm_compute; discriminate.
Qed.
Example C60_example : cbFilter HRan false 9 (mkFresp 9 (Some (mkFex 5 (s2b "x") BizException)) []) = (true, mkFresp 9 (Some (mkFex 5 (s2b "x") BizException)) []) /\
  cbFilter (HRefused (s2b "hystrix: circuit open")) true 9 (mkFresp 9 None (s2b "v")) = (false, defaultErrResponse 9 (s2b "hystrix: circuit open")).
Proof. split; reflexivity. Qed.
