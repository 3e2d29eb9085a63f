(* AgentProps.v: C48 (routing), C71 (reload), C72 (defaults of a request). *)
From Verif Require Import Base Strconv GoStrings2 UrlModel UrlSpec UrlProofs AgentModel AgentSpec AgentProofs.

(* Whatever was started, subscribed and reloaded, in whatever order and with whatever overlap: the cluster that answers serves
   the requested service; among several, the request names a group and the answer is the first that matches it in group,
   protocol and version. *)
Theorem C48_serves : forall app os s service a c,
  aruns (ainit app) os = Some s -> findCluster (aSmap s) service a = inl c -> service <> [] /\
  exists it, In it (candidates (aSmap s) service) /\ iCluster it = c /\ uPath (iUrl it) = service /\
    (length (candidates (aSmap s) service) <> 1 ->
       att a (s2b "M_g") <> [] /\ request_matches (iUrl it) service (att a (s2b "M_g")) (att a (s2b "M_pp")) (att a (s2b "M_v")) /\
       exists b d, candidates (aSmap s) service = b ++ it :: d /\
         Forall (fun x => ~ request_matches (iUrl x) service (att a (s2b "M_g")) (att a (s2b "M_pp")) (att a (s2b "M_v"))) b).
Proof. intros app os s service a c H F. exact (@found_serves _ _ _ _ (av_path (@ainv_reach app os s H)) F). Qed.
Print Assumptions C48_serves.

(* A request is refused only when it names no service, the service is unknown, or there are several candidates and the
   request names no group or matches none of them. *)
Theorem C48_refuses : forall m service a w, findCluster m service a = inr w ->
  service = [] \/ candidates m service = [] \/ att a (s2b "M_g") = [] \/
  forall it, In it (candidates m service) -> ~ request_matches (iUrl it) service (att a (s2b "M_g")) (att a (s2b "M_pp")) (att a (s2b "M_v")).
Proof. exact @not_found. Qed.
Print Assumptions C48_refuses.
(* A request for which a cluster is found goes there, whatever http domains exist; otherwise it goes to the http cluster of
   the domain it names, and is refused if there is none. *)
Theorem C48_route : forall m http service a,
  (forall c, route m http service a = ToCluster c <-> findCluster m service a = inl c) /\
  (forall c, route m http service a = ToHttp c <-> (exists w, findCluster m service a = inr w) /\ aget bs_eqb http service = Some c) /\
  (forall w, route m http service a = Refused w <-> findCluster m service a = inr w /\ aget bs_eqb http service = None).
Proof.
  intros m http service a. unfold route. destruct (findCluster m service a) as [c|w]; [|destruct (aget bs_eqb http service) as [h|]]; repeat split; intros;
    repeat match goal with H : _ /\ _ |- _ => destruct H | H : exists _, _ |- _ => destruct H end; try discriminate; try congruence; try (eexists; reflexivity).
Qed.
Print Assumptions C48_route.

(* No cluster that serves requests has been destroyed, and two of them are never the same unless they serve the same URL. *)
Theorem C71_in_use_alive : forall app os s it,
  aruns (ainit app) os = Some s -> in_use s it ->
  ~ In (iCluster it) (aDead s) /\ forall it', in_use s it' -> iCluster it' = iCluster it -> it' = it.
Proof.
  intros app os s it H U. pose proof (@ainv_reach app os s H) as V. split.
  - intro D. destruct (@av_dead s V _ D) as [_ [B _]]. exact (B it U eq_refl).
  - intros it' U' E. exact (@av_uniq s V _ _ (or_introl U') (or_introl U) E).
Qed.
Print Assumptions C71_in_use_alive.

(* An undisturbed reload serves exactly the new references, in their order, keeps the cluster of every reference that was
   served before and destroys exactly the clusters of which the URL is not referred to any more. *)
Theorem C71_reload : forall app os s refs n s',
  aruns (ainit app) os = Some s -> aReload s = RIdle -> Forall (fun u => uParams u <> None) refs ->
  aruns s (AReload refs :: repeat AStep n) = Some s' -> aReload s' = RIdle ->
  exists refs', Forall2 (with_app (aApp s)) refs refs' /\
    (forall service, Forall2 (serves_ref s) (filter (fun u => bs_eqb (uPath u) service) refs') (candidates (aSmap s') service)) /\
    (text_tells_path (refs' ++ map iUrl (concat (map snd (aSmap s)))) ->
     forall d, In d (aDead s') <-> In d (aDead s) \/
       exists it, in_use s it /\ iCluster it = d /\ ~ exists u, In u refs' /\ ext u = ext (iUrl it)).
Proof. exact @reload_exact. Qed.
Print Assumptions C71_reload.

Theorem C71_clean_text_tells_path : forall l, Forall clean l -> text_tells_path l.
Proof. exact clean_tells. Qed.
Print Assumptions C71_clean_text_tells_path.

(* ---- a concrete history: two references start, a reload drops one, keeps one and adds one *)
Definition exU (path group : string) : url := mkUrl (s2b "motan2") [] 0 (s2b path) (s2b group) (Some [(s2b "registry", s2b "r")]).
Definition exA (u : url) : url := withParams u (Some [(s2b "registry", s2b "r"); (s2b "application", s2b "app")]).
Definition inits (j : nat) : list aop := [AInit j; AInit j; AInit j].
Definition ex_os : list aop := ABegin (exU "svc" "g1") :: ABegin (exU "svc" "g2") :: inits 0 ++ inits 1.
Definition ex_s : ast := mkAst (s2b "app") [(s2b "svc", [mkItem (exA (exU "svc" "g1")) 0; mkItem (exA (exU "svc" "g2")) 1])]
  [(s2b "g1_1.0_motan2_svc", 0); (s2b "g2_1.0_motan2_svc", 1)] 2 [] RIdle [(exU "svc" "g1", IDone); (exU "svc" "g2", IDone)].
Definition ex_refs : list url := [exU "other" "g3"; exU "svc" "g2"].
Example C71_nonvacuous :
  aruns (ainit (s2b "app")) ex_os = Some ex_s /\ Forall (fun u => uParams u <> None) ex_refs /\
  exists s', aruns ex_s (AReload ex_refs :: repeat AStep 7) = Some s' /\ aReload s' = RIdle /\ aDead s' = [0] /\
    candidates (aSmap s') (s2b "svc") = [mkItem (exA (exU "svc" "g2")) 1] /\ candidates (aSmap s') (s2b "other") = [mkItem (exA (exU "other" "g3")) 2].
Proof.
  split; [vm_compute; reflexivity|]. split; [repeat constructor; discriminate|].
  eexists. split; [vm_compute; reflexivity|]. repeat split.
Qed.
Example C48_nonvacuous :
  findCluster (aSmap ex_s) (s2b "svc") [(s2b "M_g", s2b "g2"); (s2b "M_pp", s2b "motan")] = inl 1 /\
  findCluster (aSmap ex_s) (s2b "svc") [(s2b "M_g", s2b "g3")] = inr NoMatch /\ in_use ex_s (mkItem (exA (exU "svc" "g1")) 0).
Proof.
  split; [vm_compute; reflexivity|]. split; [vm_compute; reflexivity|]. exists (s2b "svc"). left. reflexivity.
Qed.

(* FINDING: a single candidate answers whatever group, protocol and version the request asks for. *)
Theorem C48_single_refuted : exists app os s service a c,
  aruns (ainit app) os = Some s /\ findCluster (aSmap s) service a = inl c /\
  forall it, in_use s it -> ~ request_matches (iUrl it) service (att a (s2b "M_g")) (att a (s2b "M_pp")) (att a (s2b "M_v")).
Proof.
  exists (s2b "app"), (ABegin (exU "svc" "g1") :: inits 0). eexists.
  exists (s2b "svc"), [(s2b "M_g", s2b "another group")], 0. split; [vm_compute; reflexivity|]. split; [vm_compute; reflexivity|].
  intros it [k I]. unfold candidates in I. cbn [aSmap aget] in I. match type of I with context [if ?b then _ else _] => destruct b end; [|destruct I].
  destruct I as [<-|[]]. intro R. apply isMatch_spec in R. vm_compute in R. discriminate R.
Qed.
Print Assumptions C48_single_refuted.

(* FINDING: the same URL referred to twice makes two clusters, and then a request without a group, which one cluster would
   have served, is refused. *)
Theorem C48_twice_refuted : exists app os s service,
  aruns (ainit app) os = Some s /\ quiet s /\ findCluster (aSmap s) service [] = inr EmptyGroup /\
  exists u, forall it, in_use s it -> iUrl it = u.
Proof.
  exists (s2b "app"), (ABegin (exU "svc" "g1") :: ABegin (exU "svc" "g1") :: inits 0 ++ inits 1). eexists.
  exists (s2b "svc"). split; [vm_compute; reflexivity|]. split; [split; [reflexivity|repeat constructor]|]. split; [vm_compute; reflexivity|].
  exists (exA (exU "svc" "g1")). intros it [k I]. unfold candidates in I. cbn [aSmap aget] in I.
  match type of I with context [if ?b then _ else _] => destruct b end; [|destruct I].
  destruct I as [<-|[<-|[]]]; vm_compute; reflexivity.
Qed.
Print Assumptions C48_twice_refuted.

(* FINDING: a service subscribed while a reload is under way is lost: its cluster is destroyed, no request finds it, and the
   destroyed cluster stays in the map that agent commands are delivered through. *)
Theorem C71_lost_subscription_refuted : exists app os s u,
  aruns (ainit app) os = Some s /\ quiet s /\ In (u, IDone) (aJobs s) /\ findCluster (aSmap s) (uPath u) [] = inr UnknownService /\
  exists k c, In (k, c) (aCmap s) /\ In c (aDead s).
Proof.
  exists (s2b "app"), ([AReload []; ABegin (exU "svc" "g1"); AInit 0; AInit 0] ++ repeat AStep 4 ++ [AInit 0]). eexists.
  exists (exU "svc" "g1"). split; [vm_compute; reflexivity|]. split; [split; [reflexivity|repeat constructor]|].
  split; [left; reflexivity|]. split; [vm_compute; reflexivity|].
  exists (s2b "g1_1.0_motan2_svc"), 0. split; [left; vm_compute; reflexivity|left; reflexivity].
Qed.
Print Assumptions C71_lost_subscription_refuted.

(* FINDING: of two clusters of the same URL a reload keeps one twice and forgets the other without destroying it. *)
Theorem C71_leak_refuted : exists app os s c,
  aruns (ainit app) os = Some s /\ quiet s /\ c < aNext s /\ ~ In c (aDead s) /\ (forall it, in_use s it -> iCluster it <> c) /\ ~ In c (map snd (aCmap s)).
Proof.
  exists (s2b "app"), (ABegin (exU "svc" "g1") :: ABegin (exU "svc" "g1") :: inits 0 ++ inits 1 ++ AReload [exU "svc" "g1"; exU "svc" "g1"] :: repeat AStep 7). eexists.
  exists 1. split; [vm_compute; reflexivity|]. split; [split; [reflexivity|repeat constructor]|]. split; [cbn; lia|]. split; [intros []|]. split.
  - intros it [k I]. unfold candidates in I. cbn [aSmap aget] in I.
    match type of I with context [if ?b then _ else _] => destruct b end; [|destruct I]. destruct I as [<-|[<-|[]]]; discriminate.
  - intros [X|[]]. discriminate X.
Qed.
Print Assumptions C71_leak_refuted.

(* FINDING: clusters that differ in registry or in "_" only share a key of the map that agent commands are delivered through. *)
Theorem C71_command_key_refuted : exists u v, uGroup u <> uGroup v /\ uPath u <> uPath v /\ clusterKey u = clusterKey v.
Proof.
  exists (mkUrl (s2b "p") [] 0 (s2b "1.0_p_c") (s2b "a") (Some [])), (mkUrl (s2b "p") [] 0 (s2b "c") (s2b "a_1.0_p") (Some [])).
  split; [discriminate|]. split; [discriminate|]. reflexivity.
Qed.
Print Assumptions C71_command_key_refuted.
(* References that agree in group, path and version share a command entry exactly if they have the same protocol, cedrus being
   another name of motan2; a reference without a version has version 1.0. *)
Theorem C71_command_key : forall u v, uGroup u = uGroup v -> uPath u = uPath v -> str_or u (s2b "version") (s2b "1.0") = str_or v (s2b "version") (s2b "1.0") ->
  (clusterKey u = clusterKey v <-> uProtocol u = uProtocol v \/ (In (uProtocol u) [s2b "cedrus"; s2b "motan2"] /\ In (uProtocol v) [s2b "cedrus"; s2b "motan2"])).
Proof.
  intros u v G P V. unfold clusterKey. rewrite G, P.
  rewrite !getStringParams_str_or. change VersionKey with (s2b "version"). rewrite V. split.
  - intro H. apply app_inv_head, app_inv_head, app_inv_head, app_inv_head, app_inv_tail in H.
    destruct (bs_eqb (uProtocol u) (s2b "cedrus")) eqn:A, (bs_eqb (uProtocol v) (s2b "cedrus")) eqn:B; try apply bs_eqb_spec in A; try apply bs_eqb_spec in B; [left; congruence| | |left; exact H]; right; cbn; auto.
  - intros [->|[[A|[A|[]]] [B|[B|[]]]]]; [reflexivity| | | |]; rewrite <- A, <- B; reflexivity.
Qed.
Print Assumptions C71_command_key.

(* ---- C72 *)
(* What a request says about itself is never overwritten, nothing else is touched, and the group and the application of the
   reference are filled in where the request says nothing (under the keys of the request's protocol version). *)
Theorem C72_keeps : forall v1 u a k, att a k <> [] -> att (fillDefault v1 u a) k = att a k.
Proof. exact fill_keeps. Qed.
Print Assumptions C72_keeps.
Theorem C72_nothing_else : forall (v1 : bool) u a k,
  ~ In k (if v1 then [s2b "application"; s2b "group"] else [s2b "M_s"; s2b "M_g"]) -> att (fillDefault v1 u a) k = att a k.
Proof. exact fill_others. Qed.
Print Assumptions C72_nothing_else.
Theorem C72_fills : forall (v1 : bool) u a,
  if v1 then att (fillDefault v1 u a) (s2b "group") = or_else (att a (s2b "group")) (uGroup u) /\
             att (fillDefault v1 u a) (s2b "application") = or_else (att a (s2b "application")) (str_or u (s2b "application") [])
  else att (fillDefault v1 u a) (s2b "M_g") = or_else (att a (s2b "M_g")) (uGroup u) /\
       att (fillDefault v1 u a) (s2b "M_s") = or_else (att a (s2b "M_s")) (or_else (att a (s2b "application")) (str_or u (s2b "application") [])).
Proof. exact fill_values. Qed.
Print Assumptions C72_fills.
Example C72_nonvacuous : fillDefault false (exA (exU "svc" "g1")) [(s2b "M_g", s2b "mine"); (s2b "x", s2b "y")] =
  [(s2b "M_g", s2b "mine"); (s2b "x", s2b "y"); (s2b "M_s", s2b "app")].
Proof. vm_compute. reflexivity. Qed.
