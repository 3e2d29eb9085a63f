(* HlocProps.v: C112, the http sections of a configuration. *)
From Verif Require Import Base Strconv GoStrings GoStrings2 UrlModel UrlSpec UrlProofs ConfModel ConfProofs HttpModel HttpSpec HttpProofs HprovModel HprovSpec HprovProofs HlocModel HlocSpec HlocProofs.
From Coq Require Import Permutation.

(* The locations of a domain are the entries written for it, in their order, and none if no list is written for it. *)
Theorem C112_locations : forall c d ls, locationsFromContext c d = Some ls <->
  (exists vs, written c d vs /\ Forall2 entry_of vs ls) \/ ((forall vs, ~ written c d vs) /\ ls = []).
Proof. exact locations_read. Qed.
Print Assumptions C112_locations.

(* What is written for other domains, or elsewhere in the configuration, makes no difference. *)
Theorem C112_own_section : forall c c' d, (forall vs, written c d vs <-> written c' d vs) ->
  locationsFromContext c d = locationsFromContext c' d.
Proof. exact same_written. Qed.
Print Assumptions C112_own_section.

(* Requests are routed by the written entries. *)
Theorem C112_routes : forall K c d vs ls, written c d vs -> Forall2 entry_of vs ls -> exists m, matcherFromContext K c d = Some m /\
  forall path query qget rw, match pick m path query qget rw with
  | Some (up, p) => exists l, nginx_choice K ls path l /\ up = l_up l /\ p = determinePath (compileRules K (l_rules l)) path query qget rw
  | None => forall l, ~ nginx_choice K ls path l
  end.
Proof.
  intros K c d vs ls W F. exists (newLocationMatcher K ls). split; [|intros; apply pick_choice].
  unfold matcherFromContext. rewrite (proj2 (locations_read c d ls)); [reflexivity|]. left. eauto.
Qed.
Print Assumptions C112_routes.
Theorem C112_no_routes : forall K c d, (forall vs, ~ written c d vs) -> exists m, matcherFromContext K c d = Some m /\
  forall path query qget rw, pick m path query qget rw = None.
Proof.
  intros K c d N. exists (newLocationMatcher K []). split; [|reflexivity].
  unfold matcherFromContext. rewrite (proj2 (locations_read c d [])); [reflexivity|]. right. auto.
Qed.
Print Assumptions C112_no_routes.

(* The cluster of a domain: when there is one, whether it asks its registry, and what it serves. *)
Theorem C112_refused : forall K c regs ext u, newHTTPCluster K c regs ext u = Some None <->
  str_or u (s2b "domain") [] = [] \/ exists r, regs (str_or u (s2b "registry") []) = Some r /\ ext r = None.
Proof.
  intros K c regs ext u. unfold newHTTPCluster. rewrite !getParam_str_or. destruct (str_or u (s2b "domain") []) as [|d0 d].
  - split; [auto|reflexivity].
  - destruct (regs (str_or u (s2b "registry") [])) as [r|].
    + destruct (ext r) as [b|] eqn:E.
      * destruct (matcherFromContext K c (d0 :: d)); (split; [discriminate|]); intros [H|(r' & H & E')]; try discriminate H; injection H as <-; congruence.
      * split; [|reflexivity]. intros _. right. exists r. auto.
    + destruct (matcherFromContext K c (d0 :: d)); (split; [discriminate|]); intros [H|(r' & H & _)]; discriminate H.
Qed.
Print Assumptions C112_refused.
Theorem C112_serves : forall K c regs ext u h, newHTTPCluster K c regs ext u = Some (Some h) ->
  exists ls, locationsFromContext c (str_or u (s2b "domain") []) = Some ls
  /\ (hc_lists h = true <-> exists r, regs (str_or u (s2b "registry") []) = Some r /\ ext r = Some true)
  /\ forall inGroup uri s, canServeUri (hc_matcher h) (if hc_lists h then Some inGroup else None) (hc_ups h) uri = Some s <->
       s <> [] /\ (exists l, nginx_choice K ls uri l /\ s = l_up l) /\
       (if hc_lists h then inGroup s = true else listed (str_or u (s2b "preload") []) s).
Proof.
  intros K c regs ext u h H. unfold newHTTPCluster, matcherFromContext in H. rewrite !getParam_str_or in H.
  destruct (str_or u (s2b "domain") []) as [|d0 d] eqn:D; [discriminate H|].
  assert (L : exists b, match regs (str_or u (s2b "registry") []) with None => Some false | Some r => ext r end = Some b /\ hc_lists h = b /\
              exists ls, locationsFromContext c (d0 :: d) = Some ls /\ h = mkHclu (newLocationMatcher K ls) b (filter (fun s => negb (bs_empty s)) (trimSplit (str_or u (s2b "preload") []) (s2b ",")))).
  { destruct (match regs (str_or u (s2b "registry") []) with None => Some false | Some r => ext r end) as [b|]; [|discriminate H].
    exists b. split; [reflexivity|]. destruct (locationsFromContext c (d0 :: d)) as [ls|]; [|discriminate H]. cbn [option_map] in H. injection H as <-.
    split; [reflexivity|]. exists ls. auto. }
  destruct L as (b & R & _ & ls & E & ->). exists ls. split; [exact E|]. cbn [hc_lists hc_matcher hc_ups]. split.
  - destruct (regs (str_or u (s2b "registry") [])) as [r|].
    + split; [intros ->; exists r; auto|]. intros (r' & Q & X). injection Q as <-. congruence.
    + injection R as <-. split; [discriminate|]. intros (r' & Q & _). discriminate Q.
  - intros inGroup uri s. unfold canServeUri, uriToServiceName. pose proof (pick_choice K ls uri [] (fun _ => []) false) as P.
    destruct (pick (newLocationMatcher K ls) uri [] (fun _ => []) false) as [[up p]|].
    + destruct P as (l & C & -> & _). destruct (bs_empty (l_up l)) eqn:N.
      * split; [discriminate|]. intros (S1 & (l' & C' & ->) & _). rewrite <- (choice_unique K ls uri l l' C C') in S1. apply bs_empty_spec in N. contradiction.
      * apply bs_empty_false in N.
        assert (A : forall t, (exists l0, nginx_choice K ls uri l0 /\ t = l_up l0) -> t = l_up l).
        { intros t (l' & C' & ->). rewrite (choice_unique K ls uri l l' C C'). reflexivity. }
        destruct b.
        -- destruct (inGroup (l_up l)) eqn:G; split.
           ++ intro Q. injection Q as <-. eauto 6.
           ++ intros (_ & Q & _). rewrite (A s Q). reflexivity.
           ++ discriminate.
           ++ intros (_ & Q & X). rewrite (A s Q) in X. congruence.
        -- assert (I : existsb (bs_eqb (l_up l)) (filter (fun s => negb (bs_empty s)) (trimSplit (str_or u (s2b "preload") []) (s2b ","))) = true <-> listed (str_or u (s2b "preload") []) (l_up l)).
           { rewrite (existsb_eqb_In bs_eqb bs_eqb_spec), filter_In. unfold listed. split; [tauto|]. intro X. split; [exact X|]. rewrite (proj2 (bs_empty_false _) N). reflexivity. }
           destruct (existsb _ _); split.
           ++ intro Q. injection Q as <-. split; [exact N|]. split; [eauto|]. apply I. reflexivity.
           ++ intros (_ & Q & _). rewrite (A s Q). reflexivity.
           ++ discriminate.
           ++ intros (_ & Q & X). rewrite (A s Q) in X. apply I in X. discriminate X.
    + cbn [bs_empty]. split; [discriminate|]. intros (_ & (l & C & _) & _). destruct (P l C).
Qed.
Print Assumptions C112_serves.

(* The settings of http services are the strings written for them. *)
Theorem C112_services : forall c sec s, getSection c (s2b "http-service") = Some sec -> once sec ->
  (servicesFromContext c = Some s <-> Forall2 service_written sec s).
Proof. intros c sec s G N. unfold servicesFromContext. rewrite G. apply readServices_written. exact N. Qed.
Print Assumptions C112_services.
Theorem C112_no_services : forall c, getSection c (s2b "http-service") = None -> servicesFromContext c = Some [].
Proof. intros c G. unfold servicesFromContext. rewrite G. reflexivity. Qed.
Print Assumptions C112_no_services.
Theorem C112_settings : forall c sec s u method sc, getSection c (s2b "http-service") = Some sec -> once sec -> Forall2 service_written sec s ->
  clear_section s -> settings_of s u method sc ->
  exists s', servicesFromContext c = Some s' /\ confOf (loadSrv s') u method = sc.
Proof.
  intros c sec s u method sc G N F C S. exists s. split; [apply (proj2 (C112_services c sec s G N)); exact F|]. apply settings_ok; assumption.
Qed.
Print Assumptions C112_settings.

(* Findings. *)
(* One entry that is not as expected stops the agent, whatever the others are: a failed type assertion is not caught. *)
Theorem C112_malformed_refuted : forall c d vs v, written c d vs -> In v vs -> (forall l, ~ entry_of v l) ->
  locationsFromContext c d = None /\ forall K, matcherFromContext K c d = None.
Proof. intros c d vs v W I N. pose proof (malformed c d vs v W I N) as M. split; [exact M|]. intro K. unfold matcherFromContext. rewrite M. reflexivity. Qed.
Print Assumptions C112_malformed_refuted.
(* a number where a string is meant, and "type:" left blank, are such entries *)
Definition exLoc : cval := CMap [(KStr (s2b "upstream"), CStr (s2b "u1")); (KStr (s2b "match"), CStr (s2b "/a"));
  (KStr (s2b "type"), CStr (s2b "exact")); (KStr (s2b "rewriteRules"), CList [CStr (s2b "start / ^/(.*) /1/$1")])].
Definition exLoc2 : cval := CMap [(KStr (s2b "upstream"), CStr (s2b "u2")); (KStr (s2b "match"), CStr (s2b "/"))].
Definition exConf (vs : list cval) : cmap := [(KStr (s2b "http-locations"), CMap [(KStr (s2b "d.com"), CList vs); (KStr (s2b "e.com"), CInt 7)])].
Theorem C112_number_refuted : locationsFromContext (exConf [exLoc; CMap [(KStr (s2b "upstream"), CStr (s2b "u2")); (KStr (s2b "match"), CInt 80)]]) (s2b "d.com") = None
  /\ locationsFromContext (exConf [CMap [(KStr (s2b "upstream"), CStr (s2b "u2")); (KStr (s2b "match"), CStr (s2b "/")); (KStr (s2b "type"), CNil)]]) (s2b "d.com") = None.
Proof. split; reflexivity. Qed.
Print Assumptions C112_number_refuted.
(* a timeout written as a number under http-service stops the agent *)
Theorem C112_setting_refuted : servicesFromContext [(KStr (s2b "http-service"), CMap [(KStr (s2b "svc"), CMap [(KStr (s2b "m"), CMap [(KStr (s2b "HTTP_REQUEST_TIMEOUT"), CInt 1000)])])])] = None.
Proof. reflexivity. Qed.
Print Assumptions C112_setting_refuted.
(* a method named under two keys gets the settings of whichever key Go ranges over last *)
Theorem C112_order_refuted : exists info info' s s' u, Permutation info info' /\
  readServices [(KStr (s2b "svc"), CMap info)] = Some s /\ readServices [(KStr (s2b "svc"), CMap info')] = Some s' /\
  confOf (loadSrv s) u (s2b "b") <> confOf (loadSrv s') u (s2b "b").
Proof.
  exists [(KStr (s2b "a,b"), CMap [(KStr (s2b "URL_FORMAT"), CStr (s2b "http://x/"))]); (KStr (s2b "b"), CMap [(KStr (s2b "URL_FORMAT"), CStr (s2b "http://y/"))])].
  exists [(KStr (s2b "b"), CMap [(KStr (s2b "URL_FORMAT"), CStr (s2b "http://y/"))]); (KStr (s2b "a,b"), CMap [(KStr (s2b "URL_FORMAT"), CStr (s2b "http://x/"))])].
  do 2 eexists. exists (mkUrl [] [] 0 [] [] (Some [(s2b "conf-id", s2b "svc")])). split; [apply perm_swap|]. split; [reflexivity|]. split; [reflexivity|]. vm_compute. discriminate.
Qed.
Print Assumptions C112_order_refuted.

(* the hypotheses are met *)
Example C112_written : written (exConf [exLoc; exLoc2]) (s2b "d.com") [exLoc; exLoc2] /\
  Forall2 entry_of [exLoc; exLoc2] [mkLoc (s2b "u1") (s2b "/a") (s2b "exact") [s2b "start / ^/(.*) /1/$1"]; mkLoc (s2b "u2") (s2b "/") [] []] /\
  (forall vs, ~ written (exConf [exLoc]) (s2b "e.com") vs) /\ (forall l, ~ entry_of (CInt 3) l).
Proof.
  split; [eexists; split; reflexivity|]. split; [|split].
  - repeat constructor; eexists; (split; [reflexivity|]); repeat split; try reflexivity; try (left; reflexivity); right; split; reflexivity.
  - intros vs (sec & H & G). vm_compute in H. injection H as <-. vm_compute in G. discriminate G.
  - intros l (m & H & _). discriminate H.
Qed.
Definition exServ : cmap := [(KStr (s2b "svc"), CMap [(KStr (s2b "a, b"), CMap [(KStr (s2b "URL_FORMAT"), CStr (s2b "http://x/%s"))]); (KStr (s2b " ,"), CInt 1)])].
Example C112_services_met : once exServ /\ exists s, Forall2 service_written exServ s /\ clear_section s /\
  settings_of s (mkUrl [] [] 0 [] [] (Some [(s2b "conf-id", s2b "svc")])) (s2b "b") [(s2b "URL_FORMAT", s2b "http://x/%s")].
Proof.
  split.
  - split; [repeat constructor; intros []|]. intros k info [H|[]]. injection H as _ <-. split.
    + repeat constructor; [intros [H|[]]; discriminate H|intros []].
    + intros k' s [H|[H|[]]]; [|discriminate H]. injection H as _ <-. repeat constructor. intros [].
  - exists [(s2b "svc", [(s2b "a, b", [(s2b "URL_FORMAT", s2b "http://x/%s")]); (s2b " ,", [])])]. split; [|split].
    + constructor; [|constructor]. split; [reflexivity|]. eexists. split; [reflexivity|]. constructor; [|constructor; [|constructor]].
      * split; [reflexivity|]. right. split; [vm_compute; discriminate|]. eexists. split; reflexivity.
      * split; [reflexivity|]. left. split; reflexivity.
    + split; [repeat constructor; intros []|]. intros id info [H|[]]. injection H as _ <-.
      intros n1 c1 n2 c2 k I1 I2 L1 L2. destruct I1 as [H1|[H1|[]]], I2 as [H2|[H2|[]]]; injection H1 as <- <-; injection H2 as <- <-; try reflexivity; exfalso;
        unfold listed in *; vm_compute in L1, L2; tauto.
    + right. eexists. split; [left; reflexivity|]. cbv zeta. left. exists (s2b "a, b"). split; [left; reflexivity|]. vm_compute. tauto.
Qed.
Example C112_cluster_met : exists h, newHTTPCluster (fun _ => None) (exConf [exLoc; exLoc2]) (fun _ => None) (fun _ => None)
    (mkUrl [] [] 0 [] [] (Some [(s2b "domain", s2b "d.com"); (s2b "preload", s2b "u1, u2")])) = Some (Some h) /\
  canServeUri (hc_matcher h) None (hc_ups h) (s2b "/a") = Some (s2b "u1") /\ canServeUri (hc_matcher h) None (hc_ups h) (s2b "/ab") = Some (s2b "u2").
Proof. eexists. split; [vm_compute; reflexivity|]. split; vm_compute; reflexivity. Qed.
