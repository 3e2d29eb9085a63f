(* ClusterProps.v: C21 and C22. *)
From Coq Require Import Permutation.
From Verif Require Import Base Lists GoStrings GoStrings2 UrlModel UrlSpec ClusterModel ClusterSpec ClusterProofs.

(* ---- C22: the refers filter *)
(* configurations apply by group and service; when some apply, a node is kept exactly when the configurations allow its host, and the order is kept *)
Theorem C22_filter nl l u A (hostOf : A -> bs) (eps : list A) :
  match parseRefersFilters nl l u with
  | None => forall c, In c l -> ~ config_applies u c
  | Some f => (exists keep, filterRefersBy nl hostOf f eps = filter keep eps /\ forall e, keep e = true <-> host_allowed nl l u (hostOf e))
  end.
Proof.
  pose proof (parse_filters nl l u) as H. destruct (parseRefersFilters nl l u) as [f|]; [|exact H].
  exists (fun e => keepHost nl f (hostOf e)). split; [reflexivity|]. intro e. apply H.
Qed.
Print Assumptions C22_filter.
(* when no configuration applies, none is made *)
Theorem C22_no_filter nl l u : parseRefersFilters nl l u = None <-> (forall c, In c l -> ~ config_applies u c).
Proof.
  pose proof (parse_filters nl l u) as H. destruct (parseRefersFilters nl l u) as [f|] eqn:E.
  - split; [intro X; discriminate X|]. intro X. exfalso. unfold parseRefersFilters in E. revert E.
    match goal with |- context [filter ?g l] => destruct (filter g l) as [|c r] eqn:Ef end; [intro Y; discriminate Y|]. intros _.
    match type of Ef with ?f = _ => assert (Hin : In c f) by (rewrite Ef; left; reflexivity) end.
    apply filter_In in Hin as [Hin Hg]. apply applies_spec in Hg. exact (X c Hin Hg).
  - split; [intros _; exact H|reflexivity].
Qed.
Print Assumptions C22_no_filter.
Definition exNet : netlib := mkNet (fun s => if bs_eqb s (s2b "10.0.0.0/8") then Some 10%N else None)
                                   (fun s => if hasPrefix s (s2b "10.") then Some 10%N else if hasPrefix s (s2b "11.") then Some 11%N else None) N.eqb.
Definition exCfg : list fconfig := [mkFc (s2b "g") [] (s2b "include") (s2b "10.0.0.0/8, 11.2"); mkFc [] (s2b "other") (s2b "exclude") (s2b "10.");
                                    mkFc [] [] (s2b "exclude") (s2b "10.9.")].
Definition exCu : url := mkUrl (s2b "motan2") [] 0 (s2b "svc") (s2b "g") (Some []).
Example C22_example : match parseRefersFilters exNet exCfg exCu with
                      | Some f => filterRefersBy exNet (fun h => h) f [s2b "11.3.4.5"; s2b "10.1.1.1"; s2b "11.2.0.1"; s2b "10.9.1.1"; s2b "host"] = [s2b "10.1.1.1"; s2b "11.2.0.1"]
                      | None => False end.
Proof. reflexivity. Qed.

(* ---- C21: the endpoint lists of a cluster *)
(* after any history the cluster knows, registry by registry, the nodes of the last list that was not empty;
   a registry is forgotten only by an empty list while another registry has one *)
Theorem C21_lists nl mk cu os : uProtocol cu <> s2b "direct" -> has_endpoints mk cu ->
  map (fun p => (fst p, map ident (snd p))) (clRR (reached nl mk cu os)) = lists_of cu os.
Proof. exact (reached_view nl mk cu os). Qed.
Print Assumptions C21_lists.
(* the load balancer gets all known endpoints, or those the refers filter keeps if it keeps any *)
Theorem C21_refers nl mk cu os : uProtocol cu <> s2b "direct" ->
  let c := reached nl mk cu os in
  match clFilter c with
  | None => Permutation (clRefers c) (known c)
  | Some f => let kept := filter (fun e => keepHost nl f (uHost (epUrl e))) (known c) in
              (kept <> [] /\ Permutation (clRefers c) kept) \/ (kept = [] /\ Permutation (clRefers c) (known c))
  end.
Proof. intros Hd. destruct (reached_inv nl mk cu os Hd) as [(_ & _ & _ & _ & H) _]. exact H. Qed.
Print Assumptions C21_refers.
(* once the cluster has endpoints, no sequence of notifications or filters leaves it without *)
Theorem C21_never_empty nl mk cu os os' : uProtocol cu <> s2b "direct" ->
  clRefers (reached nl mk cu os) <> [] -> clRefers (reached nl mk cu (os ++ os')) <> [].
Proof.
  intros Hd H. destruct (reached_inv nl mk cu os Hd) as [Hi Hu]. unfold reached, clRun. rewrite fold_left_app.
  apply nonempty_run; [unfold reached, clRun in Hu; rewrite Hu; exact Hd|exact Hi|exact H].
Qed.
Print Assumptions C21_never_empty.
(* endpoint objects: those in use are distinct, and none of them is or will be destroyed by a notification *)
Theorem C21_in_use_alive nl mk cu os e : uProtocol cu <> s2b "direct" -> let c := reached nl mk cu os in
  NoDup (map epObj (known c)) /\ NoDup (map epObj (clDead c)) /\ (In e (clRefers c) -> In e (known c)) /\ (In e (known c) -> ~ In (epObj e) (map epObj (clDead c))).
Proof.
  intros Hd c. destruct (reached_inv nl mk cu os Hd) as [(_ & _ & Hn & _ & Hg) _]. fold c in Hn, Hg. unfold objs in Hn. rewrite map_app in Hn.
  split; [eapply NoDup_app_l; exact Hn|]. split; [|split].
  - eapply NoDup_app_l. eapply Permutation_NoDup; [apply Permutation_app_comm|exact Hn].
  - intro H. destruct (clFilter c) as [f|]; cbn in Hg.
    + destruct Hg as [[_ P]|[_ P]]; apply (Permutation_in _ P) in H; [apply filter_In in H; tauto|exact H].
    + exact (Permutation_in _ Hg H).
  - intros He Hx. apply in_split in He as (a & b & E). rewrite E in Hn. rewrite map_app in Hn. cbn [map] in Hn. rewrite <- app_assoc in Hn. cbn [app] in Hn.
    apply NoDup_remove_2 in Hn. apply Hn. rewrite !in_app_iff. auto.
Qed.
Print Assumptions C21_in_use_alive.
(* a node listed again keeps its endpoint: what is new was not listed before, and what was listed is not made again *)
Theorem C21_reuse nl mk cu os reg urls s1 s2 e : uProtocol cu <> s2b "direct" ->
  let c := reached nl mk cu os in let c' := reached nl mk cu (os ++ [CNotify reg urls s1 s2]) in
  NoDup (map ident (list_of c reg)) ->
  In e (list_of c reg) -> In (ident e) (usable cu (nodes urls)) -> In e (list_of c' reg).
Proof.
  intros Hd c c' Hn He Hu. destruct (reached_inv nl mk cu os Hd) as [Hi Hc]. fold c in Hi, Hc.
  assert (Hd' : uProtocol (clUrl c) <> s2b "direct") by (rewrite Hc; exact Hd).
  subst c'. rewrite reached_snoc. cbn [clStep]. fold c.
  destruct (notify_spec nl mk c reg urls s1 s2 Hd' Hi) as (eps & lost & _ & _ & _ & _ & _ & _ & Hre & _ & _ & HR & _).
  rewrite Hc in Hre. destruct (Hre e He Hu) as (e' & He' & Hid & Hin).
  assert (e' = e).
  { clear - Hn He He' Hid. induction (list_of c reg) as [|x l IH]; [destruct He|]. cbn in Hn. inversion Hn; subst.
    destruct He as [<-|He], He' as [<-|He']; auto.
    - exfalso. apply H1. rewrite <- Hid. apply in_map. exact He'.
    - exfalso. apply H1. rewrite Hid. apply in_map. exact He. }
  subst e'. unfold list_of. rewrite HR. destruct eps as [|e0 eps]; [destruct Hin|].
  rewrite (aget_aset bs_eqb bs_eqb_spec). replace (bs_eqb reg reg) with true by (symmetry; apply bs_eqb_spec; reflexivity). exact Hin.
Qed.
Print Assumptions C21_reuse.
(* when no list names a node twice, every endpoint ever made is known or destroyed: none is lost *)
Theorem C21_no_leak nl mk cu os n : uProtocol cu <> s2b "direct" -> has_endpoints mk cu -> Forall (distinct_nodes cu) os ->
  let c := reached nl mk cu os in n < clNext c -> In n (map epObj (known c)) \/ In n (map epObj (clDead c)).
Proof.
  intros Hd Hm Hf c Hn. destruct (no_leak nl mk cu os Hd Hm Hf) as [_ H]. apply H in Hn. unfold objs in Hn. rewrite map_app in Hn. apply in_app_or in Hn. exact Hn.
Qed.
Print Assumptions C21_no_leak.
(* and without a refers filter, destroying the cluster destroys them all *)
Theorem C21_destroy nl mk cu os n : uProtocol cu <> s2b "direct" -> has_endpoints mk cu -> Forall (distinct_nodes cu) os ->
  let c := reached nl mk cu os in clFilter c = None -> clClosed c = false -> n < clNext c -> In n (map epObj (clDead (clDestroy c))).
Proof.
  intros Hd Hm Hf c Hnf Hcl Hn. destruct (C21_no_leak nl mk cu os n Hd Hm Hf Hn) as [H|H]; fold c in H; unfold clDestroy; rewrite Hcl; cbn [clDead]; rewrite map_app, in_app_iff; [|auto].
  right. pose proof (C21_refers nl mk cu os Hd) as P. cbn zeta in P. fold c in P. rewrite Hnf in P. eapply Permutation_in; [apply Permutation_map; symmetry; exact P|exact H].
Qed.
Print Assumptions C21_destroy.

(* the url of every endpoint is that of a node of a notification which can serve the cluster, with the cluster's parameters over the node's *)
Theorem C21_endpoint_urls nl mk cu os e : uProtocol cu <> s2b "direct" -> has_keys_once (uParams cu) -> let c := reached nl mk cu os in
  In e (clRefers c) \/ In e (clDead c) ->
  exists reg urls s1 s2 u, In (CNotify reg urls s1 s2) os /\ In (Some u) (nodes urls) /\ canServe u cu = true /\ made_from cu u (epUrl e).
Proof.
  intros Hd Hk c H. apply (reached_made nl mk cu os e Hd Hk). fold c. destruct H as [H|H]; [left|right; exact H].
  exact (proj1 (proj2 (proj2 (C21_in_use_alive nl mk cu os e Hd))) H).
Qed.
Print Assumptions C21_endpoint_urls.
(* the cluster is open until it is destroyed; it is then closed, and destroying it again destroys no endpoint again *)
Theorem C21_destroy_once nl mk cu os : uProtocol cu <> s2b "direct" -> let c := reached nl mk cu os in
  clClosed c = false /\ clClosed (clDestroy c) = true /\ clDead (clDestroy c) = clDead c ++ clRefers c /\
  clDestroy (clDestroy c) = clDestroy c /\ NoDup (map epObj (clDead (clDestroy (clDestroy c)))).
Proof.
  intros Hd c. pose proof (reached_open nl mk cu os) as Ho. fold c in Ho.
  assert (E : clDestroy (clDestroy c) = clDestroy c) by (unfold clDestroy; rewrite Ho; reflexivity).
  assert (D : clDead (clDestroy c) = clDead c ++ clRefers c) by (unfold clDestroy; rewrite Ho; reflexivity).
  split; [exact Ho|]. split; [unfold clDestroy; rewrite Ho; reflexivity|]. split; [exact D|]. split; [exact E|]. rewrite E, D.
  destruct (reached_inv nl mk cu os Hd) as [(_ & _ & Hn & _ & Hg) _]. fold c in Hn, Hg. unfold objs in Hn. rewrite map_app in *.
  assert (P : exists r, Permutation (known c) (clRefers c ++ r)).
  { destruct (clFilter c) as [f|]; cbn in Hg.
    - destruct Hg as [[_ P]|[_ P]]; [|exists []; rewrite app_nil_r; symmetry; exact P]. exists (filter (fun e => negb (keepHost nl f (uHost (epUrl e)))) (known c)).
      rewrite P. unfold filterRefersBy. generalize (known c). intro l. induction l as [|a l IH]; cbn; [reflexivity|].
      destruct (keepHost nl f (uHost (epUrl a))); cbn [negb app]; [constructor; exact IH|]. rewrite <- Permutation_middle. constructor. exact IH.
    - exists []. rewrite app_nil_r. symmetry. exact Hg. }
  destruct P as [r P]. apply (NoDup_app_l _ (map epObj r)). rewrite <- app_assoc, <- map_app.
  eapply Permutation_NoDup; [|exact Hn]. rewrite Permutation_app_comm. apply Permutation_app_head. apply Permutation_map. exact P.
Qed.
Print Assumptions C21_destroy_once.

(* the group weights in force are those of the last notification: the parameter "weight" of a rule at its end, none without a rule *)
Theorem C21_weight nl mk cu os reg urls s1 s2 :
  clWeight (reached nl mk cu (os ++ [CNotify reg urls s1 s2])) =
  match rev urls with
  | Some u :: _ => if bs_eqb (uProtocol u) (s2b "rule") then match pget (uParams u) (s2b "weight") with Some w => w | None => [] end else []
  | _ => []
  end.
Proof.
  rewrite reached_snoc. cbn [clStep]. set (c := reached nl mk cu os). unfold clNotify.
  transitivity (fst (processWeight urls)).
  - destruct (processWeight urls) as [w us]. cbn [fst].
    match goal with |- context [notifyLoop ?a ?b ?d ?e ?g ?h] => destruct (notifyLoop a b d e g h) as [[eps rest] nx] end.
    destruct eps; [destruct (1 <? length (clRR c))|]; reflexivity.
  - unfold processWeight. destruct (rev urls) as [|[u|] r]; [reflexivity| |reflexivity]. change RuleProtocol with (s2b "rule").
    destruct (bs_eqb (uProtocol u) (s2b "rule")); reflexivity.
Qed.
Print Assumptions C21_weight.

Definition node (h : string) : option url := Some (mkUrl (s2b "motan2") (s2b h) 80 (s2b "svc") (s2b "g") (Some [])).
Definition rule (w : string) : option url := Some (mkUrl (s2b "rule") [] 0 [] [] (Some [(s2b "weight", s2b w)])).
Definition exOs : list clop := [CNotify (s2b "r1") [node "a"; node "b"; rule "w"] [] [(0, 1)]; CNotify (s2b "r2") [node "c"] [(0, 1)] [];
                                CNotify (s2b "r1") [node "b"; None; node "d"] [] []; CNotify (s2b "r2") [] [] []; CNotify (s2b "r1") [] [] []].
Example C21_example : uProtocol exCu <> s2b "direct" /\ has_endpoints (fun _ => true) exCu /\ Forall (distinct_nodes exCu) exOs /\
  map fst (lists_of exCu exOs) = [s2b "r1"] /\
  map (fun e => (epObj e, uHost (epUrl e))) (clRefers (reached exNet (fun _ => true) exCu exOs)) = [(1, s2b "b"); (3, s2b "d")] /\
  map epObj (clDead (reached exNet (fun _ => true) exCu exOs)) = [0; 2].
Proof.
  split; [intro X; discriminate X|]. split; [intros u _; reflexivity|]. split.
  - repeat constructor; cbn; intuition discriminate.
  - vm_compute. repeat split.
Qed.

(* "an empty list from the only registry changes nothing" is false: the weights of the groups are reset *)
Theorem C21_ignored_notification_refuted : exists cu os, let c := reached exNet (fun _ => true) cu os in
  let c' := reached exNet (fun _ => true) cu (os ++ [CNotify (s2b "r1") [] [] []]) in clRefers c' = clRefers c /\ clRefers c <> [] /\ clWeight c = s2b "w" /\ clWeight c' = [].
Proof. exists exCu, [CNotify (s2b "r1") [node "a"; rule "w"] [] []]. vm_compute. repeat split. intro X. discriminate X. Qed.
(* "no endpoint is lost" needs lists without repeated nodes *)
Theorem C21_duplicate_leak_refuted : exists cu os n, let c := reached exNet (fun _ => true) cu os in
  n < clNext c /\ ~ In n (map epObj (known c)) /\ ~ In n (map epObj (clDead c)).
Proof.
  exists exCu, [CNotify (s2b "r1") [node "a"; node "a"] [] []; CNotify (s2b "r1") [node "a"] [] []], 0.
  vm_compute. split; [lia|]. split; [intros [X|[]]; discriminate X|intros []].
Qed.
(* "destroying the cluster destroys every endpoint" is false under a refers filter *)
Theorem C21_destroy_filtered_refuted : exists cu os n, let c := reached exNet (fun _ => true) cu os in
  Forall (distinct_nodes cu) os /\ clClosed c = false /\ n < clNext c /\ ~ In n (map epObj (clDead (clDestroy c))).
Proof.
  exists exCu, [CNotify (s2b "r1") [node "10.1"; node "10.9.1"] [] []; CSetFilter (parseRefersFilters exNet exCfg exCu) [] []], 1.
  split; [repeat constructor; cbn; intuition discriminate|]. vm_compute. split; [reflexivity|]. split; [lia|]. intros [X|[]]. discriminate X.
Qed.
Print Assumptions C21_destroy_filtered_refuted.
(* an endpoint whose node gives a parameter the cluster gives too *)
Example C21_endpoint_urls_example :
  let cu := mkUrl (s2b "motan2") [] 0 (s2b "svc") (s2b "g") (Some [(s2b "serialization", s2b "simple")]) in
  let n := mkUrl (s2b "motan2") (s2b "h") 80 (s2b "svc") (s2b "g") (Some [(s2b "serialization", s2b "pb"); (s2b "weight", s2b "3")]) in
  has_keys_once (uParams cu) /\
  map (fun e => uParams (epUrl e)) (clRefers (reached exNet (fun _ => true) cu [CNotify (s2b "r") [Some n] [] []])) =
    [Some [(s2b "serialization", s2b "simple"); (s2b "weight", s2b "3")]].
Proof. split; [repeat constructor; intros []|vm_compute; reflexivity]. Qed.
