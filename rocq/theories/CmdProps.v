(* CmdProps.v: C23 and C24. *)
From Coq Require Import Permutation Sorted.
From Verif Require Import Base Lists GoStrings GoStrings2 UrlModel UrlSpec ClusterModel CmdModel CmdSpec CmdProofs CmdProofs2.

(* ---- C23: route rules *)
(* the result is the input without the nodes some applying rule does not allow, in the same order *)
Theorem C23_route local urls routers : exists keep,
  processRoute local urls routers = filter keep urls /\ forall u, keep u = true <-> route_allows local routers u.
Proof. exact (route_spec local urls routers). Qed.
Print Assumptions C23_route.
Definition hostUrl (h : string) : url := mkUrl (s2b "motan2") (s2b h) 80 (s2b "svc") (s2b "g") (Some []).
Example C23_example :
  processRoute (s2b "10.1.1.1") [hostUrl "10.2.3.4"; hostUrl "10.3.3.3"; hostUrl "11.1.1.1"; buildRuleURL (s2b "w")]
               [s2b "10.1.* to 10.*"; s2b "!10.1.1.1 to 11.1.1.1"; s2b "* to !10.3.3.3"; s2b "nonsense"] = [hostUrl "10.2.3.4"; buildRuleURL (s2b "w")].
Proof. reflexivity. Qed.
Example C23_example_rule : rule_is (s2b "10.1.* to 10.*") (s2b "10.1.*") (s2b "10.*") /\ match_addr (s2b "10.1.*") (s2b "10.1.1.1").
Proof.
  split.
  - exists (s2b "10.1.* "), (s2b " 10.*"). repeat split; intro X; discriminate X.
  - right. exists (s2b "10.1."), []. split; [reflexivity|]. split; [cbn; intuition discriminate|]. exists (s2b "1.1"). reflexivity.
Qed.
(* "a rule between two named hosts is applied" is false when a name contains "to": the rule is dropped *)
Theorem C23_name_with_to_refuted : exists local target u, (~ In x2a local) /\ (~ In x2a target) /\ uHost u <> target /\ uProtocol u <> s2b "rule" /\
  processRoute local [u] [local ++ s2b " to " ++ target] = [u].
Proof.
  exists (s2b "tokyo-1"), (s2b "tokyo-2"), (hostUrl "osaka"). split; [cbn; intuition discriminate|]. split; [cbn; intuition discriminate|].
  split; [intro X; discriminate X|]. split; [intro X; discriminate X|]. reflexivity.
Qed.
Print Assumptions C23_name_with_to_refuted.
(* "a '*' stands for any text" is false unless it ends the pattern: what follows it is ignored *)
Theorem C23_middle_star_refuted : exists a b h, (forall m, h <> a ++ m ++ b) /\ isMatch (a ++ s2b "*" ++ b) h = true.
Proof.
  exists (s2b "10."), (s2b ".7"), (s2b "10.1.1.8"). split; [|reflexivity]. intros m H. apply (f_equal (@rev byte)) in H. rewrite !rev_app_distr in H. cbn in H. discriminate H.
Qed.
Print Assumptions C23_middle_star_refuted.

(* ---- C24: commands *)
(* the traffic command in force after any history is one of lowest index among those concerning the service in the last agent
   text, or, if there is none, in the last service text *)
Theorem C24_in_force lib u os : sort_ok lib ->
  match cwTc (wAfter lib u os) with
  | Some c => lowest lib u 0 (last_text 0 os) c \/ (none_concerns lib u 0 (last_text 0 os) /\ lowest lib u 0 (last_text 1 os) c)
  | None => none_concerns lib u 0 (last_text 0 os) /\ none_concerns lib u 0 (last_text 1 os)
  end.
Proof.
  intro Hs. destruct (after_inv lib u os Hs) as ((_ & _ & _ & H & _) & _ & _ & _ & E1 & E2). rewrite E1, E2 in H. exact H.
Qed.
Print Assumptions C24_in_force.
(* the cluster refuses calls exactly while a degrade command concerns its service *)
Theorem C24_degrade lib u os : sort_ok lib -> Forall (fun o => o <> WUnsubscribe) os ->
  (cwAvail (wAfter lib u os) = true <-> none_concerns lib u 1 (last_text 0 os) /\ none_concerns lib u 1 (last_text 1 os)).
Proof.
  intros Hs Hf. destruct (after_inv lib u os Hs) as (_ & _ & H & _ & E1 & E2). specialize (H Hf). unfold avail_ok in H. rewrite E1, E2 in H. exact H.
Qed.
Print Assumptions C24_degrade.
(* only groups of the command in force (the static one if there is no dynamic one) are watched, besides the own group;
   all of them are, for a dynamic command always and otherwise as soon as a list has been handed over *)
Theorem C24_watched lib u os g : sort_ok lib -> let w := wAfter lib u os in
  (In g (akeys (cwOthers w)) -> exists c, currentTc w = Some c /\ other_group u c g) /\
  (forall c, cwTc w = Some c -> other_group u c g -> In g (akeys (cwOthers w))).
Proof.
  intros Hs w. destruct (after_inv lib u os Hs) as ((_ & Hu & _ & _ & _ & Hw & Ha) & _). fold w in Hu, Hw, Ha. rewrite <- Hu. split.
  - intro H. apply Hw in H as [H1 H2]. destruct (currentTc w) as [c|]; [|destruct H1]. exists c. split; [reflexivity|]. split; assumption.
  - intros c Hc [H1 H2]. assert (Hn : cwTc w <> None) by congruence. apply (Ha Hn); [|exact H2]. unfold currentTc. rewrite Hc. exact H1.
Qed.
Print Assumptions C24_watched.
Theorem C24_watched_after_delivery lib u os o r g c : sort_ok lib -> snd (wStep lib (wAfter lib u os) o) = Some r ->
  let w := wAfter lib u (os ++ [o]) in currentTc w = Some c -> other_group u c g -> In g (akeys (cwOthers w)).
Proof.
  intros Hs Ho w Hc [H1 H2]. subst w. rewrite after_snoc in *. destruct (after_inv lib u os Hs) as (Hi & _). pose proof (step_stepped lib u _ o Hs Hi) as H.
  destruct (wStep lib (wAfter lib u os) o) as [w' out]. cbn [snd fst] in *. destruct H as ((_ & Hu & _) & _ & _ & _ & _ & _ & H & _). destruct (H r Ho) as [_ Hall].
  apply Hall; [rewrite Hc; exact H1|rewrite Hu; exact H2].
Qed.
Print Assumptions C24_watched_after_delivery.
(* when no command names a group twice, the subscriptions at the registry are exactly the watched groups *)
Theorem C24_subscriptions lib u os s : sort_ok lib -> distinct_groups lib u -> let w := wAfter lib u os in
  In s (cwSubs w) <-> exists l, In (snd s, l) (cwOthers w) /\ lnId l = fst s.
Proof.
  intros Hs Hd w. destruct (after_inv lib u os Hs) as (((_ & _ & H & _) & _) & He & _). split; [apply He; exact Hd|].
  intros (l & A & B). destruct s as [i g]. cbn [fst snd] in *. subst i. apply H. exact A.
Qed.
Print Assumptions C24_subscriptions.
(* what the cluster is given: without a command the own nodes; with one, the nodes of its groups that the routes allow, then a
   rule URL; the own nodes again if the groups have none *)
Theorem C24_delivered lib u os o r : sort_ok lib -> snd (wStep lib (wAfter lib u os) o) = Some r ->
  let w := wAfter lib u (os ++ [o]) in
  cwOwn w = last_own (os ++ [o]) /\
  match currentTc w with
  | None => r = cwOwn w
  | Some c => (merged_nodes w c = [] /\ r = cwOwn w) \/
              (merged_nodes w c <> [] /\ exists keep, r = filter keep (merged_nodes w c) ++ [rule_url (joinStr (s2b ",") (cmGroups c))] /\
                 forall x, keep x = true <-> route_allows (clLocal lib) (cmRoutes c) x)
  end.
Proof.
  intros Hs Ho w. split; [apply after_inv; exact Hs|]. subst w. rewrite after_snoc in *. destruct (after_inv lib u os Hs) as (Hi & _). pose proof (step_stepped lib u _ o Hs Hi) as H.
  destruct (wStep lib (wAfter lib u os) o) as [w' out]. cbn [snd fst] in *. destruct H as (_ & _ & _ & _ & _ & _ & H & _). apply (H r Ho).
Qed.
Print Assumptions C24_delivered.
(* the list held for a watched group is the one discovered when it was subscribed, replaced by each later notification *)
Theorem C24_group_lists lib u os o g l' : sort_ok lib -> let w := wAfter lib u os in let w' := wAfter lib u (os ++ [o]) in
  In (g, l') (cwOthers w') ->
    (cwNext w <= lnId l' /\ lnUrls l' = disc_of o g) \/
    (exists l, In (g, l) (cwOthers w) /\ lnId l' = lnId l /\
       lnUrls l' = match o with WOther id urls _ => if id =? lnId l then urls else lnUrls l | _ => lnUrls l end).
Proof.
  intros Hs w w'. subst w'. rewrite after_snoc. destruct (after_inv lib u os Hs) as (Hi & _). pose proof (step_stepped lib u _ o Hs Hi) as H. fold w in H |- *.
  destruct (wStep lib w o) as [w' out]. destruct H as (_ & _ & _ & _ & _ & _ & _ & H). apply H.
Qed.
Print Assumptions C24_group_lists.
(* a change of the own nodes is handed over unless the command in force leaves the own group out *)
Theorem C24_own_change lib u os urls disc : sort_ok lib -> let w := wAfter lib u os in
  snd (wStep lib w (WOwn urls disc)) = None <-> exists c, currentTc w = Some c /\ ~ In (uGroup u) (map groupName (cmGroups c)).
Proof.
  intros Hs w. destruct (after_inv lib u os Hs) as ((_ & Hu & _) & _). fold w in Hu. cbn [wStep]. change (currentTc (setOwn w urls)) with (currentTc w). change (cwUrl (setOwn w urls)) with (cwUrl w).
  destruct (currentTc w) as [c|].
  - destruct (existsb (fun g => bs_eqb (groupName g) (uGroup (cwUrl w))) (cmGroups c)) eqn:E.
    + destruct (getResult lib disc (setOwn w urls)) as [w2 r]. split; [intro X; discriminate X|]. intros (c' & Ec & Hn). injection Ec as <-. exfalso. apply Hn.
      apply existsb_exists in E as (g & Hg & E). apply bs_eqb_spec in E. rewrite <- Hu, <- E. apply in_map. exact Hg.
    + split; [|reflexivity]. intros _. exists c. split; [reflexivity|]. intro Hin. apply in_map_iff in Hin as (g & Eg & Hg). rewrite <- not_true_iff_false in E. apply E.
      apply existsb_exists. exists g. split; [exact Hg|]. apply bs_eqb_spec. congruence.
  - destruct (getResult lib disc (setOwn w urls)) as [w2 r]. split; [intro X; discriminate X|]. intros (c & X & _). discriminate X.
Qed.
Print Assumptions C24_own_change.

(* ---- a concrete history *)
Definition tcA : cmd := mkCmd 3 0 (s2b "*") [s2b "g:1"; s2b "g2:3"] [s2b "* to 10.*"].
Definition tcB : cmd := mkCmd 1 0 (s2b "sv") [s2b "g3"] [].
Definition dgC : cmd := mkCmd 2 1 (s2b "other") [] [].
Fixpoint insertCmd (c : cmd) (l : list cmd) : list cmd := match l with [] => [c] | x :: r => if (cmIndex c <=? cmIndex x)%Z then c :: l else x :: insertCmd c r end.
Definition exLib : cmdlib := mkCmdlib (fun s => if bs_eqb s (s2b "A") then Some [tcA; dgC] else if bs_eqb s (s2b "B") then Some [tcA; tcB] else None)
                                      (fold_right insertCmd []) (fun _ _ => false) (s2b "10.1.1.1").
Lemma exLib_sorts : sort_ok exLib.
Proof.
  assert (P : forall c l, Permutation (insertCmd c l) (c :: l)).
  { intros c l. induction l as [|x l IH]; cbn; [reflexivity|]. destruct (cmIndex c <=? cmIndex x)%Z; [reflexivity|]. rewrite IH. constructor. }
  assert (S : forall c l, StronglySorted (fun a b => (cmIndex a <= cmIndex b)%Z) l -> StronglySorted (fun a b => (cmIndex a <= cmIndex b)%Z) (insertCmd c l)).
  { intros c l H. induction H as [|x l H IH Hx]; cbn; [repeat constructor|]. destruct (Z.leb_spec (cmIndex c) (cmIndex x)).
    - constructor; [constructor; assumption|]. constructor; [lia|]. eapply Forall_impl; [|exact Hx]. cbn. intros. lia.
    - constructor; [exact IH|]. rewrite Forall_forall in *. intros y Hy. apply (Permutation_in _ (P c l)) in Hy as [<-|Hy]; [lia|apply Hx; exact Hy]. }
  intro l. cbn [clSort exLib]. induction l as [|c l [IH1 IH2]]; cbn [fold_right]; [split; constructor|]. split; [rewrite P, IH1; reflexivity|apply S; exact IH2].
Qed.
Definition exU : url := mkUrl (s2b "motan2") [] 0 (s2b "svc") (s2b "g") (Some []).
Definition exD (g : bs) : list url := if bs_eqb g (s2b "g2") then [hostUrl "10.2.2.2"; hostUrl "11.2.2.2"] else if bs_eqb g (s2b "g3") then [hostUrl "10.3.3.3"] else [].
Definition exHist : list wop := [WDiscover [hostUrl "10.0.0.1"] [] exD; WCommand 1 (s2b "A") exD; WOther 0 [hostUrl "10.2.2.9"; hostUrl "11.2.2.9"] exD].
Example C24_example : distinct_groups exLib exU /\ cwTc (wAfter exLib exU exHist) = Some tcA /\ akeys (cwOthers (wAfter exLib exU exHist)) = [s2b "g2"] /\
  snd (wStep exLib (wAfter exLib exU (firstn 2 exHist)) (WOther 0 [hostUrl "10.2.2.9"; hostUrl "11.2.2.9"] exD)) =
    Some [hostUrl "10.0.0.1"; hostUrl "10.2.2.9"; buildRuleURL (s2b "g:1,g2:3")] /\
  cwTc (wAfter exLib exU (exHist ++ [WCommand 0 (s2b "B") exD])) = Some tcB /\
  cwSubs (wAfter exLib exU (exHist ++ [WCommand 0 (s2b "B") exD])) = [(1, s2b "g3")].
Proof.
  split.
  - split; [|intros c X; discriminate X]. intros info l c. cbn [clParse exLib]. destruct (bs_eqb info (s2b "A")); [|destruct (bs_eqb info (s2b "B")); [|intro X; discriminate X]].
    + intros E. injection E as <-. intros [<-|[<-|[]]]; repeat constructor; cbn; intuition discriminate.
    + intros E. injection E as <-. intros [<-|[<-|[]]]; repeat constructor; cbn; intuition discriminate.
  - vm_compute. repeat split.
Qed.

(* "an unreadable command text is ignored" is false: the command in force is dropped *)
Theorem C24_unreadable_text_refuted : exists lib u os text, sort_ok lib /\ clParse lib text = None /\
  cwTc (wAfter lib u os) <> None /\ cwTc (wAfter lib u (os ++ [WCommand 1 text exD])) = None.
Proof. exists exLib, exU, exHist, (s2b "?"). split; [exact exLib_sorts|]. vm_compute. repeat split. intro X. discriminate X. Qed.
Print Assumptions C24_unreadable_text_refuted.
(* the switcher command applied last is one of highest index of the last agent text, or, if that text has none, of the last
   service text; every switcher command counts, whatever its pattern *)
Theorem C24_switcher lib u os : sort_ok lib -> Forall (fun o => o <> WUnsubscribe) os ->
  takes lib u 2 (last_text 0 os) (last_text 1 os) (cwSwitch (wAfter lib u os)).
Proof.
  intros Hs Hf. destruct (after_takes lib u os Hs) as [H _]. specialize (H Hf). unfold sw_ok in H.
  destruct (after_inv lib u os Hs) as (_ & _ & _ & _ & E1 & E2). rewrite E1, E2 in H. exact H.
Qed.
Print Assumptions C24_switcher.
(* the degrade command held is one of highest index among those concerning the service, in the same order of texts *)
Theorem C24_degrade_which lib u os : sort_ok lib ->
  takes lib u 1 (last_text 0 os) (last_text 1 os) (cwDegrade (wAfter lib u os)).
Proof.
  intro Hs. destruct (after_takes lib u os Hs) as [_ H]. unfold dg_ok in H.
  destruct (after_inv lib u os Hs) as (_ & _ & _ & _ & E1 & E2). rewrite E1, E2 in H. exact H.
Qed.
Print Assumptions C24_degrade_which.
Example C24_switcher_met : let sw n := mkCmd n 2 (s2b "none") [] [] in
  let lib := mkCmdlib (fun s => if bs_eqb s (s2b "S") then Some [sw 1%Z; tcA; sw 4%Z; dgC] else None) (fold_right insertCmd []) (fun _ _ => false) [] in
  cwSwitch (wAfter lib exU [WCommand 1 (s2b "S") exD]) = Some (sw 4%Z) /\ cwDegrade (wAfter lib exU [WCommand 1 (s2b "S") exD]) = None.
Proof. vm_compute. split; reflexivity. Qed.
(* a command text changes nothing in silence only if it is of no known kind, repeats the last text of its kind, or no traffic
   command was in force and none is afterwards; otherwise the cluster is given a list at once *)
Theorem C24_command_change lib u os typ info disc : sort_ok lib -> let o := WCommand typ info disc in
  snd (wStep lib (wAfter lib u os) o) = None <->
  (typ <> 0%Z /\ typ <> 1%Z) \/ ((typ = 0%Z \/ typ = 1%Z) /\ last_text typ os = info) \/
  (cwTc (wAfter lib u os) = None /\ cwTc (wAfter lib u (os ++ [o])) = None).
Proof.
  intros Hs o. rewrite after_snoc. unfold o. rewrite command_quiet. destruct (after_inv lib u os Hs) as (_ & _ & _ & _ & E1 & E2).
  split.
  - intros [H|[[-> H]|[[-> H]|H]]]; [tauto|right; left; split; [auto|congruence]|right; left; split; [auto|congruence]|tauto].
  - intros [H|[[[->| ->] H]|H]]; [tauto|right; left; split; [auto|congruence]|right; right; left; split; [auto|congruence]|tauto].
Qed.
Print Assumptions C24_command_change.
(* the weights reported are those the command in force gives, entry by entry, the last entry of a group deciding *)
Theorem C24_weights lib u os c : cwTc (wAfter lib u os) = Some c ->
  forall g x, aget bs_eqb (cwWeights (wAfter lib u os)) g = Some x <-> weight_given (cmGroups c) g x.
Proof. exact (weights_in_force lib u os c). Qed.
Print Assumptions C24_weights.
(* without a traffic command in force the groups of the parameter "mixGroups" are merged, the own group first and once, without routes *)
Theorem C24_static lib u os : sort_ok lib -> let w := wAfter lib u os in cwTc w = None ->
  match currentTc w with
  | None => forall g, ~ mix_group u g
  | Some c => cmRoutes c = [] /\ exists others, cmGroups c = uGroup u :: others /\ others <> [] /\ (forall g, In g others <-> mix_group u g)
  end.
Proof.
  intros Hs w Ht. destruct (after_inv lib u os Hs) as ((_ & _ & E & _) & _). fold w in E. unfold currentTc. rewrite Ht, E. apply static_spec.
Qed.
Print Assumptions C24_static.
Example C24_static_example : let u := mkUrl (s2b "motan2") [] 0 (s2b "svc") (s2b "g") (Some [(s2b "mixGroups", s2b "a, g ,b")]) in
  option_map cmGroups (currentTc (wAfter exLib u [])) = Some [s2b "g"; s2b "a"; s2b "b"] /\ mix_group u (s2b "b").
Proof.
  split; [vm_compute; reflexivity|]. exists (s2b "a, g ,b"), (s2b "b"). split; [reflexivity|]. split; [vm_compute; auto|].
  split; [reflexivity|]. split; intro X; discriminate X.
Qed.
(* "subscriptions at the registry are exactly the watched groups" needs distinct groups: a repeated group leaves one behind for good *)
Theorem C24_repeated_group_leak_refuted : exists lib u os s, sort_ok lib /\ In s (cwSubs (wAfter lib u os)) /\ cwOthers (wAfter lib u os) = [].
Proof.
  exists (mkCmdlib (fun s => if bs_eqb s (s2b "A") then Some [mkCmd 1 0 (s2b "*") [s2b "g2:1"; s2b "g2:2"] []] else None) (fold_right insertCmd []) (fun _ _ => false) []),
         exU, [WCommand 1 (s2b "A") exD; WCommand 1 [] exD], (0, s2b "g2").
  split; [exact exLib_sorts|]. vm_compute. auto.
Qed.
Print Assumptions C24_repeated_group_leak_refuted.
(* "if the routes leave no node, the own group is used" is false: the cluster gets a list with no node at all *)
Theorem C24_route_fallback_refuted : exists lib u os o r, sort_ok lib /\ snd (wStep lib (wAfter lib u os) o) = Some r /\
  cwOwn (wAfter lib u (os ++ [o])) <> [] /\ Forall (fun x => uProtocol x = s2b "rule") r.
Proof.
  exists exLib, exU, [WCommand 1 (s2b "A") (fun _ => [])], (WOwn [hostUrl "11.0.0.1"] exD), [buildRuleURL (s2b "g:1,g2:3")].
  split; [exact exLib_sorts|]. split; [reflexivity|]. split; [intro X; discriminate X|repeat constructor].
Qed.
Print Assumptions C24_route_fallback_refuted.
