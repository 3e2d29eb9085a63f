(* ExtProps.v: C84, the extension factory. *)
From Verif Require Import Base GoStrings GoStrings2 Strconv UrlModel UrlSpec UrlProofs ExtModel ExtSpec ExtProofs.
Require Import Lia.

(* for whatever was registered and asked for before: the constructor used is the one registered last under the name the url (or the caller) gives *)
Theorem C84_last_registered os u name id : let x := xrun os in
  getHa x u = last_registered EHa (str_or u (s2b "haStrategy") (s2b "failover")) os /\
  getLB x u = last_registered ELb (str_or u (s2b "loadbalance") (s2b "random")) os /\
  getEndPoint x u = last_registered EEndpoint (uProtocol u) os /\
  getServer x u = last_registered EServer (if bs_eqb (uProtocol u) [] then s2b "motan2" else uProtocol u) os /\
  getFilter x name = last_registered EFilter (trimSpace name) os /\
  getHandler x name = last_registered EHandler (trimSpace name) os /\
  getSerialization x name id = (if bs_eqb name [] then if (0 <=? id)%Z then last_registered ESerialization (fmtZ id) os else None
                                else last_registered ESerialization (trimSpace name) os).
Proof.
  cbv zeta. unfold getHa, getLB, getEndPoint, getServer, getFilter, getHandler, getSerialization. rewrite !getParam_str_or, !found. repeat (split; [try reflexivity|]).
  - destruct (uProtocol u); reflexivity.
  - destruct name; cbn [bs_eqb]; [|reflexivity]. change (bs_eqb [] []) with true. cbv iota. rewrite ?found. destruct (Z.ltb_spec (-1) id), (Z.leb_spec 0 id); try reflexivity; lia.
Qed.
Print Assumptions C84_last_registered.
(* providers: the parameter provider names it, else the protocol of the proxied address, else it is the default one *)
Theorem C84_provider os u : let x := xrun os in
  (forall p, param u (s2b "provider") = Some p -> p <> [] -> getProvider x u = last_registered EProvider p os) /\
  (str_or u (s2b "provider") [] = [] -> str_or u (s2b "proxy") [] = [] -> getProvider x u = last_registered EProvider (s2b "default") os) /\
  (forall proto port, str_or u (s2b "provider") [] = [] -> param u (s2b "proxy") = Some (proto ++ s2b ":" ++ fmtZ port) -> ~ In x3a proto -> trimSpace proto <> [] ->
     (-9223372036854775808 <= port <= 9223372036854775807)%Z -> getProvider x u = last_registered EProvider (trimSpace proto) os).
Proof.
  cbv zeta. unfold getProvider, providerName. rewrite !getParam_str_or. split; [|split].
  - intros p Hp Hn. rewrite found. unfold str_or at 1. rewrite Hp. destruct p; [contradiction|reflexivity].
  - intros -> ->. apply found.
  - intros proto port -> Hp H1 H2 H3. rewrite found. f_equal. unfold str_or. rewrite Hp. pose proof (parseExport_both proto port H1 H2 H3) as X.
    destruct (proto ++ s2b ":" ++ fmtZ port) as [|b l] eqn:E; [destruct proto; discriminate E|]. rewrite X. reflexivity.
Qed.
Print Assumptions C84_provider.
(* registries: one for each identity, made by the first request that found a constructor, never replaced; different identities never share one *)
Theorem C84_registry os u : 
  (match fst (getRegistry (xrun os) u) with
   | Some (_, f, v) => registry_of (identity_of u) (os ++ [XRegistry u]) = Some (f, v)
   | None => registry_of (identity_of u) (os ++ [XRegistry u]) = None end) /\
  (forall os' w r, fst (getRegistry (xrun os) u) = Some r -> identity_of w = identity_of u -> fst (getRegistry (xrun (os ++ XRegistry u :: os')) w) = Some r) /\
  (forall os' w n f v f' v', fst (getRegistry (xrun os) u) = Some (n, f, v) -> fst (getRegistry (xrun (os ++ XRegistry u :: os')) w) = Some (n, f', v') -> identity_of w = identity_of u).
Proof.
  pose proof (registry_got os u) as G.
  assert (K : forall os' idt r, aget bs_eqb (xReg (xrun (os ++ [XRegistry u]))) idt = Some r -> aget bs_eqb (xReg (xrun (os ++ XRegistry u :: os'))) idt = Some r).
  { intros os' idt r H. induction os' as [|o os' IH] using rev_ind; [exact H|]. replace (os ++ XRegistry u :: os' ++ [o]) with ((os ++ XRegistry u :: os') ++ [o]) by (rewrite <- app_assoc; reflexivity).
    rewrite xrun_snoc. destruct o as [k' n' f|n' i f|w]; cbn [xstep registerSer registerExt xReg]; auto. unfold getRegistry. rewrite identity_fresh.
    destruct (aget bs_eqb (xReg (xrun (os ++ XRegistry u :: os'))) (identity_of w)) eqn:E; [exact IH|]. destruct (find _ ERegistry (uProtocol w)); [|exact IH]. cbn [snd xReg].
    rewrite (aget_aset bs_eqb bs_eqb_spec). destruct (bs_eqb idt (identity_of w)) eqn:Q; [|exact IH]. apply bs_eqb_spec in Q. subst idt. congruence. }
  split; [|split].
  - destruct (fst (getRegistry (xrun os) u)) as [[[n f] v]|]; [exact (proj1 G)|exact G].
  - intros os' w r H I. rewrite H in G. destruct r as [[n f] v]. destruct G as [_ G]. apply K with (os' := os') in G. unfold getRegistry. rewrite identity_fresh, I, G. reflexivity.
  - intros os' w n f v f' v' H H'. rewrite H in G. destruct G as [_ G]. apply K with (os' := os') in G.
    pose proof (registry_got (os ++ XRegistry u :: os') w) as G'. rewrite H' in G'. destruct G' as [_ G'].
    assert (G2 : aget bs_eqb (xReg (xrun ((os ++ XRegistry u :: os') ++ [XRegistry w]))) (identity_of u) = Some (n, f, v)).
    { replace ((os ++ XRegistry u :: os') ++ [XRegistry w]) with (os ++ XRegistry u :: (os' ++ [XRegistry w])) by (rewrite <- app_assoc; reflexivity).
      apply K. pose proof (registry_got os u) as G3. rewrite H in G3. exact (proj2 G3). }
    exact (proj2 (reginv_all ((os ++ XRegistry u :: os') ++ [XRegistry w])) _ _ _ _ _ _ _ G' G2).
Qed.
Print Assumptions C84_registry.

Definition zk (params : list (bs * bs)) : url := mkUrl (s2b "zookeeper") (s2b "10.0.0.1") 2181 [] [] (Some params).
Definition exX : list xop := [XRegister EHa (s2b "failover") 1; XRegister EHa (s2b "failover") 2; XSer (s2b "simple") 6 3; XRegister ERegistry (s2b "zookeeper") 4; XRegister EProvider (s2b "http") 5].
Example C84_example : getHa (xrun exX) (zk []) = Some 2%N /\ getSerialization (xrun exX) [] 6 = Some 3%N /\ getSerialization (xrun exX) (s2b " simple") 0 = Some 3%N /\
  getProvider (xrun exX) (zk [(s2b "proxy", s2b "http:80")]) = Some 5%N /\ fst (getRegistry (xrun exX) (zk [])) = Some (O, 4%N, zk []) /\ getLB (xrun exX) (zk []) = None.
Proof. vm_compute. auto 10. Qed.

(* "a registry has the parameters of the url that asks for it" is false: parameters are not part of the identity, the first ones stay *)
Theorem C84_registry_parameters_refuted : exists os u r, fst (getRegistry (xrun os) u) = Some r /\ param u (s2b "timeout") <> param (snd r) (s2b "timeout").
Proof.
  exists (exX ++ [XRegistry (zk [(s2b "timeout", s2b "1000")])]), (zk [(s2b "timeout", s2b "9000")]). eexists. split; [reflexivity|]. vm_compute. discriminate.
Qed.
Print Assumptions C84_registry_parameters_refuted.
(* "a filter is found under the name it was registered with" is false for names with surrounding blanks *)
Theorem C84_blank_name_refuted : exists name f, getFilter (xrun [XRegister EFilter name f]) name = None.
Proof. exists (s2b " log"), 1%N. reflexivity. Qed.
Print Assumptions C84_blank_name_refuted.
(* "a number finds the serialization registered with that number" is false if another one has that number as its name *)
Theorem C84_number_name_refuted : exists os, last os (XSer [] 0 0) <> XSer (s2b "simple") 6 1 /\ In (XSer (s2b "simple") 6 1) os /\ (forall n f, In (XSer n 6 f) os -> f = 1%N) /\ getSerialization (xrun os) [] 6 = Some 2%N.
Proof.
  exists [XSer (s2b "simple") 6 1; XSer (s2b "6") 7 2]. split; [discriminate|]. split; [left; reflexivity|]. split; [|reflexivity].
  intros n f [H|[H|[]]]; [injection H; congruence|discriminate H].
Qed.
Print Assumptions C84_number_name_refuted.
