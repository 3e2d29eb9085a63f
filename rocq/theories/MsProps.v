(* MsProps.v: C104, which configured services a server context exports, where, and what the registries are told. *)
From Verif Require Import Base Strconv GoStrings GoStrings2 UrlModel UrlSpec UrlProofs ServerModel ServerSpec ServerProofs MsModel MsSpec MsProofs.
From Coq Require Import Permutation Lia.
Ltac Zify.zify_post_hook ::= idtac.

(* RegisterService takes exactly pointers whose name (the given one, or else the type's) is some service's "ref"; the implementation given last counts. *)
Theorem C104_register : forall urls calls a sid, let s := loaded urls calls in
  match a with
  | ANil => registerService s a sid = (s, RNil)
  | AValue => registerService s a sid = (s, RNotPtr)
  | ANilPtr => registerService s a sid = (s, RPanic)
  | APtr im type =>
      (configured_ref urls (call_name sid type) -> snd (registerService s a sid) = ROk) /\
      (~ configured_ref urls (call_name sid type) -> registerService s a sid = (s, RNoConfig))
  end.
Proof.
  intros urls calls a sid. cbv zeta. destruct (loaded_fields urls calls) as (U & _). destruct a as [| | |im ty]; try reflexivity. unfold registerService. cbv zeta. rewrite call_name_if, U.
  destruct (existsb _ urls) eqn:X; split; intro Q; try reflexivity.
  - apply configured_refb in X. contradiction.
  - apply configured_refb in Q. congruence.
Qed.
Print Assumptions C104_register.

Theorem C104_given : forall urls calls ref, let s := loaded urls calls in
  (configured_ref urls ref -> aget bs_eqb (c_impls s) ref = last_given calls ref None) /\
  (~ configured_ref urls ref -> aget bs_eqb (c_impls s) ref = None).
Proof. exact loaded_impls. Qed.
Print Assumptions C104_given.

(* One Start, in any order: who is exported, what is listened to, what every registry is told, and who answers for which path where. *)
Theorem C104_start : forall V lis urls calls ord, NoDup (akeys urls) -> Permutation ord (akeys urls) ->
  let s0 := loaded urls calls in let impls := c_impls s0 in let s := start V lis ord s0 in
  filter is_register (c_log s) = flat_map (registrations V urls) (filter (exported V lis urls impls ord) ord) /\
  filter is_listen (c_log s) = flat_map (listening V lis urls) (filter (opens V urls impls ord) ord) /\
  (forall e, In e (c_log s) -> is_register e = true \/ is_listen e = true) /\
  (forall a, match holder V urls impls ord a with
             | None => aget bs_eqb (c_servers s) a = None
             | Some h => exists sv, aget bs_eqb (c_servers s) a = Some sv /\ m_ok sv = lis h /\ forall p, aget bs_eqb (m_table sv) p = serving V lis urls impls ord a p
             end) /\
  NoDup (akeys (c_regs s)) /\
  (forall r, In r (akeys (c_regs s)) <-> exists k u, In k ord /\ exported V lis urls impls ord k = true /\ In (Register r u) (registrations V urls k)) /\
  c_status s = 0%Z.
Proof.
  intros V lis urls calls ord ND P. cbv zeta. destruct (loaded_fields urls calls) as (U & S & R & T & L). set (s0 := loaded urls calls) in *.
  assert (NO : NoDup ord) by (apply (Permutation_NoDup (Permutation_sym P)), ND).
  destruct (start_inv V lis urls (c_impls s0) s0 U eq_refl S R ord NO) as [A B C D E F G H H2 J K]. rewrite L in G, H, H2. cbn [filter app] in G, H, H2.
  split; [exact G|]. split; [exact H|]. split; [|split; [|split; [exact J|split]]].
  - intros e I. destruct (is_register e) eqn:X; [left; reflexivity|]. destruct (is_listen e) eqn:Y; [right; reflexivity|]. exfalso.
    assert (Q : In e (filter (fun e => negb (is_register e) && negb (is_listen e)) (c_log (start V lis ord s0)))) by (apply filter_In; split; [exact I|rewrite X, Y; reflexivity]).
    rewrite H2 in Q. exact Q.
  - intro a. destruct (holder V urls (c_impls s0) ord a) as [h|] eqn:Ha; [|apply D, Ha]. destruct (E a h Ha) as (sv & E1 & _ & E3 & E4). exists sv. auto.
  - intro r. rewrite K. split.
    + intros [u I]. apply in_flat_map in I. destruct I as (k & I & Q). apply filter_In in I. exists k, u. tauto.
    + intros (k & u & I & X & Q). exists u. apply in_flat_map. exists k. split; [apply filter_In; auto|exact Q].
  - rewrite B. exact T.
Qed.
Print Assumptions C104_start.

(* If all services can be exported together, the order does not matter: each answers for its own path at its own place, and each is announced to
   its registries, once. *)
Theorem C104_together : forall V lis urls calls ord, NoDup (akeys urls) -> Permutation ord (akeys urls) ->
  let s0 := loaded urls calls in let s := start V lis ord s0 in fits V lis urls (c_impls s0) ->
  Permutation (filter is_register (c_log s)) (flat_map (registrations V urls) (akeys urls)) /\
  (forall k u a z, In (k, u) urls -> spot u = Some (a, z) -> exists im sv,
     aget bs_eqb (c_impls s0) (text u (s2b "ref")) = Some im /\
     aget bs_eqb (c_servers s) a = Some sv /\ m_ok sv = true /\ aget bs_eqb (m_table sv) (uPath u) = Some (k, im)) /\
  (forall e, In e (c_log s) -> is_listen e = true -> exists k u, In (k, u) urls /\ e = Listen (listens_at V u) true).
Proof.
  intros V lis urls calls ord ND P. cbv zeta. intro F. assert (NO : NoDup ord) by (apply (Permutation_NoDup (Permutation_sym P)), ND).
  assert (KO : forall k, In k ord <-> exists u, aget bs_eqb urls k = Some u).
  { intro k. split.
    - intro I. apply (Permutation_in _ P) in I. destruct (aget bs_eqb urls k) as [u|] eqn:E; [exists u; reflexivity|]. apply aget_None in E; [|exact bs_eqb_spec]. contradiction.
    - intros [u E]. apply (Permutation_in _ (Permutation_sym P)). apply aget_In in E; [|exact bs_eqb_spec]. unfold akeys. apply in_map_iff. exists (k, u). auto. }
  destruct (C104_start V lis urls calls ord ND P) as (G & H & _ & SV & _). set (s0 := loaded urls calls) in *. split; [|split].
  - rewrite G. assert (Q : filter (exported V lis urls (c_impls s0) ord) ord = ord).
    { assert (X : forall l, incl l ord -> filter (exported V lis urls (c_impls s0) ord) l = l).
      { induction l as [|k l IH]; intro I; [reflexivity|]. cbn [filter]. destruct (proj1 (KO k) (I k (or_introl eq_refl))) as [u U]. rewrite (fits_exported V lis urls (c_impls s0) ord F KO k u U), IH; [reflexivity|].
        intros y Y. apply I. right. exact Y. }
      apply X, incl_refl. }
    rewrite Q. clear - P. induction P as [|x l l' _ IH|x y l|l1 l2 l3 _ I1 _ I2]; cbn [flat_map].
    + apply Permutation_refl.
    + apply Permutation_app_head, IH.
    + rewrite !app_assoc. apply Permutation_app_tail, Permutation_app_comm.
    + exact (Permutation_trans I1 I2).
  - intros k u a z I SP. apply (In_aget bs_eqb bs_eqb_spec) in I; [|exact ND]. destruct (fits_serving V lis urls (c_impls s0) ord F NO KO k u a z I SP) as (im & IO & SE & h & HH & LH).
    specialize (SV a). rewrite HH in SV. destruct SV as (sv & S1 & S2 & S3). exists im, sv. unfold impl_of in IO. rewrite I in IO. split; [exact IO|]. split; [exact S1|]. split; [congruence|]. rewrite S3. exact SE.
  - intros e I L. assert (Q : In e (filter is_listen (c_log (start V lis ord s0)))) by (apply filter_In; auto). rewrite H in Q. apply in_flat_map in Q. destruct Q as (k & _ & Q).
    unfold listening in Q. destruct (aget bs_eqb urls k) as [u|] eqn:U; [|destruct Q]. destruct Q as [<-|[]]. exists k, u. split; [apply (aget_In bs_eqb bs_eqb_spec), U|].
    rewrite (proj2 (proj1 F k u U)). reflexivity.
Qed.
Print Assumptions C104_together.

(* what is announced: the written protocol and port, the configured host or else the local one, and the path and group as they are *)
Theorem C104_announced : forall V u, let w := announced V u in
  uProtocol w = fst (setting u) /\ uHost w = (if bs_eqb (uHost u) [] then v_ip V else uHost u) /\ uPath w = uPath u /\ uGroup w = uGroup u /\
  (forall a z, spot u = Some (a, z) -> uPort w = z) /\ text w (s2b "nodeType") = s2b "service" /\
  (forall k, k <> s2b "nodeType" -> text u (s2b "registerMeta") = [] -> text w k = text u k).
Proof.
  intros V u. cbv zeta. unfold announced.
  assert (G : forall X w, uProtocol (exportUrl X w) = uProtocol w /\ uHost (exportUrl X w) = uHost w /\ uPort (exportUrl X w) = uPort w /\ uPath (exportUrl X w) = uPath w /\ uGroup (exportUrl X w) = uGroup w).
  { intros X w. unfold exportUrl. cbv zeta. destruct (getBoolValue w URLRegisterMeta false); [|repeat split]. revert w. induction (x_meta X) as [|m r IH]; intro w; [repeat split|]. cbn [fold_left]. exact (IH (ServerModel.putParam w m)). }
  destruct (G (v_x V) (settled V u)) as (G1 & G2 & G3 & G4 & G5). rewrite G1, G2, G3, G4, G5. split; [reflexivity|]. split; [cbn [settled uHost]; destruct (uHost u); reflexivity|]. split; [reflexivity|]. split; [reflexivity|].
  split; [intros a z S; cbn [settled uPort]; rewrite S; reflexivity|]. split.
  - unfold text, exportUrl. rewrite param_putParam. reflexivity.
  - intros k N R. assert (B : getBoolValue (settled V u) URLRegisterMeta false = false).
    { unfold getBoolValue. unfold settled. cbn [uParams]. unfold text, param in R. unfold pgetD, pget. change URLRegisterMeta with (s2b "registerMeta"). destruct (uParams u) as [m|]; [|reflexivity].
      destruct (aget bs_eqb m (s2b "registerMeta")) as [v|]; [rewrite R|]; reflexivity. }
    unfold text, exportUrl. cbv zeta. rewrite B, param_putParam. cbn [fst]. change NodeTypeKey with (s2b "nodeType"). rewrite (proj2 (bs_eqb_neq _ _) N). reflexivity.
Qed.
Print Assumptions C104_announced.

(* After that, ServicesAvailable and ServicesUnavailable tell each registry that some exported service was announced to, once, if none of them panics. *)
Theorem C104_available : forall V lis urls calls ord ord2 pan, NoDup (akeys urls) -> Permutation ord (akeys urls) ->
  let s0 := loaded urls calls in let s := start V lis ord s0 in Permutation ord2 (akeys (c_regs s)) -> (forall r, pan r = false) ->
  c_log (servicesAvailable pan ord2 s) = c_log s ++ map Avail ord2 /\ c_status (servicesAvailable pan ord2 s) = 200%Z /\
  c_log (servicesUnavailable pan ord2 s) = c_log s ++ map Unavail ord2 /\ c_status (servicesUnavailable pan ord2 s) = 503%Z /\
  NoDup ord2 /\ (forall r, In r ord2 <-> exists u, In (Register r u) (c_log s)).
Proof.
  intros V lis urls calls ord ord2 pan ND P. cbv zeta. intros P2 NP. destruct (C104_start V lis urls calls ord ND P) as (G & _ & _ & _ & N & K & _). set (s0 := loaded urls calls) in *.
  unfold servicesAvailable, servicesUnavailable, say, setStatus. cbn [c_log c_status]. rewrite !tell_all by (intros r _; apply NP).
  split; [reflexivity|]. split; [reflexivity|]. split; [reflexivity|]. split; [reflexivity|]. split; [apply (Permutation_NoDup (Permutation_sym P2)), N|].
  intro r. transitivity (In r (akeys (c_regs (start V lis ord s0)))); [split; apply Permutation_in; [exact P2|apply Permutation_sym, P2]|]. rewrite K. split.
  - intros (k & u & I & X & Q). exists u. assert (T : In (Register r u) (filter is_register (c_log (start V lis ord s0)))) by (rewrite G; apply in_flat_map; exists k; split; [apply filter_In; auto|exact Q]).
    apply filter_In in T. apply T.
  - intros [u I]. assert (T : In (Register r u) (filter is_register (c_log (start V lis ord s0)))) by (apply filter_In; auto). rewrite G in T. apply in_flat_map in T. destruct T as (k & T & Q). apply filter_In in T.
    exists k, u. tauto.
Qed.
Print Assumptions C104_available.

(* In general they tell the registries one after the other up to the first that panics, that one included. *)
Theorem C104_told : forall pan ord s, exists l,
  c_log (servicesAvailable pan ord s) = c_log s ++ map Avail l /\ c_log (servicesUnavailable pan ord s) = c_log s ++ map Unavail l /\
  (exists r, ord = l ++ r) /\ (l = ord \/ exists l' r, l = l' ++ [r] /\ pan r = true) /\ (forall x l', l = l' ++ [x] -> Forall (fun r => pan r = false) l').
Proof.
  intros pan ord s. assert (G : exists l, (forall f, tell f pan ord = map f l) /\ (exists r, ord = l ++ r) /\ (l = ord \/ exists l' r, l = l' ++ [r] /\ pan r = true) /\ (forall x l', l = l' ++ [x] -> Forall (fun r => pan r = false) l')).
  { induction ord as [|r ord (l & E & (q & Q) & O & W)]; [exists []; split; [reflexivity|]; split; [exists []; reflexivity|]; split; [left; reflexivity|intros x l' X; destruct l'; discriminate X]|].
    destruct (pan r) eqn:P.
    - exists [r]. split; [intro f; cbn [tell]; rewrite P; reflexivity|]. split; [exists ord; reflexivity|]. split; [right; exists [], r; auto|]. intros x l' X. destruct l' as [|y [|]]; [constructor|discriminate X|discriminate X].
    - exists (r :: l). split; [intro f; cbn [tell]; rewrite P, E; reflexivity|]. split; [exists q; rewrite Q; reflexivity|]. split.
      + destruct O as [->|(l' & x & -> & X)]; [left; reflexivity|right]. exists (r :: l'), x. auto.
      + intros x l' X. destruct l' as [|y l']; [constructor|]. injection X as <- X. constructor; [exact P|]. exact (W x l' X). }
  destruct G as (l & E & A & B & C). exists l. unfold servicesAvailable, servicesUnavailable, say, setStatus. cbn [c_log]. rewrite !E. auto.
Qed.
Print Assumptions C104_told.

(* ---- a configuration: two services on one port, one more on a unix socket, two registries *)
Definition exU (path group : string) (ps : list (bs * bs)) : url := mkUrl [] [] 0 (s2b path) (s2b group) (Some ps).
Definition exV : menv := mkMenv (s2b "10.0.0.1") (fun p => bs_eqb p (s2b "default")) (fun p => existsb (bs_eqb p) [s2b "motan2"; s2b "motan"])
  (mkXenv [] (fun r => if bs_eqb r (s2b "zk") then Some (Some 1) else if bs_eqb r (s2b "local") then Some (Some 2) else None)) (fun n => if Nat.eqb n 1 then s2b "ZK" else s2b "LOCAL").
Definition exUrls : list (bs * url) :=
  [(s2b "a", exU "svcA" "g" [(s2b "ref", s2b "A"); (s2b "export", s2b "motan2:8002"); (s2b "registry", s2b "zk,local")]);
   (s2b "b", exU "svcB" "g" [(s2b "ref", s2b "B"); (s2b "export", s2b "8002"); (s2b "registry", s2b "zk")]);
   (s2b "c", exU "svcC" "g" [(s2b "ref", s2b "B"); (s2b "unixSock", s2b "/tmp/c.sock"); (s2b "registry", s2b "local")])].
Definition exCalls : list (marg * bs) := [(APtr 1 (s2b "main.A"), s2b "A"); (APtr 2 (s2b "B"), []); (APtr 3 (s2b "main.X"), s2b "X"); (AValue, s2b "A")].
Definition every : bs -> bool := fun _ => true.

Lemma exFits : fits exV every exUrls (c_impls (loaded exUrls exCalls)).
Proof.
  split.
  - intros k u U. split; [|reflexivity]. apply aget_In in U; [|exact bs_eqb_spec]. destruct U as [U|[U|[U|[]]]]; injection U as <- <-; vm_compute; reflexivity.
  - intros k1 k2 u1 u2 a b z y U1 U2 N S1 S2 E. subst b. apply aget_In in U1; [|exact bs_eqb_spec]. apply aget_In in U2; [|exact bs_eqb_spec].
    destruct U1 as [U1|[U1|[U1|[]]]]; injection U1 as <- <-; destruct U2 as [U2|[U2|[U2|[]]]]; injection U2 as <- <-; try (exfalso; apply N; reflexivity);
      vm_compute in S1; vm_compute in S2; try (rewrite S1 in S2; discriminate S2); try (injection S1 as <- <-; discriminate S2); (split; [vm_compute; reflexivity|split; [vm_compute; reflexivity|vm_compute; discriminate]]).
Qed.
Example C104_example : NoDup (akeys exUrls) /\ Permutation [s2b "b"; s2b "a"; s2b "c"] (akeys exUrls) /\
  map (fun e => match e with Register r u => (r, uPath u, uPort u) | _ => ([], [], 0%Z) end) (filter is_register (c_log (start exV every [s2b "b"; s2b "a"; s2b "c"] (loaded exUrls exCalls)))) =
    [(s2b "ZK", s2b "svcB", 8002%Z); (s2b "ZK", s2b "svcA", 8002%Z); (s2b "LOCAL", s2b "svcA", 8002%Z); (s2b "LOCAL", s2b "svcC", 0%Z)] /\
  akeys (c_regs (start exV every [s2b "b"; s2b "a"; s2b "c"] (loaded exUrls exCalls))) = [s2b "ZK"; s2b "LOCAL"].
Proof.
  split; [vm_compute; repeat constructor; cbn [In]; intuition discriminate|]. split; [vm_compute; apply perm_swap|]. split; vm_compute; reflexivity.
Qed.

(* Finding: two services of different protocols on one port: the order of a Go map decides which one is exported. *)
Definition exClash : list (bs * url) :=
  [(s2b "a", exU "svcA" "g" [(s2b "ref", s2b "A"); (s2b "export", s2b "motan2:8002"); (s2b "registry", s2b "zk")]);
   (s2b "b", exU "svcB" "g" [(s2b "ref", s2b "B"); (s2b "export", s2b "motan:8002"); (s2b "registry", s2b "zk")])].
Theorem C104_order_refuted : exists V urls calls o1 o2, NoDup (akeys urls) /\ Permutation o1 (akeys urls) /\ Permutation o2 (akeys urls) /\
  (forall e, In e (c_log (start V every o1 (loaded urls calls))) -> forall r u, e = Register r u -> uPath u = s2b "svcA") /\
  (exists r u, In (Register r u) (c_log (start V every o1 (loaded urls calls)))) /\
  (forall e, In e (c_log (start V every o2 (loaded urls calls))) -> forall r u, e = Register r u -> uPath u = s2b "svcB") /\
  (exists r u, In (Register r u) (c_log (start V every o2 (loaded urls calls)))).
Proof.
  exists exV, exClash, exCalls, [s2b "a"; s2b "b"], [s2b "b"; s2b "a"]. split; [vm_compute; repeat constructor; cbn [In]; intuition discriminate|].
  split; [apply Permutation_refl|]. split; [apply perm_swap|].
  assert (L1 : c_log (start exV every [s2b "a"; s2b "b"] (loaded exClash exCalls)) = [Listen (Tcp [] 8002) true; Register (s2b "ZK") (announced exV (snd (nth 0 exClash ([], mkUrl [] [] 0 [] [] None))))]) by (vm_compute; reflexivity).
  assert (L2 : c_log (start exV every [s2b "b"; s2b "a"] (loaded exClash exCalls)) = [Listen (Tcp [] 8002) true; Register (s2b "ZK") (announced exV (snd (nth 1 exClash ([], mkUrl [] [] 0 [] [] None))))]) by (vm_compute; reflexivity).
  rewrite L1, L2. repeat split.
  - intros e [<-|[<-|[]]] r u E; [discriminate E|]. injection E as <- <-. reflexivity.
  - do 2 eexists. right. left. reflexivity.
  - intros e [<-|[<-|[]]] r u E; [discriminate E|]. injection E as <- <-. reflexivity.
  - do 2 eexists. right. left. reflexivity.
Qed.
Print Assumptions C104_order_refuted.

(* Finding: a server that cannot listen is announced all the same, and the services that would share it are dropped without an error. *)
Theorem C104_deaf_refuted : exists V lis urls calls ord, NoDup (akeys urls) /\ Permutation ord (akeys urls) /\
  c_log (start V lis ord (loaded urls calls)) = [Listen (Tcp [] 8002) false; Register (s2b "ZK") (announced V (snd (nth 0 urls ([], mkUrl [] [] 0 [] [] None)))); Register (s2b "LOCAL") (announced V (snd (nth 0 urls ([], mkUrl [] [] 0 [] [] None))))] /\
  exported V (fun _ => true) urls (c_impls (loaded urls calls)) ord (s2b "b") = true.
Proof.
  exists exV, (fun _ => false), (firstn 2 exUrls), exCalls, [s2b "a"; s2b "b"]. split; [vm_compute; repeat constructor; cbn [In]; intuition discriminate|].
  split; [apply Permutation_refl|]. split; vm_compute; reflexivity.
Qed.
Print Assumptions C104_deaf_refuted.

(* Finding: a unix socket given by proxy.host alone: the service listens on a port the system chooses and is announced with port 0. *)
Theorem C104_port_zero_refuted : exists V urls calls ord, NoDup (akeys urls) /\ Permutation ord (akeys urls) /\
  (exists u, In (Listen (Tcp [] 0) true) (c_log (start V every ord (loaded urls calls))) /\ In (Register (s2b "ZK") u) (c_log (start V every ord (loaded urls calls))) /\ uPort u = 0%Z /\
     exists k w, In (k, w) urls /\ text w (s2b "export") = s2b "motan2:8002").
Proof.
  exists exV, [(s2b "a", exU "svcA" "g" [(s2b "ref", s2b "A"); (s2b "export", s2b "motan2:8002"); (s2b "proxy.host", s2b "unix:///tmp/a"); (s2b "registry", s2b "zk")])], exCalls, [s2b "a"].
  split; [vm_compute; repeat constructor; cbn [In]; intuition discriminate|]. split; [apply Permutation_refl|]. eexists. split; [vm_compute; left; reflexivity|].
  split; [vm_compute; right; left; reflexivity|]. split; [vm_compute; reflexivity|]. do 2 eexists. split; [left; reflexivity|]. vm_compute. reflexivity.
Qed.
Print Assumptions C104_port_zero_refuted.

(* Finding: places are compared as they are written, so "8002" and "08002" are two servers on one port. *)
Theorem C104_same_port_refuted : exists V urls calls ord, NoDup (akeys urls) /\ Permutation ord (akeys urls) /\
  filter is_listen (c_log (start V every ord (loaded urls calls))) = [Listen (Tcp [] 8002) true; Listen (Tcp [] 8002) true].
Proof.
  exists exV, [(s2b "a", exU "svcA" "g" [(s2b "ref", s2b "A"); (s2b "export", s2b "8002"); (s2b "registry", s2b "zk")]); (s2b "b", exU "svcB" "g" [(s2b "ref", s2b "B"); (s2b "export", s2b "08002"); (s2b "registry", s2b "zk")])], exCalls, [s2b "a"; s2b "b"].
  split; [vm_compute; repeat constructor; cbn [In]; intuition discriminate|]. split; [apply Permutation_refl|]. vm_compute. reflexivity.
Qed.
Print Assumptions C104_same_port_refuted.

(* Finding: one path in two groups on one port: both are announced, only the one exported last answers. *)
Theorem C104_groups_refuted : exists V urls calls ord, NoDup (akeys urls) /\ Permutation ord (akeys urls) /\
  map (fun e => match e with Register _ u => uGroup u | _ => [] end) (filter is_register (c_log (start V every ord (loaded urls calls)))) = [s2b "g1"; s2b "g2"] /\
  exists sv, aget bs_eqb (c_servers (start V every ord (loaded urls calls))) (s2b "8002") = Some sv /\ m_table sv = [(s2b "svcA", (s2b "b", 2))].
Proof.
  exists exV, [(s2b "a", exU "svcA" "g1" [(s2b "ref", s2b "A"); (s2b "export", s2b "8002"); (s2b "registry", s2b "zk")]); (s2b "b", exU "svcA" "g2" [(s2b "ref", s2b "B"); (s2b "export", s2b "8002"); (s2b "registry", s2b "zk")])].
  exists [(APtr 1 (s2b "main.A"), s2b "A"); (APtr 2 (s2b "main.B"), s2b "B")], [s2b "a"; s2b "b"].
  split; [vm_compute; repeat constructor; cbn [In]; intuition discriminate|]. split; [apply Permutation_refl|]. split; [vm_compute; reflexivity|]. eexists. split; vm_compute; reflexivity.
Qed.
Print Assumptions C104_groups_refuted.

(* Finding: ServicesAvailable before Start tells nobody, and Start tells nobody afterwards. *)
Theorem C104_early_refuted : forall V lis urls calls ord pan o2, NoDup ord -> Permutation o2 (akeys (c_regs (loaded urls calls))) ->
  forall e, In e (c_log (start V lis ord (servicesAvailable pan o2 (loaded urls calls)))) -> is_register e = true \/ is_listen e = true.
Proof.
  intros V lis urls calls ord pan o2 NO P e I. destruct (loaded_fields urls calls) as (U & S & R & T & L). rewrite R in P. apply Permutation_sym, Permutation_nil in P. subst o2.
  set (s0 := servicesAvailable pan [] (loaded urls calls)) in *. assert (L0 : c_log s0 = []) by (unfold s0, servicesAvailable, say, setStatus; cbn; rewrite L; reflexivity).
  destruct (start_inv V lis urls (c_impls s0) s0 U eq_refl S R ord NO) as [_ _ _ _ _ _ _ _ H2 _ _]. rewrite L0 in H2. cbn [filter] in H2.
  destruct (is_register e) eqn:X; [left; reflexivity|]. destruct (is_listen e) eqn:Y; [right; reflexivity|]. exfalso.
  assert (Q : In e (filter (fun e => negb (is_register e) && negb (is_listen e)) (c_log (start V lis ord s0)))) by (apply filter_In; split; [exact I|rewrite X, Y; reflexivity]).
  rewrite H2 in Q. exact Q.
Qed.
Print Assumptions C104_early_refuted.
