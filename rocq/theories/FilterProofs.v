(* FilterProofs.v: proofs of C25 and C60. *)
From Coq Require Import Permutation Sorted Lia.
From Verif Require Import Base Strconv GoStrings GoStrings2 UrlModel UrlSpec UrlProofs FilterModel FilterSpec.
Local Open Scope nat_scope.

Fixpoint chainOf {R A} (l : list (finst R A)) : chain R A := match l with [] => CLast | f :: t => CNode f (chainOf t) end.
Lemma fold_chain {R A} (l : list (finst R A)) : fold_left (fun c f => CNode f c) l CLast = chainOf (rev l).
Proof.
  rewrite <- fold_left_rev_right. induction (rev l) as [|x r IH]; [reflexivity|]. cbn. rewrite IH. reflexivity.
Qed.
Lemma leaves_cons {R A} (f : finst R A) l : leaves (f :: l) = leaves l ++ [FLeave (fiName f)].
Proof. unfold leaves. cbn [rev]. rewrite map_app. reflexivity. Qed.
Lemma chain_through {R A} (l : list (finst R A)) : goes_through l (runChain (chainOf l)).
Proof.
  intros caller. induction l as [|f t IH]; intro r.
  - split; [intros r' H; injection H as <-; reflexivity|]. intros before g after r' a E. destruct before; discriminate E.
  - split.
    + intros r' H. cbn in H. cbn [chainOf runChain rewritten]. destruct (fiBeh f r) as [x|[r1 post]] eqn:B; [discriminate H|].
      rewrite (proj1 (IH r1) r' H). cbn [enters map]. rewrite leaves_cons. unfold enters. rewrite <- !app_assoc. reflexivity.
    + intros before g after r' a E P Q. destruct before as [|b before].
      * injection E as <- <-. cbn in P. injection P as <-. cbn [chainOf runChain]. rewrite Q. reflexivity.
      * injection E as <- E. cbn in P. cbn [chainOf runChain rewritten app]. destruct (fiBeh f r) as [x|[r1 post]] eqn:B; [discriminate P|].
        rewrite (proj2 (IH r1) before g after r' a E P Q). cbn [enters map]. rewrite leaves_cons. unfold enters. rewrite <- !app_assoc. reflexivity.
Qed.

Lemma collect_gen {R A} (lib : flib R A) u names : forall acc,
  fold_left (fun acc n => match flGet lib n with
                          | None => acc
                          | Some d => if fdCluster d
                                      then match fdNew d u with Some i => (fst acc ++ [i], snd acc) | None => acc end
                                      else (fst acc, snd acc ++ [d])
                          end) names acc =
  (fst acc ++ made u (filter (fun d => fdCluster d) (known lib names)), snd acc ++ filter (fun d => negb (fdCluster d)) (known lib names)).
Proof.
  induction names as [|n names IH]; intro acc; cbn [fold_left known flat_map].
  - destruct acc. cbn. rewrite !app_nil_r. reflexivity.
  - rewrite IH. destruct (flGet lib n) as [d|]; [|reflexivity]. cbn [app filter]. fold (known lib names). destruct (fdCluster d); cbn [negb].
    + unfold made at 2. cbn [flat_map]. fold (made u (filter (fun d => fdCluster d) (known lib names))). destruct (fdNew d u) as [i|].
      * cbn [fst snd app]. rewrite <- app_assoc. reflexivity.
      * reflexivity.
    + cbn [fst snd]. rewrite <- app_assoc. reflexivity.
Qed.
Lemma collect_spec {R A} (lib : flib R A) u v : param u (s2b "filter") = Some v ->
  collectFilters lib u (trimSplit v (s2b ",")) = (configured_cluster lib u, configured_endpoint lib u).
Proof.
  intro H. unfold configured_cluster, configured_endpoint, filter_names. rewrite H, <- trimSplit_spec by (intro X; discriminate X).
  unfold collectFilters. rewrite collect_gen. reflexivity.
Qed.
Lemma no_param {R A} (lib : flib R A) u : param u (s2b "filter") = None -> configured_cluster lib u = [] /\ configured_endpoint lib u = [].
Proof. intro H. unfold configured_cluster, configured_endpoint, filter_names. rewrite H. split; reflexivity. Qed.
Lemma pget_param u k : pget (uParams u) k = param u k.
Proof. reflexivity. Qed.

Lemma sorted_app_inv {B} (P : B -> B -> Prop) l x : StronglySorted P (l ++ [x]) -> StronglySorted P l /\ Forall (fun y => P y x) l.
Proof.
  induction l as [|a l IH]; intro H; [split; [constructor|constructor]|]. cbn in H. apply StronglySorted_inv in H. destruct H as [H F].
  destruct (IH H) as [S F2]. apply Forall_app in F. destruct F as [F1 F3]. split; [constructor; assumption|]. constructor; [|exact F2]. inversion F3; assumption.
Qed.
Lemma sorted_snoc {B} (P : B -> B -> Prop) l x : StronglySorted P l -> Forall (fun y => P y x) l -> StronglySorted P (l ++ [x]).
Proof.
  induction l as [|a l IH]; intros H F; cbn; [repeat constructor|]. apply StronglySorted_inv in H. inversion F; subst. constructor.
  - apply IH; tauto.
  - apply Forall_app. split; [tauto|]. constructor; [assumption|constructor].
Qed.
Lemma sorted_rev {B} (P : B -> B -> Prop) l : StronglySorted P l -> StronglySorted (fun a b => P b a) (rev l).
Proof.
  induction l as [|a l IH]; intro H; [constructor|]. apply StronglySorted_inv in H. destruct H as [H F]. cbn. apply sorted_snoc; [apply IH; exact H|].
  apply Forall_rev. exact F.
Qed.

Lemma cluster_chain {R A} (lib : flib R A) u : sorters_ok lib ->
  exists order, Permutation order (configured_cluster lib u) /\ StronglySorted (fun a b => (fiIndex a <= fiIndex b)%Z) order /\
                goes_through order (runChain (clusterChain lib u)).
Proof.
  intros [SP SI]. unfold clusterChain, getURLFilters. rewrite pget_param. change FilterKey with (s2b "filter"). destruct (param u (s2b "filter")) as [v|] eqn:Ev.
  - rewrite (collect_spec lib u v Ev). destruct (configured_cluster lib u) as [|c cs] eqn:Ec.
    + exists []. split; [constructor|]. split; [constructor|]. exact (chain_through []).
    + rewrite <- Ec. exists (rev (flSortI lib (configured_cluster lib u))). destruct (SI (configured_cluster lib u)) as [P S].
      split; [eapply perm_trans; [apply Permutation_sym, Permutation_rev|exact P]|]. split; [exact (sorted_rev _ _ S)|].
      rewrite Ec. cbn [fst]. rewrite fold_chain. apply chain_through.
  - exists []. rewrite (proj1 (no_param lib u Ev)). split; [constructor|]. split; [constructor|]. exact (chain_through []).
Qed.

Lemma addFilter_gen {R A} u (fs : list (fdef R A)) : forall l st,
  fold_left (fun acc f => match fdNew f u with
                          | Some i => if fiEndpoint i
                                      then (CNode i (fst acc), match fiStatus i with Some _ => snd acc ++ [i] | None => snd acc end)
                                      else acc
                          | None => acc
                          end) fs (chainOf l, st) =
  (chainOf (rev (endpoint_filters u fs) ++ l), st ++ filter (fun i => match fiStatus i with Some _ => true | None => false end) (endpoint_filters u fs)).
Proof.
  induction fs as [|f fs IH]; intros l st; cbn [fold_left].
  - cbn. rewrite app_nil_r. reflexivity.
  - unfold endpoint_filters, made. cbn [flat_map]. fold (made u fs). destruct (fdNew f u) as [i|]; [|cbn [app]; apply IH].
    cbn [app filter]. destruct (fiEndpoint i).
    + cbn [fst snd]. change (CNode i (chainOf l)) with (chainOf (i :: l)). rewrite IH. cbn [rev filter]. fold (endpoint_filters u fs). rewrite <- app_assoc. cbn [app].
      f_equal. destruct (fiStatus i); [rewrite <- app_assoc|]; reflexivity.
    + apply IH.
Qed.
Lemma made_perm {R A} u (a b : list (fdef R A)) : Permutation a b -> Permutation (made u a) (made u b).
Proof. apply Permutation_flat_map. Qed.
Lemma filter_perm' {B} (p : B -> bool) (a b : list B) : Permutation a b -> Permutation (filter p a) (filter p b).
Proof.
  induction 1; cbn; [constructor| | |eapply perm_trans; eassumption].
  - destruct (p x); [constructor|]; assumption.
  - destruct (p x), (p y); try apply Permutation_refl. apply perm_swap.
Qed.
Lemma made_rev {R A} u (l : list (fdef R A)) : made u (rev l) = rev (made u l).
Proof.
  induction l as [|d l IH]; [reflexivity|]. cbn [rev]. unfold made in *. rewrite flat_map_app, IH. cbn [flat_map]. rewrite app_nil_r, rev_app_distr.
  destruct (fdNew d u); reflexivity.
Qed.
Lemma filter_rev' {B} (p : B -> bool) l : filter p (rev l) = rev (filter p l).
Proof. induction l as [|x l IH]; [reflexivity|]. cbn. rewrite filter_app, IH. cbn. destruct (p x); [reflexivity|]. rewrite app_nil_r. reflexivity. Qed.
Lemma endpoint_rev {R A} u (l : list (fdef R A)) : endpoint_filters u (rev l) = rev (endpoint_filters u l).
Proof. unfold endpoint_filters. rewrite made_rev, filter_rev'. reflexivity. Qed.

Lemma getURL_endpoint {R A} (lib : flib R A) u : sorters_ok lib ->
  Permutation (snd (getURLFilters lib u)) (configured_endpoint lib u) /\
  StronglySorted (fun a b => (fdIndex b <= fdIndex a)%Z) (snd (getURLFilters lib u)).
Proof.
  intros [SP SI]. unfold getURLFilters. rewrite pget_param. change FilterKey with (s2b "filter"). destruct (param u (s2b "filter")) as [v|] eqn:Ev.
  - rewrite (collect_spec lib u v Ev). cbn [snd]. destruct (configured_endpoint lib u) as [|e es] eqn:Ee; [split; constructor|]. apply SP.
  - rewrite (proj2 (no_param lib u Ev)). split; constructor.
Qed.
Lemma endpoint_chain {R A} (lib : flib R A) cu eu : sorters_ok lib ->
  exists order, Permutation order (configured_endpoint lib cu) /\ StronglySorted (fun a b => (fdIndex a <= fdIndex b)%Z) order /\
                goes_through (endpoint_filters eu order) (runChain (fst (addFilter (snd (getURLFilters lib cu)) eu))) /\
                snd (addFilter (snd (getURLFilters lib cu)) eu) =
                  rev (filter (fun i => match fiStatus i with Some _ => true | None => false end) (endpoint_filters eu order)).
Proof.
  intro S. destruct (getURL_endpoint lib cu S) as [P Q]. exists (rev (snd (getURLFilters lib cu))).
  split; [eapply perm_trans; [apply Permutation_sym, Permutation_rev|exact P]|]. split; [exact (sorted_rev _ _ Q)|].
  rewrite endpoint_rev, filter_rev', rev_involutive. pose proof (addFilter_gen eu (snd (getURLFilters lib cu)) [] []) as G. change (@chainOf R A []) with (@CLast R A) in G. unfold addFilter. rewrite G. cbn [fst snd]. rewrite app_nil_r.
  split; [apply chain_through|reflexivity].
Qed.

Lemma askStatus_spec {R A} (l : list (finst R A)) : (forall f, In f l -> fiStatus f <> None) ->
  (snd (askStatus l) = true <-> Forall (fun f => fiStatus f = Some true) l) /\
  exists asked rest, l = asked ++ rest /\ fst (askStatus l) = map (fun f => fiName f) asked /\
    (rest <> [] -> exists pre f, asked = pre ++ [f] /\ fiStatus f = Some false) /\ Forall (fun f => fiStatus f = Some true) (removelast asked).
Proof.
  induction l as [|f l IH]; intro H.
  - split; [split; [intros _; constructor|reflexivity]|]. exists [], []. split; [reflexivity|]. split; [reflexivity|]. split; [intro X; contradiction|constructor].
  - destruct (IH (fun g I => H g (or_intror I))) as [I1 (asked & rest & E & F & G & K)]. cbn [askStatus]. destruct (fiStatus f) as [[|]|] eqn:Ef.
    + destruct (askStatus l) as [a b] eqn:Ea. cbn [fst snd] in *. split.
      * rewrite I1. split; [intro X; constructor; [exact Ef|exact X]|intro X; inversion X; assumption].
      * exists (f :: asked), rest. split; [rewrite E; reflexivity|]. split; [rewrite F; reflexivity|]. split.
        -- intro R0. destruct (G R0) as (pre & g & -> & X). exists (f :: pre), g. split; [reflexivity|exact X].
        -- destruct asked as [|x xs]; [constructor|]. change (removelast (f :: x :: xs)) with (f :: removelast (x :: xs)). constructor; [exact Ef|exact K].
    + cbn [fst snd]. split; [split; [intro X; discriminate X|]|].
      * intro X. inversion X; subst. rewrite Ef in *. discriminate.
      * exists [f], l. split; [reflexivity|]. split; [reflexivity|]. split; [|constructor]. intros _. exists [], f. split; [reflexivity|exact Ef].
    + exfalso. apply (H f (or_introl eq_refl)). exact Ef.
Qed.

Lemma parseInt64_syntax s z : parseInt64 s = (z, NumSyntax) -> z = 0%Z /\ True.
Proof.
  unfold parseInt64. destruct s as [|c s]; [intro H; injection H as <-; auto|].
  cbv zeta. destruct (parseUint64 _) as [un e]; destruct e; try (repeat match goal with |- context [if ?b then _ else _] => destruct b end; intro H; discriminate H).
  intro H. injection H as <-. auto.
Qed.
Lemma parseInt64_rangeval s z : parseInt64 s = (z, NumRange) -> z = 9223372036854775807%Z \/ z = (-9223372036854775808)%Z.
Proof.
  unfold parseInt64. destruct s as [|c s]; [intro H; discriminate H|].
  cbv zeta. destruct (parseUint64 _) as [un e]; destruct e.
  - repeat match goal with |- context [if ?b then _ else _] => destruct b end; intro H; try discriminate H; injection H as <-; auto.
  - intro H; discriminate H.
  - repeat match goal with |- context [if ?b then _ else _] => destruct b end; intro H; try discriminate H; injection H as <-; auto.
Qed.
