(* SnapProofs.v *)
From Coq Require Import Lia Permutation.
From Verif Require Import Base UrlModel SnapModel SnapSpec MgProofs.
Ltac Zify.zify_post_hook ::= idtac.

Definition svcOf (x : list bs * url) : service := mkService (uGroup (snd x)) (uPath (snd x)) (map (mkNode []) (fst x)).
Lemma look_save : forall m reg nodes u r k, look (zkSave m reg nodes u) r k = if bs_eqb reg r && bs_eqb (nodeKey u) k then Some (svcOf (nodes, u)) else look m r k.
Proof.
  intros m reg nodes u r k. unfold look, zkSave, saveSnapshot. rewrite get_set. destruct (bs_eqb reg r) eqn:E; cbn [andb]; [|reflexivity].
  apply bs_eqb_spec in E. subst r. rewrite get_set. destruct (bs_eqb (nodeKey u) k); [reflexivity|]. destruct (aget bs_eqb m reg); reflexivity.
Qed.
Lemma saves_look : forall os m r k, look (saves m os) r k = match lastSaved r k os with Some x => Some (svcOf x) | None => look m r k end.
Proof.
  induction os as [|[[reg ns] u] os IH]; intros m r k; [reflexivity|]. cbn [saves fold_left fst snd lastSaved].
  change (fold_left (fun m e => zkSave m (fst (fst e)) (snd (fst e)) (snd e)) os (zkSave m reg ns u)) with (saves (zkSave m reg ns u) os).
  rewrite IH. destruct (lastSaved r k os); [reflexivity|]. rewrite look_save. destruct (bs_eqb reg r && bs_eqb (nodeKey u) k); reflexivity.
Qed.

Definition keysOk (m : snapmap) : Prop := NoDup (akeys m) /\ Forall (fun e => NoDup (akeys (snd e))) m.
Lemma Forall_aset : forall {V} (P : bs * V -> Prop) (m : list (bs * V)) k v, Forall P m -> P (k, v) -> Forall P (aset bs_eqb m k v).
Proof.
  intros V P m k v H Hk. induction m as [|[k0 v0] m IH]; cbn [aset]; [constructor; auto|]. inversion H; subst.
  destruct (bs_eqb k k0) eqn:E; [apply bs_eqb_spec in E; subst; constructor; auto|constructor; auto].
Qed.
Lemma save_keys : forall m reg nodes u, keysOk m -> keysOk (zkSave m reg nodes u).
Proof.
  intros m reg nodes u [H1 H2]. unfold zkSave, saveSnapshot. split; [apply NoDup_aset; [exact bs_eqb_spec|exact H1]|].
  apply Forall_aset; [exact H2|]. cbn [snd]. apply NoDup_aset; [exact bs_eqb_spec|].
  destruct (aget bs_eqb m reg) as [x|] eqn:G; [|constructor]. apply (aget_In bs_eqb bs_eqb_spec) in G. rewrite Forall_forall in H2. exact (H2 _ G).
Qed.
Lemma saves_keys : forall os m, keysOk m -> keysOk (saves m os).
Proof. induction os as [|e os IH]; intros m H; [exact H|]. cbn [saves fold_left]. apply IH. apply save_keys. exact H. Qed.

(* merging *)
Definition under (key : bs) (es : list (bs * service)) : list service := map snd (filter (fun e => bs_eqb (fst e) key) es).
Definition joinSvc (l : list service) : option service :=
  match l with [] => None | v :: r => Some (mkService (s_group v) (s_path v) (flat_map s_nodes (v :: r))) end.
Lemma merge_get : forall es acc key, aget bs_eqb (fold_left mergeOne es acc) key =
  joinSvc (match aget bs_eqb acc key with Some v => [v] | None => [] end ++ under key es).
Proof.
  induction es as [|[k v] es IH]; intros acc key.
  - cbn [fold_left under filter map]. rewrite app_nil_r. destruct (aget bs_eqb acc key) as [[g q n]|]; cbn; [rewrite app_nil_r|]; reflexivity.
  - cbn [fold_left]. rewrite IH. unfold under. cbn [filter fst]. unfold mergeOne. cbn [fst snd].
    destruct (bs_eqb k key) eqn:E.
    + apply bs_eqb_spec in E. subst k. cbn [map snd]. destruct (aget bs_eqb acc key) as [x|] eqn:G; rewrite get_set, bs_eqb_refl; [|reflexivity].
      cbn [app joinSvc s_group s_path flat_map s_nodes]. rewrite <- app_assoc. reflexivity.
    + destruct (aget bs_eqb acc k) as [x|] eqn:G; rewrite get_set, E; reflexivity.
Qed.
Lemma merge_nodup : forall es acc, NoDup (akeys acc) -> NoDup (akeys (fold_left mergeOne es acc)).
Proof.
  induction es as [|[k v] es IH]; intros acc H; [exact H|]. cbn [fold_left]. apply IH. unfold mergeOne. cbn [fst].
  destruct (aget bs_eqb acc k); (apply NoDup_aset; [exact bs_eqb_spec|exact H]).
Qed.
(* writing *)
Lemma write_all : forall todo m files, 
  sn_files (fold_left snstep (repeat (NWrite true) (length todo)) (mkSnst m todo files)) = fold_left (fun f kv => aset bs_eqb f (fst kv) (snd kv)) todo files.
Proof. induction todo as [|[k v] todo IH]; intros m files; [reflexivity|]. cbn [length repeat fold_left snstep sn_todo sn_map sn_files fst snd]. apply IH. Qed.
Lemma put_get : forall (src : list (bs * service)) t k, NoDup (akeys src) ->
  aget bs_eqb (fold_left (fun f kv => aset bs_eqb f (fst kv) (snd kv)) src t) k = match aget bs_eqb src k with Some h => Some h | None => aget bs_eqb t k end.
Proof.
  induction src as [|[k0 h] src IH]; intros t k ND; [reflexivity|]. inversion ND as [|? ? N1 N2]; subst.
  cbn [fold_left aget fst snd]. rewrite (IH _ _ N2), get_set, (bs_eqb_sym k k0). destruct (bs_eqb k0 k) eqn:E.
  - apply bs_eqb_spec in E. subst k0. replace (aget bs_eqb src k) with (@None service); [reflexivity|]. symmetry. apply (aget_None bs_eqb bs_eqb_spec). exact N1.
  - destruct (aget bs_eqb src k); reflexivity.
Qed.
Lemma flush_get : forall files es k, aget bs_eqb (flushAll files es) k = match joinSvc (under k es) with Some v => Some v | None => aget bs_eqb files k end.
Proof.
  intros files es k. unfold flushAll. cbn [snstep sn_todo sn_map sn_files]. rewrite write_all, put_get.
  - unfold merged. rewrite merge_get. cbn [aget app]. reflexivity.
  - apply merge_nodup. constructor.
Qed.

Lemma under_perm : forall k a b, Permutation a b -> Permutation (under k a) (under k b).
Proof. 
  intros k a b P. unfold under. apply Permutation_map. induction P as [|x a b P IH|x y a|a b c P1 IH1 P2 IH2]; cbn [filter].
  - constructor.
  - destruct (bs_eqb (fst x) k); [constructor|]; exact IH.
  - destruct (bs_eqb (fst x) k); destruct (bs_eqb (fst y) k); try apply Permutation_refl. constructor.
  - eapply perm_trans; eassumption.
Qed.
Lemma flat_perm : forall {A B} (f : A -> list B) a b, Permutation a b -> Permutation (flat_map f a) (flat_map f b).
Proof.
  intros A B f a b P. induction P as [|x a b P IH|x y a|a b c P1 IH1 P2 IH2]; cbn [flat_map].
  - constructor.
  - apply Permutation_app_head. exact IH.
  - rewrite !app_assoc. apply Permutation_app_tail. apply Permutation_app_comm.
  - eapply perm_trans; eassumption.
Qed.
(* under a key: what each registry has *)
Lemma under_one : forall (m : list (bs * service)) k, NoDup (akeys m) -> under k m = match aget bs_eqb m k with Some v => [v] | None => [] end.
Proof.
  induction m as [|[k0 v] m IH]; intros k ND; [reflexivity|]. inversion ND as [|? ? N1 N2]; subst. unfold under. cbn [filter fst aget].
  rewrite (bs_eqb_sym k k0). destruct (bs_eqb k0 k) eqn:E.
  - apply bs_eqb_spec in E. subst k0. cbn [map snd]. f_equal. fold (under k m). rewrite (IH k N2). 
    replace (aget bs_eqb m k) with (@None service); [reflexivity|]. symmetry. apply (aget_None bs_eqb bs_eqb_spec). exact N1.
  - fold (under k m). apply IH. exact N2.
Qed.
Lemma under_app : forall k a b, under k (a ++ b) = under k a ++ under k b.
Proof. intros k a b. unfold under. rewrite filter_app, map_app. reflexivity. Qed.
Lemma under_entries : forall m k, keysOk m -> under k (entriesOf m) = flat_map (fun r => match look m r k with Some v => [v] | None => [] end) (akeys m).
Proof.
  intros m k [H1 H2].
  assert (G : forall m', Forall (fun e => NoDup (akeys (snd e))) m' -> (forall r x, In (r, x) m' -> aget bs_eqb m r = Some x) ->
     under k (entriesOf m') = flat_map (fun r => match look m r k with Some v => [v] | None => [] end) (akeys m')).
  { induction m' as [|[r x] m' IH]; intros F Q; [reflexivity|]. inversion F as [|? ? F1 F2]; subst. unfold entriesOf. cbn [map snd concat akeys flat_map fst].
    rewrite under_app. fold (entriesOf m'). rewrite (IH F2); [|intros r' x' Hin; apply Q; right; exact Hin]. fold (akeys m'). f_equal.
    rewrite (under_one x k F1). unfold look. rewrite (Q r x (or_introl eq_refl)). reflexivity. }
  apply G; [exact H2|]. intros r x Hin. apply (In_aget bs_eqb bs_eqb_spec); assumption.
Qed.
Lemma akeys_saves : forall os m r, In r (akeys (saves m os)) <-> In r (akeys m) \/ exists ns u, In (r, ns, u) os.
Proof.
  induction os as [|[[reg ns] u] os IH]; intros m r.
  - cbn [saves fold_left]. split; [auto|]. intros [H|(ns & u & [])]. exact H.
  - cbn [saves fold_left fst snd]. fold (saves (zkSave m reg ns u) os). change (fold_left (fun m e => zkSave m (fst (fst e)) (snd (fst e)) (snd e)) os (zkSave m reg ns u)) with (saves (zkSave m reg ns u) os).
    rewrite IH. unfold zkSave at 1, saveSnapshot.
    assert (K : forall V (mm : list (bs * V)) k v, In r (akeys (aset bs_eqb mm k v)) <-> r = k \/ In r (akeys mm)).
    { intros V mm k v. induction mm as [|[k0 v0] mm IHm]; cbn [aset akeys map fst In]; [intuition auto|].
      destruct (bs_eqb k k0) eqn:E; cbn [map fst In]; [apply bs_eqb_spec in E; subst; intuition auto|]. fold (akeys (aset bs_eqb mm k v)). rewrite IHm. unfold akeys. intuition auto. }
    rewrite K. split.
    + intros [[->|H]|(ns' & u' & H)]; [right; exists ns, u; left; reflexivity|auto|right; exists ns', u'; right; exact H].
    + intros [H|(ns' & u' & [H|H])]; [auto|injection H as -> -> ->; auto|right; exists ns', u'; exact H].
Qed.
Lemma lastSaved_in : forall os r k x, lastSaved r k os = Some x -> In (r, fst x, snd x) os /\ nodeKey (snd x) = k.
Proof.
  induction os as [|[[reg ns] u] os IH]; intros r k x H; [discriminate|]. cbn [lastSaved] in H.
  destruct (lastSaved r k os) as [y|] eqn:E; [injection H as <-; destruct (IH _ _ _ E) as [A B]; split; [right; exact A|exact B]|].
  destruct (bs_eqb reg r && bs_eqb (nodeKey u) k) eqn:B; [|discriminate]. injection H as <-. apply andb_true_iff in B. destruct B as [B1 B2].
  apply bs_eqb_spec in B1. apply bs_eqb_spec in B2. subst. split; [left; reflexivity|reflexivity].
Qed.

Lemma keys0 : keysOk []. Proof. split; constructor. Qed.
(* the file of a key after any saves and one flush *)
Lemma flush_file : forall os es files regs k, Permutation es (entriesOf (saves [] os)) -> NoDup regs ->
  (forall r, (exists x, lastSaved r k os = Some x) -> In r regs) ->
  match aget bs_eqb (flushAll files es) k with
  | Some v => (exists r x, lastSaved r k os = Some x /\ s_group v = uGroup (snd x) /\ s_path v = uPath (snd x) /\ Permutation (addrs v) (allAddrs k regs os))
              \/ ((forall r, lastSaved r k os = None) /\ aget bs_eqb files k = Some v)
  | None => (forall r, lastSaved r k os = None) /\ aget bs_eqb files k = None
  end.
Proof.
  intros os es files regs k P ND Hregs. rewrite flush_get.
  pose proof (under_perm k _ _ P) as U. rewrite (under_entries _ k (saves_keys os [] keys0)) in U.
  set (m := saves [] os) in *.
  assert (L : forall r, look m r k = match lastSaved r k os with Some x => Some (svcOf x) | None => None end).
  { intros r. unfold m. rewrite saves_look. destruct (lastSaved r k os); reflexivity. }
  assert (Iff : forall v, In v (under k es) <-> exists r x, lastSaved r k os = Some x /\ v = svcOf x).
  { intros v. split.
    - intros H. apply (Permutation_in _ U) in H. apply in_flat_map in H. destruct H as (r & _ & H). rewrite L in H. destruct (lastSaved r k os) as [x|] eqn:E; [|destruct H].
      destruct H as [<-|[]]. exists r, x. auto.
    - intros (r & x & E & ->). apply (Permutation_in _ (Permutation_sym U)). apply in_flat_map. exists r. split.
      + unfold m. apply akeys_saves. right. destruct (lastSaved_in _ _ _ _ E) as [A _]. exists (fst x), (snd x). exact A.
      + rewrite L, E. left. reflexivity. }
  assert (N : under k es = [] -> forall r, lastSaved r k os = None).
  { intros H r. destruct (lastSaved r k os) as [x|] eqn:E; [|reflexivity]. exfalso. assert (X : In (svcOf x) (under k es)) by (apply Iff; exists r, x; auto). rewrite H in X. destruct X. }
  destruct (under k es) as [|v l] eqn:Eu; cbn [joinSvc].
  - specialize (N eq_refl). destruct (aget bs_eqb files k); auto.
  - left. destruct (proj1 (Iff v) (or_introl eq_refl)) as (r & x & E & Ev). exists r, x. split; [exact E|]. cbn [s_group s_path]. subst v. cbn [svcOf s_group s_path].
    split; [reflexivity|]. split; [reflexivity|]. unfold addrs. cbn [s_nodes].
    (* addresses *)
    assert (A1 : map n_addr (flat_map s_nodes (svcOf x :: l)) = flat_map addrs (svcOf x :: l)).
    { generalize (svcOf x :: l). induction l0 as [|z l0 IHl]; [reflexivity|]. cbn [flat_map]. rewrite map_app, IHl. reflexivity. }
    rewrite A1. eapply perm_trans; [apply (flat_perm addrs _ _ U)|].
    assert (A2 : flat_map addrs (flat_map (fun r => match look m r k with Some v => [v] | None => [] end) (akeys m)) = allAddrs k (akeys m) os).
    { unfold allAddrs. generalize (akeys m). induction l0 as [|z l0 IHl]; [reflexivity|]. cbn [flat_map].
      rewrite <- IHl. rewrite L. destruct (lastSaved z k os) as [[ns u]|]; [|reflexivity]. cbn [app flat_map]. f_equal. unfold addrs, svcOf. cbn [s_nodes fst]. rewrite map_map. cbn [n_addr]. apply map_id. }
    rewrite A2. unfold allAddrs.
    (* registries without this key add nothing *)
    set (f := fun r => match lastSaved r k os with Some (ns, _) => ns | None => [] end).
    assert (F : forall l0, flat_map f l0 = flat_map f (filter (fun r => match lastSaved r k os with Some _ => true | None => false end) l0)).
    { induction l0 as [|z l0 IHl]; [reflexivity|]. cbn [flat_map filter]. rewrite IHl. unfold f at 1. destruct (lastSaved z k os) as [[ns u]|] eqn:Z; [|reflexivity]. cbn [flat_map]. unfold f at 2. rewrite Z. reflexivity. }
    rewrite (F (akeys m)), (F regs). apply flat_perm. apply NoDup_Permutation.
    + apply NoDup_filter. exact (proj1 (saves_keys os [] keys0)).
    + apply NoDup_filter. exact ND.
    + intros z. rewrite !filter_In. destruct (lastSaved z k os) as [y|] eqn:Z; split; intros [A B]; try discriminate; split; auto.
      * apply Hregs. exists y. exact Z.
      * unfold m. apply akeys_saves. right. destruct (lastSaved_in _ _ _ _ Z) as [Q _]. exists (fst y), (snd y). exact Q.
Qed.

Lemma writes_mid : forall ops m todo files, Forall (fun o => match o with NSave _ _ _ => True | NWrite ok => ok = true | NFlush _ => False end) ops ->
  countb (fun o => match o with NWrite _ => true | _ => false end) ops = length todo ->
  sn_files (fold_left snstep ops (mkSnst m todo files)) = fold_left (fun f kv => aset bs_eqb f (fst kv) (snd kv)) todo files.
Proof.
  induction ops as [|o ops IH]; intros m todo files F C.
  - destruct todo; [reflexivity|discriminate].
  - inversion F as [|? ? F1 F2]; subst. cbn [fold_left]. destruct o as [reg ns u|es|ok]; [|destruct F1|subst ok].
    + cbn [snstep sn_todo sn_map sn_files]. destruct todo as [|kv todo]; apply IH; auto.
    + cbn [countb] in C. destruct todo as [|[k v] todo]; [discriminate|]. cbn [snstep sn_todo sn_map sn_files fold_left fst snd]. apply IH; [exact F2|].
      cbn [length] in C. injection C as C. exact C.
Qed.
Lemma flush_mid : forall ops s es, sn_todo s = [] -> Forall (fun o => match o with NSave _ _ _ => True | NWrite ok => ok = true | NFlush _ => False end) ops ->
  countb (fun o => match o with NWrite _ => true | _ => false end) ops = length (merged es) ->
  sn_files (fold_left snstep ops (snstep s (NFlush es))) = flushAll (sn_files s) es.
Proof.
  intros ops [m todo files] es T F C. cbn [sn_todo] in T. subst todo. unfold flushAll. cbn [snstep sn_todo sn_map sn_files]. rewrite write_all. apply writes_mid; assumption.
Qed.
