(* CoreProps.v: C37, C38 and C39. *)
From Coq Require Import Permutation.
From Verif Require Import Base Lists Strconv CoreModel CoreSpec CoreProofs.

(* ---- C37: the circular recorder *)
(* whatever is recorded, GetRecords lists exactly the last [size] non-nil records, oldest first, numbered from 0 *)
Theorem C37_last_records V size (l : list (Z * option V)) : (0 < size)%Z ->
  exists r, addAll (newRecorder V size) l = Some r /\ getRecords r = numbered 0 (last_n (Z.to_nat size) (real_items l)).
Proof.
  intro H. eexists. rewrite newRecorder_ring, ring_all by lia. split; [reflexivity|]. apply ring_records.
Qed.
Print Assumptions C37_last_records.

(* no two of them share a key, so that min(size, number of records) are returned *)
Theorem C37_count V size (l : list (Z * option V)) r : (0 < size)%Z -> addAll (newRecorder V size) l = Some r ->
  NoDup (akeys (getRecords r)) /\ length (getRecords r) = Nat.min (Z.to_nat size) (length (real_items l)).
Proof.
  intros H E. destruct (C37_last_records V size l H) as (r' & E' & Er).
  assert (r' = r) by congruence. subst r'. rewrite Er. split.
  - apply numbered_nodup. lia.
  - rewrite numbered_length, last_n_length. reflexivity.
Qed.
Print Assumptions C37_count.

Example C37_nonvacuous : option_map getRecords (addAll (newRecorder nat 2) [(10%Z, Some 1); (11%Z, Some 2); (12%Z, None); (13%Z, Some 3)])
  = Some [(s2b "0:11", 2); (s2b "1:13", 3)].
Proof. vm_compute. reflexivity. Qed.

(* a recorder of size 0 cannot record anything: it crashes *)
Theorem C37_empty_ring_refuted : addAll (newRecorder nat 0) [(1%Z, Some 5)] = None.
Proof. reflexivity. Qed.
Print Assumptions C37_empty_ring_refuted.

(* two concurrent readers share the key buffer: both read the single record 0 of time 5, one of them returns a wrong key *)
Theorem C37_concurrent_readers_refuted : exists schedule,
  map snd (filter (fun x => Nat.eqb (fst x) 0) schedule) = keyProgram 0 5 /\
  map snd (filter (fun x => Nat.eqb (fst x) 1) schedule) = keyProgram 0 5 /\
  Forall (fun x => fst x = 0 \/ fst x = 1) schedule /\
  In (0, s2b "00:5:5") (keyRun [] schedule) /\ recordKey 0 5 = s2b "0:5".
Proof.
  exists [(0, KReset); (1, KReset); (0, KIdx 0); (1, KIdx 0); (0, KColon); (0, KTime 5); (1, KColon); (1, KTime 5); (0, KTake); (1, KTake)].
  split; [reflexivity|]. split; [reflexivity|]. split; [repeat (constructor; [cbn; auto|]); constructor|]. vm_compute. auto.
Qed.
Print Assumptions C37_concurrent_readers_refuted.

(* ---- C38: the copy-on-write map *)
(* every interleaving of any number of threads whose writers hold the lock is explained by an ordinary map *)
Theorem C38_is_a_map V (es : list (@cev V)) s tr :
  Forall map_argument es -> cowRun true cowInit es = Some (s, tr) -> explains (fun _ => None) [] [] tr.
Proof. exact (cow_refines es cowInit (fun _ => None) [] [] s tr cow_rel_init). Qed.
Print Assumptions C38_is_a_map.

(* an iteration begun before a write, a deletion and a swap still sees the old map *)
Definition cowExample : list (@cev nat) :=
  [CLock 1; CRead 1 (WStore (s2b "a") 1); CPublish 1; CRead 1 (WStore (s2b "b") 2); CLoad 2 (s2b "b"); CPublish 1; CUnlock 1; CRange 2;
   CLock 3; CRead 3 (WDelete (s2b "a")); CPublish 3; CUnlock 3; CLock 1; CRead 1 (WSwap [(s2b "z", 9)]); CPublish 1; CUnlock 1; CSee 2; CLoad 2 (s2b "a"); CLen 2].
Example C38_nonvacuous : Forall map_argument cowExample /\ exists s tr, cowRun true cowInit cowExample = Some (s, tr) /\
  In (CSee 2, OMap [(s2b "a", 1); (s2b "b", 2)]) tr /\ In (CLoad 2 (s2b "b"), OVal None) tr /\ In (CLoad 2 (s2b "a"), OVal None) tr /\ In (CLen 2, OLen 1) tr.
Proof.
  split.
  - repeat constructor; cbn; auto.
  - eexists. eexists. split; [vm_compute; reflexivity|]. cbn [In]. repeat split; repeat (first [left; reflexivity|right]).
Qed.

(* UnsafeStore outside SafeDoFunc loses an update *)
Theorem C38_unsafe_store_refuted : exists (es : list (@cev nat)) s tr,
  cowRun false cowInit es = Some (s, tr) /\ es =
    [CRead 1 (WStore (s2b "a") 1); CLock 2; CRead 2 (WStore (s2b "b") 2); CPublish 2; CUnlock 2; CPublish 1; CLoad 1 (s2b "b")] /\
  In (CLoad 1 (s2b "b"), OVal None) tr.
Proof. eexists. eexists. eexists. split; [|split; [reflexivity|]]; [vm_compute; reflexivity|]. cbn. auto 10. Qed.
Print Assumptions C38_unsafe_store_refuted.

(* ---- C39: switchers *)
(* the manager is the map the history describes *)
Theorem C39_values os s n : swRun swInit os = Some s ->
  swIsOpen s n = match sw_known os n with Some (v, _) => v | None => false end /\
  (forall v, In (n, v) (swAll s) <-> exists ls, sw_known os n = Some (v, ls)).
Proof.
  intro E. destruct (sw_run_rel os [] swInit s sw_rel_init E) as [[W1 W2 W3] _]. cbn [app] in W1. specialize (W1 n). unfold sw_view in W1. split.
  - unfold swIsOpen. rewrite <- W1. destruct (aget bs_eqb (swMap s) n); reflexivity.
  - intro v. rewrite <- W1. unfold swAll. rewrite in_map_iff. split.
    + intros ([k sw] & Hk & Hin). cbn [fst snd] in Hk. injection Hk as <- <-. apply (In_aget bs_eqb bs_eqb_spec) in Hin; [|exact W3]. rewrite Hin. cbn. eauto.
    + intros (ls & Hl). destruct (aget bs_eqb (swMap s) n) as [sw|] eqn:Eg; [|discriminate]. cbn in Hl. injection Hl as <- <-.
      exists (n, sw). split; [reflexivity|]. apply (aget_In bs_eqb bs_eqb_spec) in Eg. exact Eg.
Qed.
Print Assumptions C39_values.

(* the notifications given so far and those still on their way are together exactly those owed: one per change of value and
   listener watching at that moment, with the new value *)
Theorem C39_notifications os s : swRun swInit os = Some s -> Permutation (swTold s ++ waiting s) (owed [] os).
Proof. intro E. destruct (sw_run_rel os [] swInit s sw_rel_init E) as [_ P]. exact P. Qed.
Print Assumptions C39_notifications.

(* no history crashes unless it sets a switcher without a name *)
Theorem C39_total os : (forall n v, In (SSet n v) os -> n <> []) -> exists s, swRun swInit os = Some s.
Proof. exact (sw_run_total os swInit [] sw_rel_init). Qed.
Print Assumptions C39_total.

Definition swExample : list swOp :=
  [SRegister (s2b "x") false [1; 2]; SSet (s2b "x") false; SSet (s2b "x") true; SWatch (s2b "x") [3]; SSet (s2b "y") true; STell 0; SSet (s2b "x") false; STell 1; STell 0].
Example C39_nonvacuous : exists s, swRun swInit swExample = Some s /\ swIsOpen s (s2b "x") = false /\ swIsOpen s (s2b "y") = true /\
  swTold s = [(s2b "x", true, 1); (s2b "x", false, 1); (s2b "x", true, 2)] /\ waiting s = [(s2b "x", false, 2); (s2b "x", false, 3)] /\ length (owed [] swExample) = 5.
Proof. eexists. split; [vm_compute; reflexivity|]. vm_compute. auto 6. Qed.

(* the goroutines of two changes may run in either order: a listener may be left with a value the switcher no longer has *)
Theorem C39_last_notification_refuted : exists os s l,
  swRun swInit os = Some s /\ waiting s = [] /\ swTold s = l ++ [(s2b "x", true, 1)] /\ swIsOpen s (s2b "x") = false.
Proof.
  exists [SRegister (s2b "x") false [1]; SSet (s2b "x") true; SSet (s2b "x") false; STell 1; STell 0]. eexists. exists [(s2b "x", false, 1)].
  split; [vm_compute; reflexivity|]. vm_compute. auto.
Qed.
Print Assumptions C39_last_notification_refuted.

(* setting a switcher with the empty name dereferences nil *)
Theorem C39_empty_name_refuted os s v : swRun swInit os = Some s -> swStep s (SSet [] v) = None.
Proof.
  intro E. destruct (sw_run_rel os [] swInit s sw_rel_init E) as [[_ W2 _] _]. cbn [swStep]. unfold swSet. rewrite W2. unfold swRegister. rewrite (proj2 (bs_eqb_spec [] []) eq_refl), W2. reflexivity.
Qed.
Print Assumptions C39_empty_name_refuted.
