(* LbProps.v: the properties of request ids, load balancers and shuffles. *)
From Verif Require Import Base Lists BytesModel Strconv GoStrings LbModel LbSpec LbProofs LbProofs2 LbProofs3 LbProofs4 LbProofs5.
Set Implicit Arguments. Unset Strict Implicit.

(* ------------------------------------------------------------ C13 *)

(* any 2^20 consecutive ids differ, whatever the clock does and wherever the counter starts *)
Theorem C13_ids_distinct : forall (clocks : nat -> N) (counter : N) (k : nat),
  (N.of_nat k <= 2 ^ 20)%N -> NoDup (request_ids clocks counter k).
Proof. exact ids_distinct. Qed.
Print Assumptions C13_ids_distinct.
(* a frozen clock, a clock that jumps back, a counter about to wrap *)
Example C13_example : request_ids (fun _ => 0x1234567890abcdef%N) 0xfffffffffffffffe%N 3 = [0x1234567890afffff; 0x1234567890a00000; 0x1234567890a00001]%N.
Proof. vm_compute. reflexivity. Qed.

(* ------------------------------------------------------------ C14 *)

(* Select of the random load balancer *)
Theorem C14_random : forall E av r1 r2 (eps : list E), sound_pick av eps (randomSelect av r1 r2 eps).
Proof. intros. apply random_sound. Qed.
Print Assumptions C14_random.
(* Select of round robin *)
Theorem C14_roundrobin : forall E av r1 r2 counter (eps : list E), sound_pick av eps (snd (roundrobinSelect av r1 r2 counter eps)).
Proof. intros. apply rr_sound. Qed.
Print Assumptions C14_roundrobin.
(* so when availability does not change during the call: available endpoint iff there is one *)
Theorem C14_constant : forall E (up : E -> bool) r1 r2 counter (eps : list E) p,
  p = randomSelect (fun _ => up) r1 r2 eps \/ p = snd (roundrobinSelect (fun _ => up) r1 r2 counter eps) ->
  match p with
  | PEp i e => nth_error eps i = Some e /\ up e = true
  | PNil => forallb (fun e => negb (up e)) eps = true
  | PPanic => False
  end.
Proof.
  intros E up r1 r2 counter eps p Hp.
  assert (S : sound_pick (fun _ => up) eps p) by (destruct Hp as [->| ->]; [apply random_sound|apply rr_sound]).
  destruct p as [i e| |]; cbn in S.
  - destruct S as (A & t & B). auto.
  - apply forallb_forall. intros e He. destruct (S e He) as (t & ->). reflexivity.
  - exact S.
Qed.
Print Assumptions C14_constant.
(* SelectArray of both: never a panic, at most three, all of them available when asked; empty only if every endpoint said
   no at some moment of the call *)
Theorem C14_select_array : forall E av av' r1 r2 counter (eps : list E) res,
  res = randomSelectArray av av' r1 r2 eps \/ res = snd (roundrobinSelectArray av av' r1 r2 counter eps) ->
  exists l, res = Some l /\ length l <= 3 /\
    (forall e, In e l -> In e eps /\ exists t, av' t e = true) /\
    (l = [] -> forall e, In e eps -> (exists t, av t e = false) \/ (exists t, av' t e = false)).
Proof.
  intros E av av' r1 r2 counter eps res [->| ->].
  - unfold randomSelectArray. apply array_after_sound, random_sound.
  - unfold roundrobinSelectArray. pose proof (rr_sound av r1 r2 counter eps) as S.
    destruct (roundrobinSelect av r1 r2 counter eps) as [next p]. cbn [snd] in *. apply array_after_sound, S.
Qed.
Print Assumptions C14_select_array.
(* and exactly: the first three available ones from the chosen position on *)
Theorem C14_array_exact : forall E (up : E -> bool) (eps : list E) from, from < length eps ->
  selectArrayFromIndex (fun _ => up) eps from = Some (firstn 3 (filter up (skipn from eps ++ firstn from eps))).
Proof. intros. apply array_const, H. Qed.
Print Assumptions C14_array_exact.
Example C14_example : randomSelect (fun _ e => N.eqb e 7) 0 2 [5; 6; 7; 8]%N = PEp 2 7%N
  /\ snd (roundrobinSelect (fun _ e => N.eqb e 7) 0 2 4294967295 [5; 6; 7; 8]%N) = PEp 2 7%N
  /\ randomSelectArray (fun _ e => N.odd e) (fun _ e => N.odd e) 2 0 [5; 6; 7; 8; 9]%N = Some [7; 9; 5]%N.
Proof. vm_compute. auto. Qed.

(* ------------------------------------------------------------ C15 *)

(* exactly fair over every window that does not cross the wrap of the 32-bit counter.  The full statement (every start
   counter) is false: C15_wrap_refuted; across the wrap the counts are off by at most one: C15_near_fair. *)
Theorem C15_fair : forall E (eps : list E) rs counter k, eps <> [] -> (counter + N.of_nat (k * length eps) < 2 ^ 32)%N ->
  Forall (picked_from eps) (rr_run all_up rs counter eps (k * length eps)) /\
  forall i, i < length eps -> times i (rr_run all_up rs counter eps (k * length eps)) = k.
Proof. intros. split; [apply rr_picks_ok; assumption|]. apply rr_exact; assumption. Qed.
Print Assumptions C15_fair.
Theorem C15_near_fair : forall E (eps : list E) rs counter k, eps <> [] -> (counter < 2 ^ 32)%N -> (N.of_nat (k * length eps) <= 2 ^ 32)%N ->
  Forall (picked_from eps) (rr_run all_up rs counter eps (k * length eps)) /\
  forall i, i < length eps -> k <= times i (rr_run all_up rs counter eps (k * length eps)) + 1
                           /\ times i (rr_run all_up rs counter eps (k * length eps)) <= k + 1.
Proof. intros. split; [apply rr_picks_ok; assumption|]. apply rr_near; assumption. Qed.
Print Assumptions C15_near_fair.
(* a window of three selections over three endpoints around the wrap: 0, 0, 1 *)
Theorem C15_wrap_refuted : ~ (forall (eps : list N) rs counter k i, eps <> [] -> (counter < 2 ^ 32)%N -> i < length eps ->
  times i (rr_run all_up rs counter eps (k * length eps)) = k).
Proof.
  intro H. specialize (H [10; 20; 30]%N (fun _ => (0, 0)%N) 4294967294%N 1 0 ltac:(discriminate) ltac:(reflexivity) ltac:(cbn; lia)).
  vm_compute in H. discriminate.
Qed.
Print Assumptions C15_wrap_refuted.
Example C15_example : map (fun p => match p with PEp i _ => i | _ => 99 end) (rr_run all_up (fun _ => (0, 0)%N) 7 [10; 20; 30]%N 6) = [2; 0; 1; 2; 0; 1].
Proof. vm_compute. reflexivity. Qed.

(* ------------------------------------------------------------ C16 *)

(* Whatever weights are installed (positive: see C56), weighted round robin honours them exactly: over k * W consecutive
   selections, W the sum of the weights divided by their gcd, endpoint i is chosen k * weight_i / gcd times.  For the
   round robin and ring selectors: in every window that does not cross the wrap of the counter at 2^63 (refuted across
   it: C16_wrap_refuted).  For the window selector with at most 50 endpoints: from its installation on.  (With more
   endpoints the window selector looks at up to 50 of them at a time and the weights are honoured only roughly.) *)
Theorem C16_weights : forall E draws cur (hs : list (E * N)) sel, hs <> [] -> (forall e w, In (e, w) hs -> (0 < w)%N) ->
  notifyWeightChange draws cur hs = Some sel -> is_window sel = false ->
  exists g, is_gcd g (map snd hs) /\
  let W := N.to_nat (sumN (map (fun w => (w / g)%N) (map snd hs))) in
  forall rs s k, (s mod 2 ^ 63 + Z.of_nat (k * W) < 2 ^ 63)%Z ->
  Forall (picked_from (map fst hs)) (wrr_run (up_answers rs) (with_counter sel s) (k * W)) /\
  forall i e w, nth_error hs i = Some (e, w) -> times i (wrr_run (up_answers rs) (with_counter sel s) (k * W)) = k * N.to_nat (w / g).
Proof. exact @wrr_exact. Qed.
Print Assumptions C16_weights.
Theorem C16_window : forall E draws cur (hs : list (E * N)) sel, hs <> [] -> (forall e w, In (e, w) hs -> (0 < w)%N) ->
  notifyWeightChange draws cur hs = Some sel -> is_window sel = true -> length hs <= 50 ->
  exists g, is_gcd g (map snd hs) /\
  let W := N.to_nat (sumN (map (fun w => (w / g)%N) (map snd hs))) in
  forall rs s k,
  Forall (picked_from (map fst hs)) (wrr_run (up_answers rs) (with_counter sel s) (k * W)) /\
  forall i e w, nth_error hs i = Some (e, w) -> times i (wrr_run (up_answers rs) (with_counter sel s) (k * W)) = k * N.to_nat (w / g).
Proof. exact @wrr_window_exact. Qed.
Print Assumptions C16_window.
(* an installation never fails on a non-empty list *)
Theorem C16_installs : forall E draws cur (hs : list (E * N)), hs <> [] -> exists sel, notifyWeightChange draws cur hs = Some sel.
Proof. exact @notify_total. Qed.
Print Assumptions C16_installs.
(* A window of a long list is at most 50 endpoints wide and its size does not divide their number, so that windows that
   follow each other do not start at the same places in every round. *)
Theorem C16_window_size : forall E draws cur (hs : list (E * N)) items w c, 50 < length hs -> (N.of_nat (length hs) < 2 ^ 63)%N ->
  notifyWeightChange draws cur hs = Some (SelWindow items w c) -> 1 < w <= 50 /\ length hs mod w <> 0.
Proof. exact @wrr_window_size. Qed.
Print Assumptions C16_window_size.
Example C16_window_size_example : exists items, notifyWeightChange (fun _ => (0, 0)%N) None (map (fun i => (N.of_nat i, if i =? 0 then 1%N else 2%N)) (seq 0 300))
  = Some (SelWindow items 49 0).
Proof. eexists. vm_compute. reflexivity. Qed.
Theorem C16_wrap_refuted : ~ (forall draws cur (hs : list (N * N)) sel, hs <> [] -> (forall e w, In (e, w) hs -> (0 < w)%N) ->
  notifyWeightChange draws cur hs = Some sel -> is_window sel = false ->
  forall rs s i e w, int64 s -> nth_error hs i = Some (e, w) -> (forall g, is_gcd g (map snd hs) -> g = 1%N) ->
  times i (wrr_run (up_answers rs) (with_counter sel s) (N.to_nat (sumN (map snd hs)))) = N.to_nat w).
Proof.
  intro H.
  specialize (H (fun _ => (0, 0)%N) None [(10, 1); (20, 2)]%N (SelRing [10; 20]%N (ringBytes [1; 2]%N) 0) ltac:(discriminate)).
  specialize (H ltac:(intros e w [E|[E|[]]]; injection E as <- <-; lia) ltac:(vm_compute; reflexivity) eq_refl (fun _ => 0%N) (2 ^ 63 - 3)%Z 0 10%N 1%N).
  specialize (H ltac:(unfold int64; lia) eq_refl).
  specialize (H ltac:(intros g (A & _); apply N.divide_1_r, A; left; reflexivity)). vm_compute in H. discriminate.
Qed.
Print Assumptions C16_wrap_refuted.
Example C16_example : exists sel, notifyWeightChange (fun i => (N.of_nat i, 2)%N) None [(10, 4); (20, 2); (30, 6)]%N = Some sel
  /\ is_window sel = false
  /\ map (fun i => times i (wrr_run (up_answers (fun _ => 0%N)) (with_counter sel 41) 6)) [0; 1; 2] = [2; 1; 3].
Proof. eexists. split; [vm_compute; reflexivity|]. vm_compute. auto. Qed.
(* the window selector needs a total weight above 5120 *)
Definition C16_heavy : list (N * N) := map (fun i => (N.of_nat i, 490 + N.of_nat i)%N) (seq 0 11).
Example C16_window_example : exists sel, notifyWeightChange (fun _ => (0, 0)%N) None C16_heavy = Some sel
  /\ is_window sel = true /\ length C16_heavy <= 50
  /\ map (fun i => times i (wrr_run (up_answers (fun _ => 0%N)) (with_counter sel 5) 22)) [0; 5; 10] = [2; 2; 2].
Proof. eexists. split; [vm_compute; reflexivity|]. vm_compute. repeat split; lia. Qed.

(* ------------------------------------------------------------ C17 *)

(* With a weighted configuration, over k full cycles (not crossing the wrap of the 32-bit counter; a cycle has at most
   100 steps per group) each group with endpoints is asked exactly k * weight / gcd times, every question goes to a
   group that has endpoints and a weight, and that group's load balancer holds exactly its endpoints.  Weights are
   [group_weight]: 1..100 from the configuration, 0 when the configuration does not name the group. *)
Theorem C17_group_weights : forall E (grp : E -> bs) o1 o2 draws weight eps ring groups counter,
  groups_of grp eps o1 -> groups_of grp eps o2 ->
  onRefresh grp o1 o2 draws weight eps = Some (Weighted ring groups counter) ->
  exists g, is_gcd g (map (group_weight weight) o1) /\
  let W := N.to_nat (sumN (map (fun x => (group_weight weight x / g)%N) o1)) in
  forall start k, (start + N.of_nat (k * W) < 2 ^ 32)%N ->
    (forall x, In x o1 -> times_group x (group_run ring start (k * W)) = k * N.to_nat (group_weight weight x / g)) /\
    (forall o, In o (group_run ring start (k * W)) -> exists x, o = Some x /\ In x o1 /\ (0 < group_weight weight x)%N /\
        aget bs_eqb groups x = Some (filter (fun e => bs_eqb (grp e) x) eps)).
Proof. exact (fun E grp o1 o2 draws weight eps ring groups counter => @group_exact E grp o1 o2 draws weight eps ring groups counter). Qed.
Print Assumptions C17_group_weights.
(* when the weighted mode is used, and when the refresh panics: no group of the endpoints has a weight *)
Theorem C17_refresh_outcome : forall E (grp : E -> bs) o1 o2 draws weight eps, groups_of grp eps o1 -> groups_of grp eps o2 ->
  match onRefresh grp o1 o2 draws weight eps with
  | Some (Single l) => weighted weight = false /\ l = eps
  | Some (Weighted _ _ _) => weighted weight = true /\ exists x, In x o1 /\ (0 < group_weight weight x)%N
  | None => weighted weight = true /\ forall x, In x o1 -> group_weight weight x = 0%N
  end.
Proof.
  intros E grp o1 o2 draws weight eps G1 G2. pose proof (onRefresh_spec draws weight G1 G2) as S.
  destruct (weighted weight); [|rewrite S; auto]. destruct (existsb _ o1) eqn:Ex.
  - destruct S as (g & ring & _ & _ & -> & _). split; [reflexivity|]. apply existsb_exists in Ex as (x & Hx & Hw).
    apply negb_true_iff, N.eqb_neq in Hw. exists x. split; [exact Hx|lia].
  - rewrite S. split; [reflexivity|]. intros x Hx. destruct (N.eq_dec (group_weight weight x) 0) as [|Hn]; [assumption|]. exfalso.
    assert (existsb (fun g => negb (N.eqb (group_weight weight g) 0)) o1 = true); [|congruence].
    apply existsb_exists. exists x. split; [exact Hx|]. apply negb_true_iff, N.eqb_neq, Hn.
Qed.
Print Assumptions C17_refresh_outcome.
(* so refreshing is not total: weights that name no group of the endpoints crash the refresh (division by zero), and so
   does an empty endpoint list (index out of range) *)
Theorem C17_refresh_panics_refuted : ~ (forall (grp : N -> bs) o draws weight eps, groups_of grp eps o -> onRefresh grp o o draws weight eps <> None).
Proof.
  intro H. apply (H (fun _ => s2b "b") [s2b "b"] (fun _ => (0, 0)%N) (s2b "a:3") [1%N]); [|vm_compute; reflexivity].
  split; [constructor; [intros []|constructor]|]. intro g. split.
  - intros [<-|[]]. exists 1%N. split; [left|]; reflexivity.
  - intros (e & [<-|[]] & <-). left. reflexivity.
Qed.
Print Assumptions C17_refresh_panics_refuted.
Example C17_example : exists ring groups,
  onRefresh (fun e : N => if (e <? 10)%N then s2b "a" else s2b "b") [s2b "a"; s2b "b"] [s2b "b"; s2b "a"] (fun i => (N.of_nat i, 1)%N)
    (s2b "a:4,b:2,c:7,a:6") [1; 11; 2]%N = Some (Weighted ring groups 0)
  /\ group_weight (s2b "a:4,b:2,c:7,a:6") (s2b "a") = 6%N
  /\ map (fun g => times_group g (group_run ring 9 4)) [s2b "a"; s2b "b"] = [3; 1]
  /\ aget bs_eqb groups (s2b "a") = Some [1; 2]%N.
Proof. eexists _, _. split; [vm_compute; reflexivity|]. vm_compute. auto. Qed.

(* ------------------------------------------------------------ C18 *)

(* After any history of refreshes, with at least two endpoints installed: each key has one endpoint of the current list,
   which is the result of every selection that finds it available. *)
Theorem C18_stable : forall E R L (H : hashlib E R L) part load replica history key, locates_members H ->
  let s := ch_after H part load replica history in
  length (cEps s) <> 1 -> cRing s <> None -> key <> [] ->
  exists e, In e (cEps s) /\ forall av r1 r2, av 0 e = true -> exists i, chSelect H av r1 r2 s key = PEp i e.
Proof. exact @ch_stable. Qed.
Print Assumptions C18_stable.
(* and the fallback is an available endpoint of the list, or nil when all said no *)
Theorem C18_fallback : forall E R L (H : hashlib E R L) part load replica history av r1 r2 key, locates_members H ->
  let s := ch_after H part load replica history in
  length (cEps s) <> 1 -> (key <> [] -> cRing s <> None) -> ch_pick_ok av (cEps s) (chSelect H av r1 r2 s key).
Proof. exact @ch_sound. Qed.
Print Assumptions C18_fallback.
(* when the library can build a ring for every non-empty list, the last refresh is the one installed *)
Theorem C18_installs : forall E R L (H : hashlib E R L) part load replica history eps,
  (forall eps part replica load, eps <> [] -> exists ring, h_new H eps part replica load = Some ring) -> eps <> [] ->
  let s := ch_after H part load replica (history ++ [eps]) in cEps s = eps /\ (length eps <> 1 -> cRing s <> None).
Proof. exact @ch_installs. Qed.
Print Assumptions C18_installs.
(* the ring is the library's for the current list, with at least two partitions for each endpoint *)
Theorem C18_partitions : forall E R L (H : hashlib E R L) part load replica history ring,
  let s := ch_after H part load replica history in cRing s = Some ring ->
  2 * length (cEps s) <= cPart s /\ exists rep l, h_new H (cEps s) (cPart s) rep l = Some ring.
Proof. intros E R L H part load replica history ring s. apply part_after. Qed.
Print Assumptions C18_partitions.
(* and the number of partitions, once set, stays while it is large enough, so that keys keep their partitions *)
Theorem C18_partitions_kept : forall E R L (H : hashlib E R L) part load replica history eps,
  let s := ch_after H part load replica history in
  cPart s <> 0 -> 2 * length eps <= cPart s -> cPart (ch_after H part load replica (history ++ [eps])) = cPart s.
Proof. intros E R L H part load replica history eps s. apply part_kept. Qed.
Print Assumptions C18_partitions_kept.
(* a toy ring: the members, located by key length *)
Definition toyHash : hashlib N (list N) N :=
  @mkHash N (list N) N (fun eps _ _ load => if (load <? 2)%N then None else match eps with [] => None | _ => Some eps end)
         (fun r k => match r with [] => None | e :: _ => Some (nth (length k mod length r) r e) end) (fun l => l + 1)%N.
Example C18_toy : locates_members toyHash.
Proof.
  intros eps part replica load ring key H. cbn in H. destruct (load <? 2)%N; [discriminate|]. destruct eps as [|e r]; [discriminate|].
  injection H as <-. cbn [toyHash h_locate]. eexists. split; [reflexivity|]. apply nth_In. apply Nat.mod_upper_bound. discriminate.
Qed.
Example C18_example :
  let s := ch_after toyHash 271 1%N 0 [[5; 6]; [7]; [1; 2; 3]]%N in
  cEps s = [1; 2; 3]%N /\ cRing s <> None /\
  chSelect toyHash (fun _ _ => true) 0 0 s (s2b "abcd") = PEp 0 2%N /\
  chSelect toyHash (fun _ e => negb (N.eqb e 2)) 1 0 s (s2b "abcd") = PEp 0 1%N.
Proof. vm_compute. repeat split; discriminate. Qed.
(* two findings: a single endpoint is returned without asking whether it is available; a key before any ring is built
   crashes *)
Theorem C18_single_unavailable_refuted : ~ (forall (H : hashlib N (list N) N) part load replica history av r1 r2 key, locates_members H ->
  let s := ch_after H part load replica history in cEps s <> [] -> ch_pick_ok av (cEps s) (chSelect H av r1 r2 s key)).
Proof.
  intro H. pose proof (H toyHash 271 1%N 0 [[7%N]] (fun _ _ => false) 0%N 0%N (s2b "k") C18_toy) as H1. cbv zeta in H1.
  assert (Hne : cEps (ch_after toyHash 271 1%N 0 [[7%N]]) <> []) by (vm_compute; discriminate).
  destruct (H1 Hne) as (_ & t & Ht). discriminate.
Qed.
Print Assumptions C18_single_unavailable_refuted.
Theorem C18_no_ring_panics_refuted : ~ (forall (H : hashlib N (list N) N) part load replica history av r1 r2 key, locates_members H ->
  chSelect H av r1 r2 (ch_after H part load replica history) key <> PPanic).
Proof.
  intro H. apply (H toyHash 271 1%N 0 [[]] (fun _ _ => true) 0%N 0%N (s2b "k") C18_toy). vm_compute. reflexivity.
Qed.
Print Assumptions C18_no_ring_panics_refuted.

(* ------------------------------------------------------------ C50 *)

Theorem C50_shuffle : forall A (draws : nat -> N * N) (l : list A), Permutation (shuffle draws l) l.
Proof. intros. apply shuffle_perm. Qed.
Print Assumptions C50_shuffle.
Example C50_example : shuffle (fun i => (N.of_nat i, 7)%N) [1; 2; 3; 4; 5]%N = [3; 1; 5; 2; 4]%N.
Proof. vm_compute. reflexivity. Qed.

(* ------------------------------------------------------------ C55 *)

(* weighted round robin under any availability, after any number of selections: an endpoint of the list seen available,
   or nil, and nil only if every endpoint (for the window selector: every endpoint but one) was seen unavailable *)
Theorem C55_wrr_sound : forall E draws cur (hs : list (E * N)) sel, hs <> [] -> (forall e w, In (e, w) hs -> (0 < w)%N) ->
  notifyWeightChange draws cur hs = Some sel ->
  forall n os j p, nth_error (wrr_run os sel n) j = Some p -> sel_pick_ok (is_window sel) (map fst hs) (os j) p.
Proof. intros E draws cur hs sel Hne Hpos Hn n os j p. apply wrr_run_ok. eapply notify_wf; eassumption. Qed.
Print Assumptions C55_wrr_sound.
(* the exception is real: the window selector returns nil although one endpoint is available all the time *)
Definition C55_only0 : answers N := mkAns (fun _ e => N.eqb e 10) (N.eqb 10) (fun _ e => N.eqb e 10) 10.
Theorem C55_window_nil_refuted : ~ (forall draws cur (hs : list (N * N)) sel, hs <> [] -> (forall e w, In (e, w) hs -> (0 < w)%N) ->
  notifyWeightChange draws cur hs = Some sel ->
  forall n os j, nth_error (wrr_run os sel n) j = Some PNil -> forall e, In e (map fst hs) -> saw (os j) false e).
Proof.
  intro H.
  specialize (H (fun _ => (0, 0)%N) None C16_heavy).
  destruct (notifyWeightChange (fun _ => (0, 0)%N) None C16_heavy) as [sel|] eqn:Es; [|vm_compute in Es; discriminate].
  specialize (H sel ltac:(discriminate)).
  assert (Hpos : forall e w, In (e, w) C16_heavy -> (0 < w)%N).
  { intros e w Hin. unfold C16_heavy in Hin. apply in_map_iff in Hin as (i & E & _). assert (w = (490 + N.of_nat i)%N) by congruence. lia. }
  specialize (H Hpos eq_refl 2 (fun j => match j with O => up_answers (fun _ => 0%N) 0 | _ => C55_only0 end) 1).
  assert (HN : nth_error (wrr_run (fun j => match j with O => up_answers (fun _ => 0%N) 0 | _ => C55_only0 end) sel 2) 1 = Some PNil).
  { vm_compute in Es. injection Es as <-. vm_compute. reflexivity. }
  assert (Hin : In 10%N (map fst C16_heavy)) by (vm_compute; do 10 right; left; reflexivity).
  specialize (H HN 10%N Hin). clear - H. destruct H as [(t & Ht)|[Ht|(t & Ht)]]; discriminate Ht.
Qed.
Print Assumptions C55_window_nil_refuted.
Example C55_example : exists sel, notifyWeightChange (fun _ => (0, 0)%N) None [(10, 1); (20, 2)]%N = Some sel
  /\ wrr_run (fun _ => mkAns (fun _ e => N.eqb e 10) (N.eqb 10) (fun _ e => N.eqb e 10) 0) sel 3 = [PEp 0 10; PEp 0 10; PEp 0 10]%N.
Proof. eexists. split; [vm_compute; reflexivity|]. vm_compute. reflexivity. Qed.

(* ------------------------------------------------------------ C56 *)

(* after any history of refreshes and metadata reads every weight used by the balancer is between 1 and 500 *)
Theorem C56_weights_bounded : forall E same static (ops : list (weight_op E)) h,
  In h (weights_after same static ops) -> (1 <= getWeight h <= 500)%Z.
Proof. intros E same static ops h. apply weights_bounded. Qed.
Print Assumptions C56_weights_bounded.
(* a new endpoint without dynamic metadata gets the number in its static metadata, clamped *)
Theorem C56_configured_weight : forall E same static (dyn : E -> bs) eps e w, In e eps ->
  In e (map hEp (refreshHolders same static (fun x => dynamicWeight (dyn x)) [] eps)) /\
  (parseInt64 (static e) = (w, NumOk) -> static e <> [] -> dyn e = [] ->
   forall h, In h (refreshHolders same static (fun x => dynamicWeight (dyn x)) [] eps) -> hEp h = e -> getWeight h = Z.max 1 (Z.min 500 w)).
Proof. intros E same static dyn eps e w. apply weight_fresh. Qed.
Print Assumptions C56_configured_weight.
Example C56_example : map (@getWeight N) (weights_after N.eqb (fun e => if N.eqb e 1 then s2b "70" else if N.eqb e 2 then s2b "9999" else s2b "-5")
  [OpRefresh [1; 2; 3]%N (fun _ => []); OpDynamic 1 (s2b "33"); OpRefresh [2; 3; 4]%N (fun _ => s2b "0")]) = [33; 1; 1]%Z.
Proof. vm_compute. reflexivity. Qed.
