(* FailfastProps.v: C26, the fail-fast filter. *)
From Verif Require Import Base Lists FailfastModel FailfastSpec FailfastProofs.
Local Open Scope Z_scope.

(* ---- calls one after another, for any number of addresses; [h] is the history, newest first *)
(* an address is reported available exactly when fewer than ten responses in a row have failed, or ten seconds have passed since the
   last response or the last test request let through *)
Theorem C26_answer h addr now : well_formed h -> registered addr h ->
  exists x b, marked addr h = Some x /\ snd (ffStep (ffRun [] (rev h)) (FAsk addr now)) = Some b /\
    (b = true <-> (streak addr h < 10)%nat \/ x + 10 * 1000 * 1000 * 1000 < now).
Proof. exact (ask_answer h addr now). Qed.
Print Assumptions C26_answer.
Definition fails (n : nat) : list ffop := repeat (FResult (s2b "a:1") false 7) n.
Example C26_answer_example :
  let h := fails 10 ++ [FResult (s2b "b:1") true 3; FNew (s2b "b:1") 2; FNew (s2b "a:1") 1] in
  well_formed h /\ registered (s2b "a:1") h /\ streak (s2b "a:1") h = 10%nat /\ marked (s2b "a:1") h = Some 7 /\
  snd (ffStep (ffRun [] (rev h)) (FAsk (s2b "a:1") 10000000007)) = Some false /\ snd (ffStep (ffRun [] (rev h)) (FAsk (s2b "a:1") 10000000008)) = Some true /\
  snd (ffStep (ffRun [] (rev h)) (FAsk (s2b "b:1") 9)) = Some true.
Proof.
  cbv zeta. split; [|split; [exists 1; repeat (try (left; reflexivity); right)|]; repeat split].
  cbn. unfold registered. repeat split; eexists; repeat (try (left; reflexivity); right).
Qed.
(* "available ten seconds after the last response" is false: being asked uses the test up, even if no request follows *)
Theorem C26_probe_lost_refuted : exists h addr last now, well_formed h /\ registered addr h /\
  (forall ok t, In (FResult addr ok t) h -> t <= last) /\ last + 10 * 1000 * 1000 * 1000 < now /\
  snd (ffStep (ffRun [] (rev h)) (FAsk addr now)) = Some false.
Proof.
  exists (FAsk (s2b "a:1") 10000000008 :: fails 10 ++ [FNew (s2b "a:1") 1]), (s2b "a:1"), 7, 10000000009.
  split; [cbn; unfold registered; repeat split; eexists; repeat (try (left; reflexivity); right)|].
  split; [exists 1; repeat (try (left; reflexivity); right)|].
  split; [|split; [reflexivity|reflexivity]]. intros ok t H. destruct H as [H|H]; [discriminate H|]. apply in_app_or in H. destruct H as [H|[H|[]]]; [|discriminate H].
  unfold fails in H. apply repeat_spec in H. injection H as _ ->. apply Z.le_refl.
Qed.
Print Assumptions C26_probe_lost_refuted.

(* ---- calls interleaved in any way, with a clock that never runs back *)
(* two test requests let through are always more than ten seconds apart *)
Theorem C26_one_probe t0 os l1 a l2 b l3 : calls_only os -> clocked t0 os ->
  fsLog (ffMoves (ffInit t0) os) = l1 ++ EvProbe a :: l2 ++ EvProbe b :: l3 -> a + 10 * 1000 * 1000 * 1000 < b.
Proof. intros C K E. exact (probes_spaced t0 os C K l1 a l2 b l3 E). Qed.
Print Assumptions C26_one_probe.
(* with fewer than ten failed responses the endpoint is never unavailable *)
Theorem C26_never_early t0 os : calls_only os -> (countb failing os < 10)%nat -> epAvail (fsEps (ffMoves (ffInit t0) os)) = true.
Proof. exact (few_failures t0 os). Qed.
Print Assumptions C26_never_early.
(* when ten failed responses have been handled and none was good, it is unavailable (up to 2^32 - 2 failures) *)
Theorem C26_opens t0 os : calls_only os -> countb succeeding os = 0%nat -> (N.of_nat (countb failing os) + 1 < 2 ^ 32)%N ->
  (10 <= countb finished (fsCalls (ffMoves (ffInit t0) os)))%nat -> epAvail (fsEps (ffMoves (ffInit t0) os)) = false.
Proof. exact (opens t0 os). Qed.
Print Assumptions C26_opens.
Definition whole_call (t : Z) (p : ffpc) (i n : nat) : list (Z * ffsched) := (t, SCall p) :: repeat (t, SStep i) n.
Definition ten_failures : list (Z * ffsched) := flat_map (fun i => whole_call 5 (PRes false) i 3) (seq 0 10).
Definition two_asks : list (Z * ffsched) :=
  [(20000000000, SCall PAsk); (20000000000, SCall PAsk)] ++ repeat (20000000001, SStep 10) 3 ++ repeat (20000000001, SStep 11) 3 ++
  [(20000000002, SStep 11); (20000000003, SStep 10)] ++ whole_call 40000000000 PAsk 12 4.
Example C26_interleaving_example :
  calls_only (ten_failures ++ two_asks) /\ clocked 1 (ten_failures ++ two_asks) /\ countb failing ten_failures = 10%nat /\ countb succeeding ten_failures = 0%nat /\
  countb finished (fsCalls (ffMoves (ffInit 1) ten_failures)) = 10%nat /\
  skipn 10 (fsLog (ffMoves (ffInit 1) (ten_failures ++ two_asks))) = [EvProbe 20000000002; EvProbe 40000000000] /\
  nth_error (fsCalls (ffMoves (ffInit 1) (ten_failures ++ two_asks))) 10 = Some (PAns false).
Proof.
  split; [|split; [cbn; repeat split; discriminate|repeat split; vm_compute; reflexivity]].
  intros t p H. cbn in H. repeat (destruct H as [H|H]; [first [discriminate H|injection H as _ <-; first [left; reflexivity|right; exists false; reflexivity]]|]). contradiction.
Qed.
(* "once every call is over and the count of failures is back to zero, the endpoint is available" is false: the tenth failure can switch
   it off after a good response has already reset the count and found the endpoint still available *)
Definition late_switch : list (Z * ffsched) :=
  flat_map (fun i => whole_call 5 (PRes false) i 3) (seq 0 9) ++ [(5, SCall (PRes false)); (5, SStep 9)] ++ whole_call 6 (PRes true) 10 3 ++ [(7, SStep 9); (7, SStep 9)].
Theorem C26_interleaved_success_refuted : exists t0 os, calls_only os /\ clocked t0 os /\
  (forall p, In p (fsCalls (ffMoves (ffInit t0) os)) -> p = PDone) /\ countb succeeding os = 1%nat /\
  epErr (fsEps (ffMoves (ffInit t0) os)) = 0%N /\ epAvail (fsEps (ffMoves (ffInit t0) os)) = false.
Proof.
  exists 1, late_switch. split; [|split; [cbn; repeat split; discriminate|]].
  - intros t p H. cbn in H. repeat (destruct H as [H|H]; [first [discriminate H|injection H as _ <-; first [right; exists true; reflexivity|right; exists false; reflexivity]]|]). contradiction.
  - split; [|repeat split; vm_compute; reflexivity]. intros p H.
    replace (fsCalls (ffMoves (ffInit 1) late_switch)) with (repeat PDone 11) in H by (vm_compute; reflexivity). exact (repeat_spec _ _ _ H).
Qed.
Print Assumptions C26_interleaved_success_refuted.
(* in any interleaving: once a good response has been handled, and no failed one was worked on since it came, the endpoint is available *)
Theorem C26_good_response t0 os t os2 : let s := ffMoves (ffInit t0) os in let i := length (fsCalls s) in
  let s1 := ffMove s (t, SCall (PRes true)) in
  calls_only os2 -> no_failure s1 os2 -> nth_error (fsCalls (ffMoves s1 os2)) i = Some PDone -> epAvail (fsEps (ffMoves s1 os2)) = true.
Proof. exact (good_response t0 os t os2). Qed.
Print Assumptions C26_good_response.
Example C26_good_response_example : let s := ffMoves (ffInit 1) ten_failures in let s1 := ffMove s (6, SCall (PRes true)) in
  let os2 := [(7, SCall PAsk); (8, SStep 10); (8, SStep 11); (9, SStep 10); (9, SStep 10); (9, SStep 10); (9, SStep 11)] in
  epAvail (fsEps s) = false /\ calls_only os2 /\ no_failure s1 os2 /\ nth_error (fsCalls (ffMoves s1 os2)) (length (fsCalls s)) = Some PDone.
Proof.
  assert (L : length (fsCalls (ffMoves (ffInit 1) ten_failures)) = 10%nat) by (vm_compute; reflexivity).
  cbn zeta. split; [vm_compute; reflexivity|]. split; [|split; [split|vm_compute; reflexivity]].
  - intros t p H. cbn in H. repeat (destruct H as [H|H]; [first [discriminate H|injection H as _ <-; left; reflexivity]|]). contradiction.
  - intros t H. cbn in H. repeat (destruct H as [H|H]; [discriminate H|]). contradiction.
  - intros t j p H Hp. assert (J : j = 10%nat \/ j = 11%nat) by (cbn in H; repeat (destruct H as [H|H]; [first [discriminate H|injection H as _ <-; auto]|]); contradiction).
    destruct J as [->| ->]; vm_compute in Hp; [injection Hp as <-; intros [X|[c X]]; discriminate X|discriminate Hp].
Qed.
