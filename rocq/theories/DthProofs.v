(* DthProofs.v *)
From Verif Require Import Base Strconv UrlModel EpModel LbModel LbSpec LbProofs DthModel DthSpec.
Ltac Zify.zify_post_hook ::= idtac.
Open Scope nat_scope.

Lemma set_at {A} (l : list A) : forall i x j, nth_error (list_set l i x) j = if Nat.eqb j i then (match nth_error l i with Some _ => Some x | None => None end) else nth_error l j.
Proof.
  induction l as [|a l IH]; intros [|i] x [|j]; cbn; try reflexivity.
  - destruct (Nat.eqb j i); reflexivity.
  - apply IH.
Qed.

(* errors an endpoint takes before it goes down *)
Definition cost (thr : Z) : nat := Nat.max 1 (N.to_nat (thr32 thr)).
Definition budget (thr : Z) (e : epc) : nat := if ecUp e then cost thr - N.to_nat (ecCount e) else 0.
Definition inv (thr : Z) (e : epc) : Prop := ecUp e = true -> N.to_nat (ecCount e) < cost thr.

Lemma thr32_lt thr : (thr32 thr < 4294967296)%N.
Proof. unfold thr32. pose proof (Z.mod_pos_bound thr 4294967296 ltac:(lia)). lia. Qed.
Lemma cost_le thr : (0 < thr)%Z -> cost thr <= Z.to_nat thr.
Proof.
  intro H. unfold cost, thr32. pose proof (Z.mod_le thr 4294967296 ltac:(lia) ltac:(lia)). pose proof (Z.mod_pos_bound thr 4294967296 ltac:(lia)). lia.
Qed.
Lemma failed thr e : (0 < thr)%Z -> ecUp e = true -> inv thr e ->
  inv thr (afterAttempt thr false e) /\ S (budget thr (afterAttempt thr false e)) <= budget thr e.
Proof.
  intros H U I. specialize (I U). unfold afterAttempt. cbn [fst]. rewrite (proj2 (Z.ltb_lt 0 thr) H). cbv zeta.
  pose proof (thr32_lt thr) as L. assert (W : w32 (ecCount e + 1) = (ecCount e + 1)%N).
  { unfold w32. apply N.mod_small. unfold cost in I. lia. }
  rewrite W. unfold inv, budget. cbn [ecUp ecCount]. rewrite U. destruct (N.leb_spec (thr32 thr) (ecCount e + 1)) as [X|X].
  - split; [intro B; discriminate B|]. lia.
  - split; [intros _|]; unfold cost in *; lia.
Qed.

Lemma fresh_inv thr : inv thr (mkEpc 0 true).
Proof. intros _. unfold cost. cbn [ecCount]. change (N.to_nat 0) with 0. lia. Qed.
Lemma attempt_cases thr r1 r2 good index eps :
  exists next, (exists i e, nth_error eps i = Some e /\ ecUp e = true /\
      clusterAttempt thr r1 r2 good index eps = (next, list_set eps i (afterAttempt (thr i) (good i) e), (Some i, good i))) \/
    ((forall e, In e eps -> ecUp e = false) /\ clusterAttempt thr r1 r2 good index eps = (next, eps, (None, false))).
Proof.
  unfold clusterAttempt. pose proof (rr_sound (fun _ => ecUp) r1 r2 index eps) as S. destruct (roundrobinSelect _ _ _ _ _) as [next p]. cbn [snd] in S.
  exists next. destruct p as [i e| |]; cbn [sound_pick] in S.
  - left. destruct S as (S1 & t & S2). exists i, e. auto.
  - right. split; [|reflexivity]. intros e He. destruct (S e He) as (t & Ht). exact Ht.
  - destruct S.
Qed.

Lemma beat_at j eps i : nth_error (beat j eps) i =
  match nth_error eps i with Some e => Some (if Nat.eqb i j && negb (ecUp e) then mkEpc 0 true else e) | None => None end.
Proof.
  unfold beat. destruct (nth_error eps j) as [e|] eqn:E.
  - destruct (ecUp e) eqn:U.
    + destruct (Nat.eqb_spec i j) as [->|N]; [rewrite E, U; reflexivity|]. destruct (nth_error eps i); reflexivity.
    + rewrite set_at, E. destruct (Nat.eqb_spec i j) as [->|N]; [rewrite E, U; reflexivity|]. destruct (nth_error eps i); reflexivity.
  - destruct (Nat.eqb_spec i j) as [->|N]; [rewrite E; reflexivity|]. destruct (nth_error eps i); reflexivity.
Qed.

Lemma tries_bound thr i : (0 < thr i)%Z -> forall evs index eps e, always_fails i evs -> nth_error eps i = Some e -> inv (thr i) e ->
  tries_at i (clusterRun thr evs index eps) <= budget (thr i) e + cost (thr i) * beats_of i evs.
Proof.
  intro H. induction evs as [|[r1 r2 good|j] evs IH]; intros index eps e A E I.
  - cbn. lia.
  - assert (A' : always_fails i evs) by (intros a b g G; apply (A a b g); right; exact G).
    cbn [clusterRun]. destruct (attempt_cases thr r1 r2 good index eps) as (next & [(k & ek & Ek & Uk & ->)|(_ & ->)]).
    + unfold tries_at. cbn [filter fst]. change (beats_of i (Attempt r1 r2 good :: evs)) with (beats_of i evs).
      destruct (Nat.eqb_spec k i) as [->|N].
      * assert (ek = e) as -> by congruence. rewrite (A r1 r2 good (or_introl eq_refl)).
        destruct (failed (thr i) e H Uk I) as [I' B]. cbn [length].
        specialize (IH next (list_set eps i (afterAttempt (thr i) false e)) (afterAttempt (thr i) false e) A').
        rewrite set_at, Nat.eqb_refl, E in IH. specialize (IH eq_refl I'). unfold tries_at in IH. lia.
      * specialize (IH next (list_set eps k (afterAttempt (thr k) (good k) ek)) e A'). rewrite set_at in IH.
        destruct (Nat.eqb_spec i k) as [->|_]; [congruence|]. specialize (IH E I). unfold tries_at in IH. exact IH.
    + unfold tries_at. cbn [filter fst]. exact (IH next eps e A' E I).
  - assert (A' : always_fails i evs) by (intros a b g G; apply (A a b g); right; exact G).
    cbn [clusterRun]. pose proof (beat_at j eps i) as B. rewrite E in B. specialize (IH index _ _ A' B).
    unfold beats_of in *. cbn [filter]. rewrite (Nat.eqb_sym i j) in *. destruct (Nat.eqb_spec j i) as [->|N]; cbn [andb] in IH.
    + cbn [length]. destruct (ecUp e) eqn:U; cbn [negb] in IH.
      * specialize (IH I). lia.
      * assert (J : inv (thr i) (mkEpc 0 true)) by apply fresh_inv. specialize (IH J).
        unfold budget in *. rewrite U. cbn [ecUp ecCount] in IH. lia.
    + exact (IH I).
Qed.

Lemma fresh_at n i : i < n -> nth_error (all_fresh n) i = Some (mkEpc 0 true).
Proof. unfold all_fresh. revert i. induction n as [|n IH]; intros [|i] H; cbn; [lia|lia|reflexivity|apply IH; lia]. Qed.
Lemma tries_le thr n i evs index : i < n -> (0 < thr i)%Z -> always_fails i evs ->
  tries_at i (clusterRun thr evs index (all_fresh n)) <= Z.to_nat (thr i) * S (beats_of i evs).
Proof.
  intros L H A. pose proof (tries_bound thr i H evs index _ _ A (fresh_at n i L)) as B.
  assert (J : inv (thr i) (mkEpc 0 true)) by apply fresh_inv. specialize (B J). pose proof (cost_le _ H) as C.
  assert (D : budget (thr i) (mkEpc 0 true) <= cost (thr i)) by (unfold budget; cbn [ecUp ecCount]; lia).
  assert (cost (thr i) * beats_of i evs <= Z.to_nat (thr i) * beats_of i evs) by (apply Nat.mul_le_mono_r; exact C). lia.
Qed.

(* an endpoint that always answers stays available *)
Definition fine (g : nat) (eps : list epc) : Prop := exists e, nth_error eps g = Some e /\ ecUp e = true.
Lemma fine_beat g j eps : fine g eps -> fine g (beat j eps).
Proof. intros (e & E & U). pose proof (beat_at j eps g) as B. rewrite E, U in B. rewrite andb_false_r in B. exists e. auto. Qed.

(* everything the trace says comes from an endpoint of the list *)
Lemma trace_ok thr g ds : forall evs index eps, fine g eps -> always_answers g evs ->
  (forall i, i < length eps -> always_answers i evs \/ In i ds) ->
  forall o, In o (clusterRun thr evs index eps) -> snd o = false -> exists i, In i ds /\ fst o = Some i.
Proof.
  induction evs as [|[r1 r2 good|j] evs IH]; intros index eps F G D o Ho So; cbn [clusterRun] in Ho; [destruct Ho| |].
  - destruct (attempt_cases thr r1 r2 good index eps) as (next & [(k & ek & Ek & Uk & X)|(Z & _)]).
    + rewrite X in Ho. destruct Ho as [<-|Ho].
      * cbn [snd fst] in *. assert (L : k < length eps) by (apply nth_error_Some; congruence). exists k. split; [|reflexivity].
        destruct (D k L) as [a|d]; [|exact d]. rewrite (a r1 r2 good (or_introl eq_refl)) in So. discriminate So.
      * apply (IH _ _) with (o := o) in Ho; [exact Ho| | | |exact So].
        -- destruct F as (e & E & U). unfold fine. rewrite set_at. destruct (Nat.eqb_spec g k) as [->|N]; [|exists e; auto].
           rewrite Ek. exists (afterAttempt (thr k) (good k) ek). split; [reflexivity|]. rewrite (G r1 r2 good (or_introl eq_refl)). exact Uk.
        -- intros a b h Hh. apply (G a b h). right. exact Hh.
        -- rewrite list_set_length. intros i Hi. destruct (D i Hi) as [a|d]; [left|right; exact d]. intros x y h Hh. apply (a x y h). right. exact Hh.
    + destruct F as (e & E & U). rewrite (Z e (nth_error_In _ _ E)) in U. discriminate U.
  - apply (IH _ _) with (o := o) in Ho; [exact Ho| | | |exact So].
    + apply fine_beat, F.
    + intros a b h Hh. apply (G a b h). right. exact Hh.
    + intros i Hi. assert (Hi' : i < length eps). { apply nth_error_Some. apply nth_error_Some in Hi. rewrite beat_at in Hi. destruct (nth_error eps i); congruence. }
      destruct (D i Hi') as [a|d]; [left|right; exact d]. intros x y h Hh. apply (a x y h). right. exact Hh.
Qed.

Lemma count_split tr : forall ds, (forall o, In o tr -> snd o = false -> exists i, In i ds /\ fst o = Some i) ->
  unanswered tr <= fold_right (fun i s => tries_at i tr + s) 0 ds.
Proof.
  induction tr as [|o tr IH]; intros ds H; [cbn; lia|].
  assert (H' : forall x, In x tr -> snd x = false -> exists i, In i ds /\ fst x = Some i) by (intros x Hx; apply H; right; exact Hx).
  specialize (IH ds H'). unfold unanswered in *. cbn [filter].
  assert (M : fold_right (fun i s => tries_at i tr + s) 0 ds <= fold_right (fun i s => tries_at i (o :: tr) + s) 0 ds).
  { clear. induction ds as [|d ds IH]; cbn [fold_right]; [lia|]. unfold tries_at at 1 3. cbn [filter]. destruct (match fst o with Some _ => _ | None => _ end); cbn [length]; lia. }
  destruct (snd o) eqn:So; cbn [negb]; [lia|]. cbn [length].
  destruct (H o (or_introl eq_refl) So) as (i & Hi & Fo).
  assert (Q : S (fold_right (fun i s => tries_at i tr + s) 0 ds) <= fold_right (fun i s => tries_at i (o :: tr) + s) 0 ds); [|lia].
  clear - Hi Fo. induction ds as [|d ds IH]; [destruct Hi|]. cbn [fold_right].
  assert (M : fold_right (fun i s => tries_at i tr + s) 0 ds <= fold_right (fun i s => tries_at i (o :: tr) + s) 0 ds).
  { clear. induction ds as [|d ds IH]; cbn [fold_right]; [lia|]. unfold tries_at at 1 3. cbn [filter]. destruct (match fst o with Some _ => _ | None => _ end); cbn [length]; lia. }
  destruct Hi as [->|Hi].
  - unfold tries_at at 3. cbn [filter]. rewrite Fo, Nat.eqb_refl. cbn [length]. fold (tries_at i tr). lia.
  - specialize (IH Hi). unfold tries_at at 1 3. cbn [filter]. destruct (match fst o with Some _ => _ | None => _ end); cbn [length]; lia.
Qed.

Lemma unanswered_le thr n g ds evs index : g < n -> always_answers g evs ->
  (forall i, In i ds -> i < n /\ (0 < thr i)%Z /\ dead i evs) -> (forall i, i < n -> always_answers i evs \/ In i ds) ->
  unanswered (clusterRun thr evs index (all_fresh n)) <= sum_of thr ds.
Proof.
  intros Lg G D C. assert (T := count_split (clusterRun thr evs index (all_fresh n)) ds).
  etransitivity; [apply T|].
  - apply (trace_ok thr g ds evs index (all_fresh n)); [|exact G|].
    + exists (mkEpc 0 true). split; [apply fresh_at, Lg|reflexivity].
    + unfold all_fresh. rewrite repeat_length. exact C.
  - clear T C. induction ds as [|d ds IH]; [reflexivity|]. cbn [fold_right sum_of].
    destruct (D d (or_introl eq_refl)) as (L & P & A & B). pose proof (tries_le thr n d evs index L P A) as T. rewrite B in T.
    assert (IH' := IH (fun i Hi => D i (or_intror Hi))). unfold sum_of in IH'. lia.
Qed.

(* one endpoint, available *)
Lemma single thr r1 r2 good index c : clusterAttempt thr r1 r2 good index [mkEpc c true] =
  (((index + 1) mod 2 ^ 32)%N, [afterAttempt (thr 0) (good 0) (mkEpc c true)], (Some 0, good 0)).
Proof. unfold clusterAttempt, roundrobinSelect. cbn [length]. change (N.of_nat 1) with 1%N. rewrite N.mod_1_r. reflexivity. Qed.

Fixpoint times_n {A} (n : nat) (l : list A) : list A := match n with O => [] | S k => l ++ times_n k l end.
Lemma beats_none n (l : list cev) : beats_of 0 l = 0 -> beats_of 0 (times_n n l) = 0.
Proof.
  intro H. induction n as [|n IH]; [reflexivity|]. cbn [times_n]. unfold beats_of in *. rewrite filter_app, app_length, H, IH. reflexivity.
Qed.
Lemma flap_run n : forall index, n <= unanswered (clusterRun (fun _ => 2%Z) (times_n n [Attempt 0 0 (fun _ => false); Attempt 0 0 (fun _ => true)]) index (all_fresh 1)).
Proof.
  change (all_fresh 1) with [mkEpc 0 true]. induction n as [|n IH]; intro index; [lia|]. cbn [times_n app clusterRun]. rewrite single.
  change (afterAttempt 2 false (mkEpc 0 true)) with (mkEpc 1 true). rewrite single. change (afterAttempt 2 true (mkEpc 1 true)) with (mkEpc 0 true).
  unfold unanswered. cbn [filter snd negb length]. fold (unanswered (clusterRun (fun _ => 2%Z) (times_n n [Attempt 0 0 (fun _ => false); Attempt 0 0 (fun _ => true)])
    ((((index + 1) mod 2 ^ 32) + 1) mod 2 ^ 32)%N [mkEpc 0 true])). specialize (IH ((((index + 1) mod 2 ^ 32) + 1) mod 2 ^ 32)%N). lia.
Qed.
Lemma off_run thr n : (thr 0%nat <= 0)%Z -> forall index, unanswered (clusterRun thr (times_n n [Attempt 0 0 (fun _ => false)]) index (all_fresh 1)) = n.
Proof.
  intro H. change (all_fresh 1) with [mkEpc 0 true]. induction n as [|n IH]; intro index; [reflexivity|]. cbn [times_n app clusterRun]. rewrite single.
  assert (X : afterAttempt (thr 0) false (mkEpc 0 true) = mkEpc 0 true) by (unfold afterAttempt; destruct (Z.ltb_spec 0 (thr 0)); [lia|reflexivity]). rewrite X.
  unfold unanswered. cbn [filter snd negb length]. f_equal. apply IH.
Qed.
Lemma beat_run n : forall index, unanswered (clusterRun (fun _ => 1%Z) (times_n n [Attempt 0 0 (fun _ => false); Beat 0]) index (all_fresh 1)) = n.
Proof.
  change (all_fresh 1) with [mkEpc 0 true]. induction n as [|n IH]; intro index; [reflexivity|]. cbn [times_n app clusterRun]. rewrite single.
  change (afterAttempt 1 false (mkEpc 0 true)) with (mkEpc 1 false). cbn [clusterRun]. change (beat 0 [mkEpc 1 false]) with [mkEpc 0 true].
  unfold unanswered. cbn [filter snd negb length]. f_equal. apply IH.
Qed.
Lemma in_times {A} n (l : list A) x : In x (times_n n l) -> In x l.
Proof. induction n as [|n IH]; [intros []|]. cbn [times_n]. intro H. apply in_app_or in H. destruct H; auto. Qed.
