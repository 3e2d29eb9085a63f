(* DcoProofs.v *)
From Verif Require Import Base Strconv UrlModel EpModel LbModel LbSpec LbProofs DthModel DthSpec DthProofs DcoModel DcoSpec.
Ltac Zify.zify_post_hook ::= idtac.
Open Scope nat_scope.

Definition busyAt (i : nat) (l : list nat) : nat := length (filter (fun j => Nat.eqb j i) l).
Lemma busy_le i l : busyAt i l <= length l.
Proof. unfold busyAt. induction l as [|a l IH]; cbn [filter length]; [lia|]. destruct (Nat.eqb a i); cbn [length]; lia. Qed.
Lemma drop_busy i : forall l k j, nth_error l k = Some j -> length (dropNth l k) = length l - 1 /\
  busyAt i l = (if Nat.eqb j i then 1 else 0) + busyAt i (dropNth l k).
Proof.
  unfold dropNth, busyAt. induction l as [|a l IH]; intros [|k] j H; cbn [nth_error] in H; try discriminate H.
  - injection H as ->. cbn. destruct (Nat.eqb j i); cbn [length]; lia.
  - destruct (IH k j H) as [I1 I2]. assert (length l <> 0) by (destruct l; [destruct k; discriminate H|discriminate]).
    change (firstn (S k) (a :: l) ++ skipn (S (S k)) (a :: l)) with (a :: (firstn k l ++ skipn (S k) l)). cbn [length filter]. rewrite I1.
    destruct (Nat.eqb a i); cbn [length]; lia.
Qed.

(* selections endpoint [i] can still get before it goes down *)
Definition left_at (W : nat) (thr : Z) (e : epc) (busy : nat) : nat := if ecUp e then cost thr - N.to_nat (ecCount e) - 1 + (W - busy) else 0.

Lemma failed_left W thr e b : (0 < thr)%Z -> inv thr e -> 1 <= b <= W ->
  inv thr (afterAttempt thr false e) /\ left_at W thr (afterAttempt thr false e) (b - 1) <= left_at W thr e b.
Proof.
  intros H I B. destruct (ecUp e) eqn:U.
  - destruct (failed thr e H U I) as [I' C]. split; [exact I'|]. specialize (I U).
    unfold left_at, budget in *. rewrite U in *. destruct (ecUp (afterAttempt thr false e)) eqn:V; [|lia].
    specialize (I' V). lia.
  - assert (V : ecUp (afterAttempt thr false e) = false).
    { unfold afterAttempt. destruct (0 <? thr)%Z; [|exact U]. cbn [ecUp]. destruct (_ <=? _)%N; [reflexivity|exact U]. }
    unfold inv, left_at. rewrite U, V. split; [intro X; discriminate X|lia].
Qed.

Lemma oSelect_sound lb r1 r2 index eps : sound_pick (fun _ => ecUp) eps (snd (oSelect lb r1 r2 index eps)).
Proof. destruct lb; [apply rr_sound|apply random_sound]. Qed.

Lemma step_bound lb W thr i s e es : (0 < thr i)%Z -> ends_badly i [e] -> length (oBusy s) <= W -> nth_error (oEps s) i = Some es -> inv (thr i) es ->
  exists es', let s' := fst (oStep lb W thr s e) in
    length (oBusy s') <= W /\ nth_error (oEps s') i = Some es' /\ inv (thr i) es' /\
    (match snd (oStep lb W thr s e) with Some (Some j) => if Nat.eqb j i then 1 else 0 | _ => 0 end) + left_at W (thr i) es' (busyAt i (oBusy s'))
      <= left_at W (thr i) es (busyAt i (oBusy s)) + (cost (thr i) + W - 1) * heartbeats i [e].
Proof.
  intros H A L E I. pose proof (busy_le i (oBusy s)) as BL. destruct e as [r1 r2|k good|j]; cbn [oStep].
  - change (heartbeats i [Start r1 r2]) with 0. rewrite Nat.mul_0_r, Nat.add_0_r. destruct (Nat.ltb_spec (length (oBusy s)) W) as [X|X]; [|exists es; cbn [fst snd]; split; [assumption|]; split; [assumption|]; split; [assumption|]; apply Nat.le_refl].
    pose proof (oSelect_sound lb r1 r2 (oIndex s) (oEps s)) as S. destruct (oSelect _ _ _ _ _) as [next p]. cbn [snd] in S.
    destruct p as [k ek| |]; cbn [sound_pick fst snd oBusy oEps] in *; [|exists es; split; [assumption|]; split; [assumption|]; split; [assumption|]; apply Nat.le_refl|destruct S].
    destruct S as (S1 & t & S2). exists es. split; [cbn [length]; lia|]. split; [exact E|]. split; [exact I|].
    unfold busyAt at 1. cbn [filter]. destruct (Nat.eqb_spec k i) as [->|N]; cbn [length]; fold (busyAt i (oBusy s)); [|lia].
    assert (ek = es) as -> by congruence. unfold left_at. rewrite S2. lia.
  - change (heartbeats i [Finish k good]) with 0. rewrite Nat.mul_0_r, Nat.add_0_r. destruct (nth_error (oBusy s) k) as [j|] eqn:Ek; [|exists es; cbn [fst snd]; split; [assumption|]; split; [assumption|]; split; [assumption|]; apply Nat.le_refl].
    destruct (nth_error (oEps s) j) as [x|] eqn:Ej; [|exists es; cbn [fst snd]; split; [assumption|]; split; [assumption|]; split; [assumption|]; apply Nat.le_refl].
    cbn [fst snd oBusy oEps]. destruct (drop_busy i _ _ _ Ek) as [D1 D2]. rewrite set_at, Ej. rewrite (Nat.eqb_sym i j). destruct (Nat.eqb_spec j i) as [->|N].
    + assert (x = es) as -> by congruence. rewrite (A k good (or_introl eq_refl)).
      destruct (failed_left W (thr i) es (busyAt i (oBusy s)) H I ltac:(lia)) as [F1 F2]. exists (afterAttempt (thr i) false es).
      split; [lia|]. split; [reflexivity|]. split; [exact F1|]. replace (busyAt i (dropNth (oBusy s) k)) with (busyAt i (oBusy s) - 1) by lia. lia.
    + exists es. split; [lia|]. split; [exact E|]. split; [exact I|]. replace (busyAt i (dropNth (oBusy s) k)) with (busyAt i (oBusy s)) by lia. lia.
  - cbn [fst snd oBusy oEps]. pose proof (beat_at j (oEps s) i) as B. rewrite E in B. eexists. split; [exact L|]. split; [exact B|].
    unfold heartbeats. cbn [filter]. rewrite (Nat.eqb_sym i j). destruct (Nat.eqb_spec j i) as [->|N]; cbn [andb length]; [|split; [exact I|lia]].
    destruct (ecUp es) eqn:U; cbn [negb]; [split; [exact I|lia]|]. split; [apply fresh_inv|].
    unfold left_at. rewrite U. cbn [ecUp ecCount]. unfold cost. lia.
Qed.

Lemma began_bound lb W thr i : (0 < thr i)%Z -> forall evs s es, ends_badly i evs -> length (oBusy s) <= W -> nth_error (oEps s) i = Some es -> inv (thr i) es ->
  began_at i (oRun lb W thr evs s) <= left_at W (thr i) es (busyAt i (oBusy s)) + (cost (thr i) + W - 1) * heartbeats i evs.
Proof.
  intro H. induction evs as [|e evs IH]; intros s es A L E I; [apply Nat.le_0_l|].
  assert (A1 : ends_badly i [e]) by (intros k g [->|[]]; apply (A k g); left; reflexivity).
  assert (A2 : ends_badly i evs) by (intros k g G; apply (A k g); right; exact G).
  destruct (step_bound lb W thr i s e es H A1 L E I) as (es' & L' & E' & I' & B). cbn [oRun]. destruct (oStep lb W thr s e) as [s' o]. cbn [fst snd] in *.
  specialize (IH s' es' A2 L' E' I').
  assert (Hh : heartbeats i (e :: evs) = heartbeats i [e] + heartbeats i evs).
  { unfold heartbeats. cbn [filter]. destruct (match e with OBeatOk _ => _ | _ => _ end); reflexivity. }
  rewrite Hh, Nat.mul_add_distr_l. revert B IH. generalize ((cost (thr i) + W - 1) * heartbeats i [e]), ((cost (thr i) + W - 1) * heartbeats i evs). intros x y B IH.
  destruct o as [[j|]|]; [|change (began_at i (None :: oRun lb W thr evs s')) with (began_at i (oRun lb W thr evs s')); lia|lia].
  unfold began_at in *. cbn [filter]. destruct (Nat.eqb j i); cbn [length]; lia.
Qed.

Lemma began_le lb W thr n i evs counter : 0 < W -> i < n -> (0 < thr i)%Z -> ends_badly i evs ->
  began_at i (oRun lb W thr evs (idle_cluster n counter)) <= (Z.to_nat (thr i) + (W - 1)) * S (heartbeats i evs).
Proof.
  intros HW L H A. pose proof (began_bound lb W thr i H evs (idle_cluster n counter) (mkEpc 0 true) A) as B.
  specialize (B ltac:(cbn; lia) (fresh_at n i L) (fresh_inv _)). pose proof (cost_le _ H) as C. change (busyAt i (oBusy (idle_cluster n counter))) with 0 in B.
  assert (D : left_at W (thr i) (mkEpc 0 true) 0 <= cost (thr i) + W - 1).
  { unfold left_at. cbn [ecUp ecCount]. change (N.to_nat 0) with 0. unfold cost. lia. }
  assert (Q : (cost (thr i) + W - 1) * heartbeats i evs <= (Z.to_nat (thr i) + (W - 1)) * heartbeats i evs) by (apply Nat.mul_le_mono_r; lia). lia.
Qed.

(* with an endpoint that always answers there is always one to select *)
Lemma selects lb W thr g : forall evs s, fine g (oEps s) -> ends_well g evs -> ~ In None (oRun lb W thr evs s).
Proof.
  induction evs as [|e evs IH]; intros s F G; [intros []|].
  assert (G' : ends_well g evs) by (intros k h Hh; apply (G k h); right; exact Hh).
  cbn [oRun]. destruct e as [r1 r2|k good|j]; cbn [oStep].
  - destruct (_ <? W); [|apply IH; assumption].
    pose proof (oSelect_sound lb r1 r2 (oIndex s) (oEps s)) as S. destruct (oSelect _ _ _ _ _) as [next p]. cbn [snd] in S.
    destruct p as [k ek| |]; cbn [sound_pick] in S; [|exfalso|destruct S].
    + intros [X|X]; [discriminate X|]. revert X. apply IH; assumption.
    + destruct F as (x & E & U). destruct (S x (nth_error_In _ _ E)) as (t & Ht). congruence.
  - destruct (nth_error (oBusy s) k) as [j|]; [|apply IH; assumption]. destruct (nth_error (oEps s) j) as [x|] eqn:Ej; [|apply IH; assumption].
    apply IH; [|exact G']. cbn [oEps]. destruct F as (y & E & U). unfold fine. rewrite set_at. destruct (Nat.eqb_spec g j) as [->|N]; [|exists y; auto].
    rewrite Ej. exists (afterAttempt (thr j) (good j) x). split; [reflexivity|]. rewrite (G k good (or_introl eq_refl)). cbn. congruence.
  - apply IH; [apply fine_beat, F|exact G'].
Qed.

Lemma wasted_split ds : forall tr, ~ In None tr -> wasted ds tr <= fold_right (fun i s => began_at i tr + s) 0 ds.
Proof.
  induction tr as [|o tr IH]; intro Hn; [cbn; lia|]. specialize (IH (fun X => Hn (or_intror X))).
  destruct o as [j|]; [|exfalso; apply Hn; left; reflexivity]. unfold wasted in *. cbn [filter].
  assert (M : forall l, (if existsb (Nat.eqb j) l then 1 else 0) + fold_right (fun i s => began_at i tr + s) 0 l <= fold_right (fun i s => began_at i (Some j :: tr) + s) 0 l).
  { induction l as [|d l IHl]; cbn [fold_right existsb]; [lia|]. unfold began_at at 1 3. cbn [filter].
    destruct (Nat.eqb j d); cbn [orb length]; [|lia]. destruct (existsb (Nat.eqb j) l); lia. }
  specialize (M ds). destruct (existsb (Nat.eqb j) ds); cbn [length]; lia.
Qed.

Lemma wasted_le lb W thr n g ds evs counter : 0 < W -> g < n -> ends_well g evs -> (forall i, In i ds -> i < n /\ (0 < thr i)%Z /\ dead_server i evs) ->
  wasted ds (oRun lb W thr evs (idle_cluster n counter)) <= sum_with W thr ds.
Proof.
  intros HW Lg G D. etransitivity; [apply wasted_split, (selects lb W thr g); [|exact G]|].
  - exists (mkEpc 0 true). split; [apply fresh_at, Lg|reflexivity].
  - induction ds as [|d ds IH]; [reflexivity|]. cbn [fold_right sum_with].
    destruct (D d (or_introl eq_refl)) as (L & P & A & B). pose proof (began_le lb W thr n d evs counter HW L P A) as T. rewrite B in T.
    assert (IH' := IH (fun i Hi => D i (or_intror Hi))). unfold sum_with in IH'. lia.
Qed.

Lemma starts lb W thr : forall k index busy, length busy + k <= W -> began_at 0 (oRun lb W thr (repeat (Start 0 0) k) (mkOst index [mkEpc 0 true] busy)) = k.
Proof.
  induction k as [|k IH]; intros index busy H; [reflexivity|]. cbn [repeat oRun oStep oBusy oIndex oEps].
  destruct (Nat.ltb_spec (length busy) W) as [_|X]; [|lia]. assert (Q : exists nx, oSelect lb 0 0 index [mkEpc 0 true] = (nx, PEp 0 (mkEpc 0 true))).
  { destruct lb; cbn [oSelect]; [|exists index; reflexivity]. unfold roundrobinSelect. cbn [length]. change (N.of_nat 1) with 1%N. rewrite N.mod_1_r. eexists. reflexivity. }
  destruct Q as (nx & ->). unfold began_at. cbn [filter Nat.eqb length]. f_equal. apply IH. cbn [length]. lia.
Qed.
