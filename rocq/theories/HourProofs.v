(* HourProofs.v: proofs about HourModel.v. *)
From Coq Require Import Lia.
From Verif Require Import Base LogModel HourModel HourSpec.
Ltac Zify.zify_post_hook ::= idtac.
Local Open Scope Z_scope.

Definition H : Z := 3600000000000.
Lemma wall_hour_eq zone t : wall_hour zone t = hourOf (t + zone). Proof. reflexivity. Qed.
Lemma next_gt zone now : now < nextHour zone now /\ nextHour zone now <= now + H.
Proof.
  unfold nextHour, hourOf, nsHour, H. pose proof (Z.div_mod (now + zone) 3600000000000 ltac:(lia)) as D.
  pose proof (Z.mod_pos_bound (now + zone) 3600000000000 ltac:(lia)) as B. lia.
Qed.
Lemma next_hour zone now : wall_hour zone (nextHour zone now) = wall_hour zone now + 1 /\ (nextHour zone now + zone) mod 3600000000000 = 0.
Proof.
  unfold wall_hour, nextHour, hourOf, nsHour. replace ((((now + zone) / 3600000000000 + 1) * 3600000000000 - zone) + zone) with (((now + zone) / 3600000000000 + 1) * 3600000000000) by lia.
  rewrite Z.div_mul by lia. rewrite Z.mod_mul by lia. split; reflexivity.
Qed.
Lemma hour_mono zone a b : a <= b -> wall_hour zone a <= wall_hour zone b.
Proof. intro L. unfold wall_hour. apply Z.div_le_mono; lia. Qed.
Lemma first_sleep zone now : firstSleep (nextHour zone now) now = nextHour zone now - now.
Proof. unfold firstSleep. destruct (next_gt zone now) as [A _]. destruct (Z.eqb_spec (nextHour zone now - now) 0); [lia|reflexivity]. Qed.

(* the hours of the rotations grow, all of them below the hour the round aims at *)
Definition hinv (zone t0 : Z) (s : hst) : Prop :=
  hNext s = nextHour zone (hNow s) /\ increasing (map (wall_hour zone) (hRot s)) /\
  (forall q, In q (hRot s) -> wall_hour zone t0 < wall_hour zone q <= wall_hour zone (hNow s)) /\ wall_hour zone t0 <= wall_hour zone (hNow s).
Lemma inc_snoc l a : increasing l -> (forall x, In x l -> x < a) -> increasing (l ++ [a]).
Proof.
  induction l as [|x [|y l] IH]; intros I0 L; cbn [app increasing] in *.
  - exact I.
  - split; [apply L; left; reflexivity|exact I].
  - destruct I0 as [A B]. split; [exact A|]. apply IH; [exact B|]. intros z Hz. apply L. right. exact Hz.
Qed.
Lemma hinv_step zone t0 s o : hinv zone t0 s -> orderly o -> hinv zone t0 (hstep zone s o).
Proof.
  intros (N & I0 & Q & T0) O. unfold hstep. destruct (Z.ltb_spec (hNext s) (wTime o)) as [L|L].
  - unfold hinv, hround. cbn [hNow hNext hRot]. destruct O as [O1 O2].
    assert (G : wall_hour zone (hNow s) < wall_hour zone (wName o)).
    { destruct (next_hour zone (hNow s)) as [E _]. pose proof (hour_mono zone (hNext s) (wName o) ltac:(lia)) as M. rewrite N, E in M. lia. }
    pose proof (hour_mono zone _ _ O2) as M2. split; [reflexivity|]. split.
    + rewrite map_app. cbn [map]. apply inc_snoc; [exact I0|]. intros x Hx. apply in_map_iff in Hx. destruct Hx as (q & <- & Hq). pose proof (Q q Hq). lia.
    + split; [|lia]. intros q Hq. apply in_app_or in Hq. destruct Hq as [Hq|[<-|[]]]; [pose proof (Q q Hq); lia|lia].
  - unfold hinv. cbn [hNow hNext hRot]. split; [exact N|]. split; [exact I0|]. split; assumption.
Qed.
Lemma hinv_run zone t0 : forall l s, hinv zone t0 s -> Forall orderly l -> hinv zone t0 (hruns zone s l).
Proof.
  induction l as [|o l IH]; intros s I0 F; [exact I0|]. inversion F as [|? ? A B]; subst. unfold hruns. cbn [fold_left]. apply IH; [|exact B]. apply hinv_step; assumption.
Qed.
Lemma hinv_init zone t : hinv zone t (hinit zone t).
Proof. unfold hinv, hinit, hround. cbn. repeat split; try contradiction; try lia. Qed.
Lemma once_an_hour zone t l : Forall orderly l ->
  increasing (map (wall_hour zone) (hRot (hruns zone (hinit zone t) l))) /\
  forall q, In q (hRot (hruns zone (hinit zone t) l)) -> wall_hour zone t < wall_hour zone q.
Proof.
  intro F. destruct (hinv_run zone t l _ (hinv_init zone t) F) as (_ & A & B & _). split; [exact A|]. intros q Hq. apply (B q Hq).
Qed.
Lemma inc_nth l : increasing l -> forall i j a b, (i < j)%nat -> nth_error l i = Some a -> nth_error l j = Some b -> a < b.
Proof.
  induction l as [|x l IH]; intros I0 i j a b L A B; [destruct i; discriminate|].
  destruct j as [|j]; [lia|]. cbn [nth_error] in B. assert (I1 : increasing l) by (destruct l; [exact I|apply I0]).
  destruct i as [|i]; cbn [nth_error] in A.
  - injection A as ->. revert j B L. induction l as [|y l IHl]; intros j B L; [destruct j; discriminate|].
    destruct I0 as [A0 I0]. destruct j as [|j]; cbn [nth_error] in B; [injection B as ->; exact A0|].
    assert (K : y < b) by (apply (IH I1 0%nat (S j) y b); [lia|reflexivity|exact B]). lia.
  - apply (IH I1 i j a b); [lia|exact A|exact B].
Qed.
Lemma names_differ c t l i j qi qj : (forall x y, l_stamp c x = l_stamp c y -> x = y) -> l_perHour c = true -> Forall orderly l -> i <> j ->
  nth_error (hRot (hruns (l_zone c) (hinit (l_zone c) t) l)) i = Some qi -> nth_error (hRot (hruns (l_zone c) (hinit (l_zone c) t) l)) j = Some qj ->
  backupName c qi <> backupName c qj.
Proof.
  intros SI PH F NE A B E. destruct (once_an_hour (l_zone c) t l F) as [INC _]. unfold backupName in E. rewrite PH in E. apply app_inv_head in E. apply app_inv_head in E.
  apply app_inv_tail in E. apply SI in E. unfold hourOf, nsHour in E.
  assert (K : wall_hour (l_zone c) qi = wall_hour (l_zone c) qj).
  { unfold wall_hour. replace (qi - 3600000000000 + l_zone c) with (qi + l_zone c + (-1) * 3600000000000) in E by lia.
    replace (qj - 3600000000000 + l_zone c) with (qj + l_zone c + (-1) * 3600000000000) in E by lia. rewrite !Z.div_add in E by lia. lia. }
  pose proof (inc_nth _ INC) as N. pose proof (map_nth_error (wall_hour (l_zone c)) _ _ A) as A'. pose proof (map_nth_error (wall_hour (l_zone c)) _ _ B) as B'.
  destruct (Nat.lt_gt_cases i j) as [X _]. destruct (X NE) as [L|L].
  - pose proof (N i j _ _ L A' B'). lia.
  - pose proof (N j i _ _ L B' A'). lia.
Qed.

(* sleeps that end a little late: every wake-up rotates, at most d after the hour began *)
Definition pinv (zone : Z) (s : hst) : Prop := hNext s = nextHour zone (hNow s) /\ hSlept s + hDur s = hNext s.
Lemma prompt_run zone d : forall l s, pinv zone s -> prompt zone d s l -> hRot (hruns zone s l) = hRot s ++ map wName l /\
  forall w, In w l -> exists h, (h + zone) mod 3600000000000 = 0 /\ h < wTime w <= h + d.
Proof.
  induction l as [|w l IH]; intros s [N P] PR; cbn [prompt] in PR; [split; [cbn; rewrite app_nil_r; reflexivity|intros w []]|].
  destruct PR as [PR1 PR2]. unfold hruns. cbn [fold_left]. rewrite P in PR1.
  assert (E : hstep zone s w = hround zone (wAgain w) (hRot s ++ [wName w])) by (unfold hstep; rewrite (proj2 (Z.ltb_lt _ _)) by lia; reflexivity).
  rewrite E in *. assert (PI : pinv zone (hround zone (wAgain w) (hRot s ++ [wName w]))).
  { unfold pinv, hround. cbn [hNext hNow hSlept hDur]. split; [reflexivity|]. rewrite first_sleep. lia. }
  destruct (IH _ PI PR2) as [A B]. split.
  - unfold hruns in A. rewrite A. cbn [hround hRot map]. rewrite <- app_assoc. reflexivity.
  - intros x [<-|Hx]; [|exact (B x Hx)]. exists (hNext s). split; [rewrite N; apply next_hour|lia].
Qed.
Lemma pinv_init zone t : pinv zone (hinit zone t).
Proof. unfold pinv, hinit, hround. cbn [hNext hNow hSlept hDur]. split; [reflexivity|]. rewrite first_sleep. lia. Qed.

(* ------------------------------------------------------------ mill *)
Definition minv (s : millst) : Prop :=
  (mlCh s = false -> served (mlLog s)) /\ (mlOnce s = true -> mlStarted s = 1%nat) /\ (mlOnce s = false -> mlStarted s = 0%nat /\ mlLog s = []).
Lemma served_begin l : served (l ++ [MBegin]).
Proof. induction l as [|[|] l IH]; cbn [app served]; [exact I| |exact IH]. split; [apply in_or_app; right; left; reflexivity|exact IH]. Qed.
Lemma minv_step s o s' : minv s -> millstep s o = Some s' -> minv s'.
Proof.
  intros (A & B & C) E. destruct o; cbn [millstep] in E.
  - injection E as <-. unfold minv. cbn [mlCh mlOnce mlStarted mlLog]. split; [discriminate|]. split; [|discriminate]. intros _. destruct (mlOnce s); [auto|]. destruct (C eq_refl) as [-> _]. reflexivity.
  - destruct (mlOnce s && mlCh s && negb (mlRunning s)) eqn:G; [|discriminate]. injection E as <-. apply andb_prop in G. destruct G as [G _]. apply andb_prop in G. destruct G as [G _].
    unfold minv. cbn [mlCh mlOnce mlStarted mlLog]. split; [intros _; apply served_begin|]. split; [intros _; apply B; exact G|discriminate].
  - destruct (mlRunning s); [|discriminate]. injection E as <-. exact (conj A (conj B C)).
Qed.
Lemma minv_run : forall l s s', minv s -> millruns s l = Some s' -> minv s'.
Proof.
  induction l as [|o l IH]; intros s s' I0 R; cbn [millruns] in R; [injection R as <-; exact I0|].
  destruct (millstep s o) as [s1|] eqn:E; [|discriminate]. exact (IH _ _ (minv_step _ _ _ I0 E) R).
Qed.
Lemma minv_init : minv millinit.
Proof. unfold minv. cbn. repeat split; discriminate. Qed.
Lemma log_requests : forall l s s', millruns s l = Some s' ->
  length (filter (fun e => match e with MRequest => true | _ => false end) (mlLog s')) =
  (length (filter (fun e => match e with MRequest => true | _ => false end) (mlLog s)) + length (filter (fun o => match o with MMill => true | _ => false end) l))%nat.
Proof.
  induction l as [|o l IH]; intros s s' R; cbn [millruns] in R; [injection R as <-; cbn; lia|].
  destruct (millstep s o) as [s1|] eqn:E; [|discriminate]. rewrite (IH _ _ R). destruct o; cbn [millstep filter] in *.
  - injection E as <-. cbn [mlLog]. rewrite filter_app, app_length. cbn. lia.
  - destruct (mlOnce s && mlCh s && negb (mlRunning s)); [|discriminate]. injection E as <-. cbn [mlLog]. rewrite filter_app, app_length. cbn. lia.
  - destruct (mlRunning s); [|discriminate]. injection E as <-. reflexivity.
Qed.
Lemma ch_once : forall l s s', (mlCh s = true -> mlOnce s = true) -> millruns s l = Some s' -> mlCh s' = true -> mlOnce s' = true.
Proof.
  induction l as [|o l IH]; intros s s' I0 R; cbn [millruns] in R; [injection R as <-; exact I0|].
  destruct (millstep s o) as [s1|] eqn:E; [|discriminate]. apply (IH s1 s'); [|exact R]. destruct o; cbn [millstep] in E.
  - injection E as <-. reflexivity.
  - destruct (mlOnce s && mlCh s && negb (mlRunning s)); [|discriminate]. injection E as <-. reflexivity.
  - destruct (mlRunning s); [|discriminate]. injection E as <-. exact I0.
Qed.
