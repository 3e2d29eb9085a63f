(* RepProofs.v: proofs about RepModel.v. *)
From Coq Require Import Permutation Lia.
From Verif Require Import Base UrlModel UrlSpec UrlProofs MetricModel AccProofs RepModel RepSpec.
Ltac Zify.zify_post_hook ::= idtac.
Local Open Scope Z_scope.

Lemma wrap_small z : 0 <= z < 9223372036854775808 -> wrapI64 z = z.
Proof.
  intro H. unfold wrapI64. change (2 ^ 64)%Z with 18446744073709551616. change (2 ^ 63)%Z with 9223372036854775808.
  destruct (Z.ltb_spec (z mod 18446744073709551616) 9223372036854775808) as [K|K]; rewrite Z.mod_small in * by lia; lia.
Qed.

(* ------------------------------------------------------------ frames *)
Lemma offer_frame cap s e : rOnce (offer cap s e) = rOnce s /\ rInterval (offer cap s e) = rInterval s /\ rLoops (offer cap s e) = rLoops s /\
  rSinks (offer cap s e) = rSinks s /\ rDead (offer cap s e) = rDead s /\ rWriters (offer cap s e) = rWriters s /\ rApp (offer cap s e) = rApp s /\
  rSamplers (offer cap s e) = rSamplers s /\ rStuck (offer cap s e) = rStuck s /\ rLog (offer cap s e) = rLog s /\ rProcs (offer cap s e) = rProcs s.
Proof. repeat split. Qed.
Definition same_set (s s' : rst) : Prop :=
  rOnce s' = rOnce s /\ rInterval s' = rInterval s /\ rLoops s' = rLoops s /\ rSinks s' = rSinks s /\ rDead s' = rDead s /\
  rWriters s' = rWriters s /\ rApp s' = rApp s /\ rSamplers s' = rSamplers s /\ rProcs s' = rProcs s.
Lemma ss_refl s : same_set s s. Proof. repeat split. Qed.
Lemma ss_trans a b c : same_set a b -> same_set b c -> same_set a c.
Proof. unfold same_set. intuition congruence. Qed.
Lemma ss_offer cap s e : same_set s (offer cap s e). Proof. repeat split. Qed.
Lemma ss_panic cap s : same_set s (countPanic cap s).
Proof. unfold countPanic. destruct (rApp s); [apply ss_offer|apply ss_refl]. Qed.
Lemma ss_sample cap app val l : forall s, same_set s (sampleAll cap app val l s).
Proof.
  induction l as [|[k f] l IH]; intro s; cbn [sampleAll]; [apply ss_refl|]. destruct (val f).
  - eapply ss_trans; [apply ss_offer|apply IH].
  - apply ss_panic.
  - repeat split.
Qed.
Lemma ss_write cap res snaps l : forall s, same_set s (writeAll cap res snaps l s).
Proof.
  induction l as [|[n w] l IH]; intro s; cbn [writeAll]; [apply ss_refl|].
  assert (A : same_set s (setLog s (rLog s ++ [(n, w, snaps)]))) by repeat split.
  destruct (res w); (eapply ss_trans; [exact A|]); first [apply IH|apply ss_panic].
Qed.

(* every step but a start, AddWriter and the samplers' registration leaves the settings *)
Lemma step_frame cap s o s' : rstep cap s o = Some s' ->
  match o with
  | OStart c a => s' = startReporter s c a
  | OWriter n w => s' = setWriters s (addWriter (rWriters s) n w)
  | ORegister k f => s' = setSamplers s (aset bs_eqb (rSamplers s) k f)
  | OUnregister k => s' = setSamplers s (adel bs_eqb (rSamplers s) k)
  | _ => same_set s s'
  end /\ rDead s = false.
Proof.
  unfold rstep. destruct (rDead s); [discriminate|]. intro H. split; [|reflexivity]. destruct o.
  - injection H as <-. reflexivity.
  - injection H as <-. reflexivity.
  - destruct (rStuck s); [discriminate|]. injection H as <-. reflexivity.
  - destruct (rStuck s); [discriminate|]. injection H as <-. reflexivity.
  - destruct (rApp s); [|discriminate]. destruct (rStuck s); [discriminate|]. injection H as <-. apply ss_sample.
  - injection H as <-. apply ss_panic.
  - destruct (Z.eqb (rSinks s) 0); [discriminate|]. destruct snaps as [|x l]; [injection H as <-; apply ss_refl|].
    destruct (rWriters s) eqn:E; injection H as <-; [apply ss_refl|apply ss_write].
  - destruct (Z.eqb (rLoops s) 0); [discriminate|]. destruct (rBus s); [discriminate|]. injection H as <-. repeat split.
Qed.

(* ------------------------------------------------------------ settings *)
Definition set_as (c : option mconf) (a : option url) (s : rst) : Prop :=
  rOnce s = true /\ rInterval s = seconds_of c * 1000000000 /\ rLoops s = loops_of c /\ rSinks s = 1 /\ rApp s = app_of a /\ rDead s = false.
Definition not_set (s : rst) : Prop :=
  rOnce s = false /\ rInterval s = 5000000000 /\ rProcs s = 1 /\ rLoops s = 0 /\ rSinks s = 0 /\ rApp s = None /\ rDead s = false.
Lemma started c a s s' : not_set s -> fits c -> s' = startReporter s c a -> set_as c a s'.
Proof.
  intros (A & B & C & D & E & F & G) HF ->. unfold startReporter. rewrite A. unfold set_as, fits in *.
  assert (K : (match c with Some c => if 0 <? mcPeriod c then wrapI64 (mcPeriod c * 1000000000) else rInterval s | None => rInterval s end) = seconds_of c * 1000000000).
  { unfold seconds_of in *. destruct c as [c|]; [|rewrite B; reflexivity]. destruct (Z.ltb_spec 0 (mcPeriod c)) as [P|P].
    - rewrite wrap_small; [reflexivity|lia].
    - rewrite B. reflexivity. }
  cbn [rOnce rInterval rLoops rSinks rApp rDead]. rewrite K. repeat split.
  - unfold loops_of. destruct c as [c|]; [|exact C]. rewrite C. destruct (Z.ltb_spec 1 (mcProcessor c)), (Z.leb_spec 2 (mcProcessor c)); try lia; reflexivity.
  - destruct a as [u|]; cbn [app_of]; [|exact F]. rewrite getParam_str_or. reflexivity.
  - apply Z.leb_gt. unfold seconds_of. destruct c as [c|]; [|lia]. destruct (Z.ltb_spec 0 (mcPeriod c)); lia.
Qed.
Lemma set_same_set s s' c a : same_set s s' -> set_as c a s -> set_as c a s'.
Proof. unfold same_set, set_as. intuition congruence. Qed.
Lemma notset_same_set s s' : same_set s s' -> not_set s -> not_set s'.
Proof. unfold same_set, not_set. intuition congruence. Qed.
Lemma run_set cap c a : forall os s s', set_as c a s -> rruns cap s os = Some s' -> set_as c a s'.
Proof.
  induction os as [|o os IH]; intros s s' H R; cbn [rruns] in R; [injection R as <-; exact H|].
  destruct (rstep cap s o) as [s1|] eqn:E; [|discriminate]. apply (IH s1 s'); [|exact R].
  destruct (step_frame _ _ _ _ E) as [F _]. destruct o; try (eapply set_same_set; eassumption); subst s1.
  - unfold startReporter. destruct H as (A & B). rewrite A. split; assumption.
  - exact H.
  - exact H.
  - exact H.
Qed.
Lemma run_settings cap : forall os s s', not_set s -> fits_first os -> rruns cap s os = Some s' ->
  match first_start os with Some (c, a) => set_as c a s' | None => not_set s' end.
Proof.
  induction os as [|o os IH]; intros s s' H HF R; cbn [rruns] in R; [injection R as <-; exact H|].
  destruct (rstep cap s o) as [s1|] eqn:E; [|discriminate]. destruct (step_frame _ _ _ _ E) as [F _].
  destruct o as [c a|n w|k f|k|od v| |sn od rs|]; cbn [first_start];
    try (apply (IH s1 s'); [eapply notset_same_set; eassumption|exact HF|exact R]);
    try (apply (IH s1 s'); [subst s1; exact H|exact HF|exact R]).
  apply (run_set cap c a os s1 s'); [|exact R]. apply (started c a s s1 H); [exact HF|exact F].
Qed.
Lemma init_not_set : not_set rinit. Proof. repeat split. Qed.

(* nothing blocks a start, a writer or a report, and a period that fits never ends the process *)
Lemma not_dead cap os s : fits_first os -> rruns cap rinit os = Some s -> rDead s = false.
Proof.
  intros HF R. pose proof (run_settings cap os rinit s init_not_set HF R) as K.
  destruct (first_start os) as [[c a]|]; unfold set_as, not_set in K; tauto.
Qed.

(* ------------------------------------------------------------ writers *)
Lemma latest_app {A} n (l r : list (bs * A)) : latest n (l ++ r) = match latest n r with Some x => Some x | None => latest n l end.
Proof.
  induction l as [|[m w] l IH]; cbn [latest app]; [destruct (latest n r); reflexivity|]. rewrite IH. destruct (latest n r); reflexivity.
Qed.
Lemma addWriter_get m n0 w n : n <> [] -> aget bs_eqb (addWriter m n0 (Some w)) n = if bs_eqb n0 n then Some w else aget bs_eqb m n.
Proof.
  intro H. unfold addWriter. destruct (bs_eqb n0 []) eqn:E.
  - apply bs_eqb_spec in E. subst n0. destruct (bs_eqb [] n) eqn:E2; [|reflexivity]. apply bs_eqb_spec in E2. congruence.
  - rewrite (aget_aset bs_eqb bs_eqb_spec), (bs_eqb_sym n n0). reflexivity.
Qed.
Lemma conf_writers n (H : n <> []) : forall gs m,
  aget bs_eqb (fold_left (fun m (g : bs * Z * bs) => let '(h, p, n) := g in addWriter m n (Some (WGraphite h p))) gs m) n =
  match latest n (map (fun g : bs * Z * bs => (snd g, WGraphite (fst (fst g)) (snd (fst g)))) gs) with Some w => Some w | None => aget bs_eqb m n end.
Proof.
  induction gs as [|[[h p] n0] gs IH]; intro m; [reflexivity|]. cbn [fold_left map latest fst snd]. rewrite IH, (addWriter_get _ _ _ _ H).
  destruct (latest n _); [reflexivity|]. destruct (bs_eqb n0 n); reflexivity.
Qed.
Lemma run_writers cap n (H : n <> []) : forall os s s', rruns cap s os = Some s' ->
  aget bs_eqb (rWriters s') n = match latest n (offered (rOnce s) os) with Some w => Some w | None => aget bs_eqb (rWriters s) n end.
Proof.
  induction os as [|o os IH]; intros s s' R; cbn [rruns] in R; [injection R as <-; reflexivity|].
  destruct (rstep cap s o) as [s1|] eqn:E; [|discriminate]. destruct (step_frame _ _ _ _ E) as [F _].
  specialize (IH _ _ R). destruct o as [c a|n0 w|k f|k|od v| |sn od rs|]; cbn [offered];
    try (destruct F as (A1 & _ & _ & _ & _ & A2 & _); rewrite IH, A1, A2; reflexivity).
  - assert (O1 : rOnce s1 = true) by (subst s1; unfold startReporter; destruct (rOnce s) eqn:K; [exact K|reflexivity]).
    rewrite O1 in IH. rewrite IH, latest_app. destruct (latest n (offered true os)); [reflexivity|]. subst s1. unfold startReporter.
    destruct (rOnce s); [reflexivity|]. cbn [rWriters]. destruct c as [c|]; [|reflexivity]. exact (conf_writers n H (mcGraphite c) (rWriters s)).
  - subst s1. cbn [setWriters rOnce rWriters] in IH. rewrite IH. destruct w as [w|]; [|reflexivity]. cbn [latest].
    rewrite (addWriter_get _ _ _ _ H). destruct (latest n (offered (rOnce s) os)); [reflexivity|]. destruct (bs_eqb n0 n); reflexivity.
  - subst s1. exact IH.
  - subst s1. exact IH.
Qed.
Lemma no_empty_name cap : forall os s s', (forall w, ~ In ([], w) (rWriters s)) -> rruns cap s os = Some s' -> forall w, ~ In ([], w) (rWriters s').
Proof.
  assert (A : forall m n w, (forall w, ~ In ([], w) m) -> forall x, ~ In ([], x) (addWriter m n w)).
  { intros m n [w|] H x K; [|exact (H x K)]. unfold addWriter in K. destruct (bs_eqb n []) eqn:E; [exact (H x K)|].
    assert (B : forall m, In ([], x) (aset bs_eqb m n w) -> In ([], x) m).
    { clear - E. induction m as [|[k v] m IH]; cbn [aset]; intro K.
      - destruct K as [K|[]]. injection K as -> _. discriminate.
      - destruct (bs_eqb n k) eqn:E2; [|destruct K as [K|K]; [left; exact K|right; exact (IH K)]].
        destruct K as [K|K]; [|right; exact K]. injection K as -> _. apply bs_eqb_spec in E2. subst n. discriminate. }
    exact (H x (B m K)). }
  induction os as [|o os IH]; intros s s' H R; cbn [rruns] in R; [injection R as <-; exact H|].
  destruct (rstep cap s o) as [s1|] eqn:E; [|discriminate]. apply (IH s1 s'); [|exact R]. destruct (step_frame _ _ _ _ E) as [F _].
  destruct o as [c a|n0 w|k f|k|od v| |sn od rs|]; try (destruct F as (_ & _ & _ & _ & _ & -> & _); exact H); subst s1; try exact H.
  - unfold startReporter. destruct (rOnce s); [exact H|]. cbn [rWriters]. destruct c as [c|]; [|exact H].
    generalize dependent (rWriters s). induction (mcGraphite c) as [|[[h p] n] gs IHg]; intros m H; [exact H|]. cbn [fold_left]. apply IHg. apply A. exact H.
  - cbn [setWriters rWriters]. apply A. exact H.
Qed.

(* one tick of the sink *)
Lemma write_all cap res snaps : forall l s, (forall n w, In (n, w) l -> res w <> WPanic) ->
  writeAll cap res snaps l s = setLog s (rLog s ++ map (fun x : bs * writer => (x, snaps)) l).
Proof.
  induction l as [|[n w] l IH]; intros s H; cbn [writeAll map].
  - rewrite app_nil_r. destruct s; reflexivity.
  - assert (K : res w <> WPanic) by (apply (H n w); left; reflexivity).
    assert (H' : forall n w, In (n, w) l -> res w <> WPanic) by (intros n' w' I'; apply (H n' w'); right; exact I').
    rewrite (IH _ H'). destruct (res w); [| |congruence]; unfold setLog; cbn [rLog rOnce rInterval rProcs rLoops rSinks rDead rWriters rApp rSamplers rStuck rBus rOffered];
      rewrite <- app_assoc; reflexivity.
Qed.
Lemma sink_all cap s snaps order res s' : rstep cap s (OSink snaps order res) = Some s' -> Permutation order (rWriters s) -> snaps <> [] ->
  (forall n w, In (n, w) (rWriters s) -> res w <> WPanic) ->
  exists new, rLog s' = rLog s ++ new /\ Permutation new (map (fun x : bs * writer => (x, snaps)) (rWriters s)) /\ rBus s' = rBus s /\ rOffered s' = rOffered s.
Proof.
  intros E P HS HW. unfold rstep in E. destruct (rDead s); [discriminate|]. destruct (Z.eqb (rSinks s) 0); [discriminate|].
  destruct snaps as [|x l]; [congruence|]. destruct (rWriters s) as [|w ws] eqn:EW.
  - injection E as <-. exists []. rewrite app_nil_r. repeat split; constructor.
  - injection E as <-. rewrite (write_all cap res (x :: l) order s).
    + exists (map (fun y : bs * writer => (y, x :: l)) order). repeat split. apply Permutation_map. exact P.
    + intros n w0 I0. apply (HW n w0). exact (Permutation_in _ P I0).
Qed.
Lemma sink_none cap s order res s' : rstep cap s (OSink [] order res) = Some s' -> s' = s.
Proof. unfold rstep. destruct (rDead s); [discriminate|]. destruct (Z.eqb (rSinks s) 0); [discriminate|]. intro H. injection H as <-. reflexivity. Qed.

(* ------------------------------------------------------------ samplers *)
Lemma run_samplers cap k : forall os s s', rruns cap s os = Some s' -> aget bs_eqb (rSamplers s') k = sampler_at k os (aget bs_eqb (rSamplers s) k).
Proof.
  induction os as [|o os IH]; intros s s' R; cbn [rruns] in R; [injection R as <-; reflexivity|].
  destruct (rstep cap s o) as [s1|] eqn:E; [|discriminate]. destruct (step_frame _ _ _ _ E) as [F _].
  rewrite (IH _ _ R). destruct o as [c a|n w|k' f|k'|od v| |sn od rs|]; cbn [sampler_at]; f_equal;
    try (destruct F as (_ & _ & _ & _ & _ & _ & _ & -> & _); reflexivity); subst s1.
  - unfold startReporter. destruct (rOnce s); reflexivity.
  - reflexivity.
  - cbn [setSamplers rSamplers]. rewrite (aget_aset bs_eqb bs_eqb_spec), (bs_eqb_sym k k'). reflexivity.
  - cbn [setSamplers rSamplers]. rewrite (aget_adel bs_eqb bs_eqb_spec), (bs_eqb_sym k k'). reflexivity.
Qed.
Lemma sample_all cap app val v : forall l s, (forall k f, In (k, f) l -> val f = SValue (v f)) ->
  let s' := sampleAll cap app val l s in
  rOffered s' = rOffered s ++ map (gauge_of app v) l /\ rStuck s' = rStuck s /\
  ((length (rBus s) + length l <= cap)%nat -> rBus s' = rBus s ++ map (gauge_of app v) l).
Proof.
  induction l as [|[k f] l IH]; intros s H; cbn [sampleAll map].
  - rewrite !app_nil_r. repeat split; reflexivity.
  - rewrite (H k f) by (left; reflexivity).
    specialize (IH (offer cap s (mkEv KGauge (s2b "motan-stat") [] (s2b "status") [s2b "motan-agent"; app; k] [] (v f)))).
    destruct IH as (A & B & C); [intros k' f' I'; apply (H k' f'); right; exact I'|]. repeat split.
    + rewrite A. unfold offer. cbn [setBus rOffered]. rewrite <- app_assoc. reflexivity.
    + rewrite B. reflexivity.
    + intro L. cbn [length] in L. unfold offer in C. cbn [setBus rBus] in C.
      assert (K : Nat.ltb (length (rBus s)) cap = true) by (apply Nat.ltb_lt; lia). rewrite K in C. cbn [rBus] in C.
      unfold offer. rewrite K. rewrite C by (rewrite app_length; cbn [length]; lia). rewrite <- app_assoc. reflexivity.
Qed.
Lemma tick cap s order val v s' app : rstep cap s (OSample order val) = Some s' -> rApp s = Some app -> Permutation order (rSamplers s) ->
  (forall k f, In (k, f) (rSamplers s) -> val f = SValue (v f)) ->
  exists evs, Permutation evs (map (gauge_of app v) (rSamplers s)) /\ rOffered s' = rOffered s ++ evs /\ rLog s' = rLog s /\
    ((length (rBus s) + length (rSamplers s) <= cap)%nat -> rBus s' = rBus s ++ evs).
Proof.
  intros E A P H. unfold rstep in E. destruct (rDead s); [discriminate|]. rewrite A in E. destruct (rStuck s); [discriminate|]. injection E as <-.
  destruct (sample_all cap app val v order s) as (B & _ & C); [intros k f I0; apply (H k f); exact (Permutation_in _ P I0)|].
  exists (map (gauge_of app v) order). repeat split.
  - apply Permutation_map. exact P.
  - exact B.
  - clear. revert s. induction order as [|[k f] l IH]; intro s; cbn [sampleAll]; [reflexivity|]. destruct (val f); [rewrite IH; reflexivity| |reflexivity].
    unfold countPanic. destruct (rApp s); reflexivity.
  - intro L. apply C. rewrite (Permutation_length P). exact L.
Qed.
Lemma app_from cap os s app : fits_first os -> rruns cap rinit os = Some s -> rApp s = Some app ->
  exists c u, first_start os = Some (c, Some u) /\ app = str_or u (s2b "application") (s2b "unknown").
Proof.
  intros HF R A. pose proof (run_settings cap os rinit s init_not_set HF R) as K. destruct (first_start os) as [[c a]|].
  - destruct K as (_ & _ & _ & _ & K & _). rewrite A in K. destruct a as [u|]; [|discriminate]. injection K as ->. exists c, u. split; reflexivity.
  - destruct K as (_ & _ & _ & _ & _ & K & _). congruence.
Qed.
Lemma panic_step cap s : rDead s = false -> exists s', rstep cap s OPanic = Some s' /\
  rOffered s' = rOffered s ++ (match rApp s with Some app => [panic_event app] | None => [] end).
Proof.
  intro D. unfold rstep. rewrite D. eexists. split; [reflexivity|]. unfold countPanic. destruct (rApp s); [reflexivity|]. rewrite app_nil_r. reflexivity.
Qed.

(* ------------------------------------------------------------ items *)
Record wf (s : itst) : Prop := {
  wfInj : forall k1 k2 i, aget bs_eqb (tItems s) k1 = Some i -> aget bs_eqb (tItems s) k2 = Some i -> k1 = k2;
  wfLt : forall k i, aget bs_eqb (tItems s) k = Some i -> (i < length (tStore s))%nat;
  wfJob : forall m v i, In (JEvent m v i) (tJobs s) -> (i < length (tStore s))%nat }.
Lemma In_set {A} (l : list A) i x y : In y (list_set l i x) -> y = x \/ In y l.
Proof.
  revert i. induction l as [|a l IH]; intros [|i] H; cbn [list_set] in H; try contradiction.
  - destruct H as [H|H]; [left; symmetry; exact H|right; right; exact H].
  - destruct H as [H|H]; [right; left; exact H|]. destruct (IH _ H) as [K|K]; [left; exact K|right; right; exact K].
Qed.
Lemma wf_init : wf itinit.
Proof. split; cbn; intros; try contradiction; discriminate. Qed.
Lemma wf_step s o s' : wf s -> itstep s o = Some s' -> wf s'.
Proof.
  intros [Inj Lt Job] E. destruct o as [key metric v|key| |j|key]; cbn [itstep] in E.
  - destruct (aget bs_eqb (tItems s) key) as [it|] eqn:G; injection E as <-; split; cbn [tItems tStore tJobs]; try assumption.
    + intros m v0 i H. apply in_app_or in H. destruct H as [H|[H|[]]]; [exact (Job _ _ _ H)|]. injection H as _ _ <-. exact (Lt _ _ G).
    + intros k1 k2 i. rewrite !(aget_aset bs_eqb bs_eqb_spec). destruct (bs_eqb k1 key) eqn:E1, (bs_eqb k2 key) eqn:E2; intros A B.
      * apply bs_eqb_spec in E1, E2. congruence.
      * injection A as <-. apply Lt in B. lia.
      * injection B as <-. apply Lt in A. lia.
      * exact (Inj _ _ _ A B).
    + intros k i. rewrite (aget_aset bs_eqb bs_eqb_spec), app_length. cbn [length]. destruct (bs_eqb k key); intro A; [injection A as <-; lia|apply Lt in A; lia].
    + intros m v0 i H. rewrite app_length. cbn [length]. apply in_app_or in H. destruct H as [H|[H|[]]]; [apply Job in H; lia|]. injection H as _ _ <-. lia.
  - destruct (aget bs_eqb (tItems s) key) as [it|] eqn:G; injection E as <-; split; cbn [tItems tStore tJobs]; try assumption;
      intros m v0 i H; apply in_app_or in H; (destruct H as [H|[H|[]]]; [exact (Job _ _ _ H)|discriminate]).
  - injection E as <-. split; cbn [tItems tStore tJobs aget]; try (intros; discriminate).
    intros m v0 i H. apply in_app_or in H. destruct H as [H|[H|[]]]; [exact (Job _ _ _ H)|discriminate].
  - destruct (nth_error (tJobs s) j) as [[m v it|key [it|it]|[|it l]|]|]; try discriminate; injection E as <-;
      split; cbn [tItems tStore tJobs]; rewrite ?list_set_length; try assumption;
      try (intros m0 v0 i H; apply In_set in H; destruct H as [H|H]; [discriminate|exact (Job _ _ _ H)]).
    + intros k1 k2 i. rewrite !(aget_adel bs_eqb bs_eqb_spec). destruct (bs_eqb k1 key), (bs_eqb k2 key); try discriminate. apply Inj.
    + intros k i. rewrite (aget_adel bs_eqb bs_eqb_spec). destruct (bs_eqb k key); [discriminate|apply Lt].
  - destruct (aget bs_eqb (tItems s) key) as [it|] eqn:G; [|discriminate]. injection E as <-. split; cbn [tItems tStore tJobs]; rewrite ?list_set_length; assumption.
Qed.
Lemma wf_run : forall os s s', wf s -> itruns s os = Some s' -> wf s'.
Proof.
  induction os as [|o os IH]; intros s s' W R; cbn [itruns] in R; [injection R as <-; exact W|].
  destruct (itstep s o) as [s1|] eqn:E; [|discriminate]. exact (IH _ _ (wf_step _ _ _ W E) R).
Qed.
Lemma settled_step s o s' : settled s -> ~ removes o -> itstep s o = Some s' -> settled s'.
Proof.
  intros S0 N E. destruct o as [key metric v|key| |j|key]; cbn [itstep removes] in *; try tauto.
  - destruct (aget bs_eqb (tItems s) key) as [it|]; injection E as <-; intros x H; cbn [tJobs] in H; apply in_app_or in H;
      (destruct H as [H|[<-|[]]]; [exact (S0 _ H)|exact (fun f => f)]).
  - destruct (nth_error (tJobs s) j) as [[m v it|key p|[|it l]|]|] eqn:G; try discriminate.
    + injection E as <-. intros x H. cbn [tJobs] in H. apply In_set in H. destruct H as [->|H]; [exact (fun f => f)|exact (S0 _ H)].
    + exfalso. apply (S0 _ (nth_error_In _ _ G)). exact I.
    + exfalso. apply (S0 _ (nth_error_In _ _ G)). exact I.
  - destruct (aget bs_eqb (tItems s) key) as [it|]; [|discriminate]. injection E as <-. exact S0.
Qed.
Lemma zsum_app a b : zsum (a ++ b) = zsum a + zsum b.
Proof. unfold zsum. induction a as [|x a IH]; cbn [fold_right app]; [reflexivity|]. rewrite IH. lia. Qed.
Lemma zsum_set {A} (f : A -> Z) l i x y : nth_error l i = Some x -> zsum (map f (list_set l i y)) = zsum (map f l) - f x + f y.
Proof.
  revert i. induction l as [|a l IH]; intros [|i] H; cbn [nth_error] in H; try discriminate; cbn [list_set map zsum fold_right].
  - injection H as ->. lia.
  - specialize (IH _ H). unfold zsum in IH. rewrite IH. lia.
Qed.
Lemma zsum_zero {A} (f : A -> Z) l : (forall x, In x l -> f x = 0) -> zsum (map f l) = 0.
Proof.
  induction l as [|a l IH]; intro H; [reflexivity|]. cbn [map zsum fold_right]. rewrite (H a) by (left; reflexivity).
  unfold zsum in IH. rewrite IH; [reflexivity|]. intros x Hx. apply H. right. exact Hx.
Qed.
Lemma counters_set s it m i : (it < length (tStore s))%nat ->
  counters (mkItst (tItems s) (list_set (tStore s) it m) (tJobs s) (tReported s)) i = if Nat.eqb i it then m else counters s i.
Proof.
  intro L. unfold counters. cbn [tStore]. rewrite (list_set_nth_error _ _ _ _ L). destruct (Nat.eqb i it); reflexivity.
Qed.
Definition all (s : itst) (key metric : bs) : Z := live s key metric + reported s key metric + coming s key metric.
Lemma same_add a b c : same64 a b -> same64 (a + c) (b + c).
Proof. unfold same64. intro H. rewrite (Zplus_mod a c), (Zplus_mod b c), H. reflexivity. Qed.
Lemma all_step s o s' key metric : wf s -> settled s -> ~ removes o -> itstep s o = Some s' -> same64 (all s' key metric) (all s key metric + added [o] key metric).
Proof.
  intros [Inj Lt Job] S0 N E. destruct o as [k m v|k| |j|k]; cbn [itstep removes] in *; try tauto.
  - unfold added. cbn [map zsum fold_right]. unfold all, live, coming, reported. destruct (aget bs_eqb (tItems s) k) as [it|] eqn:G; injection E as <-; cbn [tItems tReported tJobs].
    + destruct (aget bs_eqb (tItems s) key) as [it'|] eqn:G'.
      * rewrite map_app, zsum_app. cbn [map zsum fold_right]. change (counters (mkItst (tItems s) (tStore s) (tJobs s ++ [JEvent m v it]) (tReported s)) it') with (counters s it').
        destruct (Nat.eqb_spec it it') as [<-|NE].
        { rewrite (Inj _ _ _ G G'), bs_eqb_refl. cbn [andb]. unfold same64, zsum. f_equal. destruct (bs_eqb m metric); lia. }
        assert (KN : bs_eqb k key = false) by (apply bs_eqb_neq; congruence). rewrite KN. cbn [andb]. unfold same64, zsum. f_equal. lia.
      * assert (KN : bs_eqb k key = false) by (apply bs_eqb_neq; congruence). rewrite KN. cbn [andb]. unfold same64. f_equal. lia.
    + rewrite (aget_aset bs_eqb bs_eqb_spec), (bs_eqb_sym key k). destruct (bs_eqb k key) eqn:EK; cbn [andb].
      * apply bs_eqb_spec in EK. subst k. rewrite G. unfold counters. cbn [tStore]. rewrite nth_error_app2 by lia. rewrite Nat.sub_diag. cbn [nth_error getc aget].
        rewrite map_app, zsum_app. cbn [map zsum fold_right]. rewrite Nat.eqb_refl. cbn [andb].
        rewrite (zsum_zero _ (tJobs s)).
        { unfold same64. f_equal. destruct (bs_eqb m metric); lia. }
        intros [m0 v0 i0|k0 p|l|] H; try reflexivity. apply Job in H. rewrite (proj2 (Nat.eqb_neq i0 (length (tStore s)))) by lia. reflexivity.
      * destruct (aget bs_eqb (tItems s) key) as [it'|] eqn:G'; [|unfold same64; f_equal; lia].
        rewrite map_app, zsum_app. cbn [map zsum fold_right]. pose proof (Lt _ _ G') as L. rewrite (proj2 (Nat.eqb_neq (length (tStore s)) it')) by lia. cbn [andb].
        unfold counters. cbn [tStore]. rewrite nth_error_app1 by exact L. unfold same64, zsum. f_equal. lia.
  - unfold added. cbn [map zsum fold_right]. rewrite ?Z.add_0_r.
    destruct (nth_error (tJobs s) j) as [[m v it|k p|[|it l]|]|] eqn:G; try discriminate.
    + injection E as <-. unfold all, live, reported, coming. cbn [tItems tReported tJobs]. destruct (aget bs_eqb (tItems s) key) as [it'|] eqn:G'; [|reflexivity].
      rewrite (zsum_set _ _ _ _ _ G). pose proof (Job _ _ _ (nth_error_In _ _ G)) as L.
      pose proof (counters_set s it (aset bs_eqb (counters s it) m (wrapI64 (getc (counters s it) m + v))) it' L) as CS.
      unfold counters in CS at 1. cbn [tStore] in CS. unfold counters at 1. cbn [tStore]. rewrite CS, (Nat.eqb_sym it' it).
      destruct (Nat.eqb_spec it it') as [<-|NE]; cbn [andb]; [|unfold same64; f_equal; lia].
      unfold getc at 1. rewrite (aget_aset bs_eqb bs_eqb_spec), (bs_eqb_sym metric m). destruct (bs_eqb m metric) eqn:EM.
      * apply bs_eqb_spec in EM. subst m. set (R := zsum (map _ (tReported s))). set (C := zsum (map _ (tJobs s))). fold (getc (counters s it) metric).
        set (X := getc (counters s it) metric). replace (X + R + C) with ((X + v) + (R + (C - v))) by lia.
        replace (wrapI64 (X + v) + R + (C - v + 0)) with (wrapI64 (X + v) + (R + (C - v))) by lia. apply same_add. apply wrapI64_mod.
      * fold (getc (counters s it) metric). unfold same64. f_equal. lia.
    + exfalso. apply (S0 _ (nth_error_In _ _ G)). exact I.
    + exfalso. apply (S0 _ (nth_error_In _ _ G)). exact I.
  - unfold added. cbn [map zsum fold_right]. rewrite ?Z.add_0_r. destruct (aget bs_eqb (tItems s) k) as [it|] eqn:G; [|discriminate]. injection E as <-.
    pose proof (Lt _ _ G) as L. unfold all, live, reported, coming. cbn [tItems tReported tJobs]. rewrite map_app, zsum_app. cbn [map zsum fold_right fst snd].
    destruct (bs_eqb k key) eqn:EK.
    + apply bs_eqb_spec in EK. subst k. rewrite G. pose proof (counters_set s it [] it L) as CS. unfold counters in CS at 1. cbn [tStore] in CS.
      unfold counters at 1. cbn [tStore]. rewrite CS, Nat.eqb_refl. cbn [getc aget]. unfold same64. f_equal. lia.
    + destruct (aget bs_eqb (tItems s) key) as [it'|] eqn:G'; [|unfold same64; f_equal; lia].
      assert (NE : it' <> it) by (intros ->; rewrite (Inj _ _ _ G G'), bs_eqb_refl in EK; discriminate).
      pose proof (counters_set s it [] it' L) as CS. unfold counters in CS at 1. cbn [tStore] in CS. unfold counters at 1. cbn [tStore]. rewrite CS, (proj2 (Nat.eqb_neq it' it) NE).
      unfold same64. f_equal. lia.
Qed.
Lemma all_run key metric : forall os s s', wf s -> settled s -> (forall o, In o os -> ~ removes o) -> itruns s os = Some s' ->
  same64 (all s' key metric) (all s key metric + added os key metric).
Proof.
  induction os as [|o os IH]; intros s s' W S0 N R; cbn [itruns] in R.
  - injection R as <-. unfold added. cbn [map zsum fold_right]. rewrite Z.add_0_r. reflexivity.
  - destruct (itstep s o) as [s1|] eqn:E; [|discriminate]. assert (N0 : ~ removes o) by (apply N; left; reflexivity).
    pose proof (all_step _ _ _ key metric W S0 N0 E) as A.
    pose proof (IH s1 s' (wf_step _ _ _ W E) (settled_step _ _ _ S0 N0 E) (fun x Hx => N x (or_intror Hx)) R) as B.
    unfold same64 in *. rewrite B. rewrite (Zplus_mod (all s1 key metric)), A, <- Zplus_mod. f_equal. unfold added, zsum. cbn [map fold_right]. lia.
Qed.
Lemma kept os0 s0 os s key metric : itruns itinit os0 = Some s0 -> settled s0 -> (forall o, In o os -> ~ removes o) -> itruns s0 os = Some s ->
  same64 (live s key metric + reported s key metric + coming s key metric)
         (live s0 key metric + reported s0 key metric + coming s0 key metric + added os key metric).
Proof. intros R0 S0 N R. exact (all_run key metric os s0 s (wf_run _ _ _ wf_init R0) S0 N R). Qed.

(* removing an item while nothing else is under way *)
Lemma removed os0 s0 key s : itruns itinit os0 = Some s0 -> idle s0 ->
  itruns s0 [IRemove key; IStep (length (tJobs s0)); IStep (length (tJobs s0))] = Some s ->
  aget bs_eqb (tItems s) key = None /\ idle s /\ tReported s = tReported s0 /\
  forall k, k <> key -> aget bs_eqb (tItems s) k = aget bs_eqb (tItems s0) k /\ forall m, live s k m = live s0 k m.
Proof.
  intros R0 ID R. pose proof (wf_run _ _ _ wf_init R0) as [Inj Lt Job]. cbn [itruns itstep] in R.
  destruct (aget bs_eqb (tItems s0) key) as [it|] eqn:G.
  - cbn [tJobs tItems tStore tReported] in R. rewrite nth_error_app2 in R by lia. rewrite Nat.sub_diag in R. cbn [nth_error tJobs] in R.
    assert (LS : forall x y, list_set (tJobs s0 ++ [x]) (length (tJobs s0)) y = tJobs s0 ++ [y]).
    { intros x y. clear. induction (tJobs s0) as [|a l IH]; [reflexivity|]. cbn [app length list_set]. rewrite IH. reflexivity. }
    rewrite LS in R. rewrite nth_error_app2 in R by lia. rewrite Nat.sub_diag in R. cbn [nth_error] in R. rewrite LS in R. injection R as <-. cbn [tItems tReported].
    assert (GN : forall k, aget bs_eqb (adel bs_eqb (tItems s0) key) k = if bs_eqb k key then None else aget bs_eqb (tItems s0) k) by (intro k; apply (aget_adel bs_eqb bs_eqb_spec)).
    split; [rewrite GN, bs_eqb_refl; reflexivity|]. split.
    { intros j H. cbn [tJobs] in H. apply in_app_or in H. destruct H as [H|[<-|[]]]; [exact (ID _ H)|left; reflexivity]. }
    split; [reflexivity|]. intros k NE. rewrite GN, (proj2 (bs_eqb_neq k key) NE). split; [reflexivity|]. intro m. unfold live. cbn [tItems].
    rewrite GN, (proj2 (bs_eqb_neq k key) NE). destruct (aget bs_eqb (tItems s0) k) as [i|] eqn:G'; [|reflexivity].
    pose proof (counters_set s0 it [] i (Lt _ _ G)) as CS. unfold counters in CS at 1. cbn [tStore] in CS. unfold counters at 1. cbn [tStore]. rewrite CS.
    destruct (Nat.eqb_spec i it) as [->|]; [|reflexivity]. exfalso. apply NE. exact (Inj _ _ _ G' G).
  - cbn [tJobs] in R. rewrite nth_error_app2 in R by lia. rewrite Nat.sub_diag in R. cbn [nth_error] in R. discriminate.
Qed.
