(* RepProps.v: C108, the metrics reporter's start, its writers, the status samplers, the panic counter and removed items. *)
From Coq Require Import Permutation Lia.
From Verif Require Import Base UrlModel UrlSpec MetricModel RepModel RepSpec RepProofs.
Local Open Scope Z_scope.

(* the first start decides: the seconds between two reports, the number of event loops, one sink, the application; later ones change nothing *)
Theorem C108_settings (cap : nat) (os : list rop) (s : rst) : rruns cap rinit os = Some s -> fits_first os ->
  match first_start os with
  | Some (c, a) => rInterval s = seconds_of c * 1000000000 /\ rLoops s = loops_of c /\ rSinks s = 1 /\ rApp s = app_of a
  | None => rLoops s = 0 /\ rSinks s = 0 /\ rApp s = None
  end /\ rDead s = false.
Proof.
  intros R HF. pose proof (run_settings cap os rinit s init_not_set HF R) as K. destruct (first_start os) as [[c a]|]; unfold set_as, not_set in K; tauto.
Qed.
Print Assumptions C108_settings.
Definition exU : url := mkUrl (s2b "motan2") (s2b "h") 9981 (s2b "") (s2b "") (Some [(s2b "application", s2b "app1")]).
Definition exC : mconf := mkMconf 10 4 [(s2b "h1", 8125, s2b "g1"); (s2b "h2", 8125, s2b "g1"); (s2b "h3", 8125, s2b "")].
Example C108_settings_ex : exists s, rruns 3 rinit [ORegister (s2b "cpu") 0; OStart (Some exC) (Some exU); OStart None None] = Some s /\
  fits_first [ORegister (s2b "cpu") 0; OStart (Some exC) (Some exU); OStart None None] /\
  rInterval s = 10000000000 /\ rLoops s = 4 /\ rApp s = Some (s2b "app1") /\ rWriters s = [(s2b "g1", WGraphite (s2b "h2") 8125)].
Proof. eexists. split; [vm_compute; reflexivity|]. split; [unfold fits_first, fits; cbn; lia|]. repeat split. Qed.

(* refuted: every period is kept.  9223372037 s make an interval below zero, and the process ends; 18446744074 s make one of 0.29 s *)
Theorem C108_period_refuted :
  (exists s, rruns 3 rinit [OStart (Some (mkMconf 9223372037 1 [])) None] = Some s /\ rDead s = true) /\
  (exists s, rruns 3 rinit [OStart (Some (mkMconf 18446744074 1 [])) None] = Some s /\ rDead s = false /\ rInterval s = 290448384).
Proof. split; eexists; (split; [vm_compute; reflexivity|]); repeat split. Qed.
Print Assumptions C108_period_refuted.
(* refuted: an agent's panics are counted.  Where a client of the same process started the reporter first they are not *)
Theorem C108_first_refuted : exists s, rruns 3 rinit [OStart None None; OStart (Some exC) (Some exU); OPanic] = Some s /\
  rOffered s = [] /\ forall order val, rstep 3 s (OSample order val) = None.
Proof. eexists. split; [vm_compute; reflexivity|]. split; [reflexivity|]. intros. reflexivity. Qed.
Print Assumptions C108_first_refuted.

(* a name has the writer offered last for it: of the first start's configuration or by AddWriter; the empty name has none *)
Theorem C108_writers (cap : nat) (os : list rop) (s : rst) : rruns cap rinit os = Some s ->
  (forall n, n <> [] -> aget bs_eqb (rWriters s) n = latest n (offered false os)) /\ (forall w, ~ In ([], w) (rWriters s)).
Proof.
  intro R. split.
  - intros n H. rewrite (run_writers cap n H os rinit s R). cbn [rinit rOnce rWriters aget]. destruct (latest n (offered false os)); reflexivity.
  - exact (no_empty_name cap os rinit s (fun w H => H) R).
Qed.
Print Assumptions C108_writers.
Example C108_writers_ex : latest (s2b "g1") (offered false [OStart (Some exC) None; OWriter (s2b "x") (Some (WOwn 1))]) = Some (WGraphite (s2b "h2") 8125).
Proof. reflexivity. Qed.
(* a report goes to every writer once, whichever of them answer errors *)
Theorem C108_report (cap : nat) (s s' : rst) (snaps : list snap) (order : list (bs * writer)) (res : writer -> wrote) :
  rstep cap s (OSink snaps order res) = Some s' -> Permutation order (rWriters s) -> snaps <> [] ->
  (forall n w, In (n, w) (rWriters s) -> res w <> WPanic) ->
  exists new, rLog s' = rLog s ++ new /\ Permutation new (map (fun x : bs * writer => (x, snaps)) (rWriters s)) /\ rBus s' = rBus s /\ rOffered s' = rOffered s.
Proof. exact (sink_all cap s snaps order res s'). Qed.
Print Assumptions C108_report.
Definition exSnap : snap := mkSnap (s2b "g") [] (s2b "s") true [(s2b "a:b:c", MCounter 3)].
Example C108_report_ex : exists s s', rruns 3 rinit [OWriter (s2b "a") (Some (WOwn 1)); OWriter (s2b "b") (Some (WOwn 2)); OStart None None] = Some s /\
  rstep 3 s (OSink [exSnap] (rev (rWriters s)) (fun w => match w with WOwn 1 => WErr | _ => WOk end)) = Some s' /\
  rLog s' = [(s2b "b", WOwn 2, [exSnap]); (s2b "a", WOwn 1, [exSnap])].
Proof. eexists. eexists. split; [vm_compute; reflexivity|]. split; vm_compute; reflexivity. Qed.
(* refuted: a writer that panics costs the others nothing *)
Theorem C108_writer_panic_refuted : exists s s', rruns 3 rinit [OWriter (s2b "a") (Some (WOwn 1)); OWriter (s2b "b") (Some (WOwn 2)); OStart None None] = Some s /\
  rstep 3 s (OSink [exSnap] (rWriters s) (fun w => match w with WOwn 1 => WPanic | _ => WOk end)) = Some s' /\
  forall snaps, ~ In (s2b "b", WOwn 2, snaps) (rLog s').
Proof.
  eexists. eexists. split; [vm_compute; reflexivity|]. split; [vm_compute; reflexivity|]. intros sn [H|[]]. discriminate.
Qed.
Print Assumptions C108_writer_panic_refuted.

(* a key has the sampler registered last for it, until it is unregistered *)
Theorem C108_samplers (cap : nat) (os : list rop) (s : rst) (k : bs) : rruns cap rinit os = Some s -> aget bs_eqb (rSamplers s) k = sampler_at k os None.
Proof. exact (run_samplers cap k os rinit s). Qed.
Print Assumptions C108_samplers.
(* a tick of an agent offers one gauge for every sampler, under group motan-stat, service status, role motan-agent and the agent's application *)
Theorem C108_samples (cap : nat) (os : list rop) (s s' : rst) (order : list (bs * nat)) (val : nat -> sampled) (v : nat -> Z) :
  rruns cap rinit os = Some s -> fits_first os -> rstep cap s (OSample order val) = Some s' -> Permutation order (rSamplers s) ->
  (forall k f, In (k, f) (rSamplers s) -> val f = SValue (v f)) ->
  exists c u evs, first_start os = Some (c, Some u) /\
    Permutation evs (map (gauge_of (str_or u (s2b "application") (s2b "unknown")) v) (rSamplers s)) /\
    rOffered s' = rOffered s ++ evs /\ ((length (rBus s) + length (rSamplers s) <= cap)%nat -> rBus s' = rBus s ++ evs).
Proof.
  intros R HF E P H. destruct (rApp s) as [app|] eqn:A.
  - destruct (app_from cap os s app HF R A) as (c & u & F & EA). destruct (tick cap s order val v s' app E A P H) as (evs & P' & O & _ & B).
    exists c, u, evs. subst app. repeat split; assumption.
  - unfold rstep in E. rewrite A in E. destruct (rDead s); discriminate.
Qed.
Print Assumptions C108_samples.
Example C108_samples_ex : exists s s', rruns 9 rinit [ORegister (s2b "cpu") 0; ORegister (s2b "memory") 1; OStart None (Some exU)] = Some s /\
  rstep 9 s (OSample (rSamplers s) (fun f => SValue (Z.of_nat f + 5))) = Some s' /\
  map (fun e => metricKey (evKeys e) (evKeySuffix e)) (rBus s') = [s2b "motan-agent:app1:cpu"; s2b "motan-agent:app1:memory"].
Proof. eexists. eexists. split; [vm_compute; reflexivity|]. split; vm_compute; reflexivity. Qed.
(* refuted: a sampler that panics costs the others nothing; and one that registers a sampler itself stops all of them for good *)
Theorem C108_sampler_panic_refuted : exists s s', rruns 9 rinit [ORegister (s2b "cpu") 0; ORegister (s2b "memory") 1; OStart None (Some exU)] = Some s /\
  rstep 9 s (OSample (rSamplers s) (fun f => match f with O => SPanic | _ => SValue 7 end)) = Some s' /\ rOffered s' = [panic_event (s2b "app1")].
Proof. eexists. eexists. split; [vm_compute; reflexivity|]. split; vm_compute; reflexivity. Qed.
Print Assumptions C108_sampler_panic_refuted.
Theorem C108_sampler_registers_refuted : exists s s', rruns 9 rinit [ORegister (s2b "cpu") 0; OStart None (Some exU)] = Some s /\
  rstep 9 s (OSample (rSamplers s) (fun _ => SRegisters)) = Some s' /\
  forall k f order val, rstep 9 s' (ORegister k f) = None /\ rstep 9 s' (OUnregister k) = None /\ rstep 9 s' (OSample order val) = None.
Proof. eexists. eexists. split; [vm_compute; reflexivity|]. split; [vm_compute; reflexivity|]. intros. repeat split. Qed.
Print Assumptions C108_sampler_registers_refuted.

(* every panic recovered offers one count in an agent, none elsewhere *)
Theorem C108_panics (cap : nat) (os : list rop) (s : rst) : rruns cap rinit os = Some s -> fits_first os ->
  exists s', rstep cap s OPanic = Some s' /\
  rOffered s' = rOffered s ++ match first_start os with Some (_, Some u) => [panic_event (str_or u (s2b "application") (s2b "unknown"))] | _ => [] end.
Proof.
  intros R HF. destruct (panic_step cap s (not_dead cap os s HF R)) as (s' & E & O). exists s'. split; [exact E|]. rewrite O. f_equal.
  pose proof (run_settings cap os rinit s init_not_set HF R) as K. destruct (first_start os) as [[c [u|]]|].
  - destruct K as (_ & _ & _ & _ & -> & _). reflexivity.
  - destruct K as (_ & _ & _ & _ & -> & _). reflexivity.
  - destruct K as (_ & _ & _ & _ & _ & -> & _). reflexivity.
Qed.
Print Assumptions C108_panics.

(* from a moment at which no removal of items is under way, and until one begins, no event is lost: what was added is in the item, in a report
   or on its way to the item *)
Theorem C108_items (os0 os : list itop) (s0 s : itst) (key metric : bs) : itruns itinit os0 = Some s0 -> settled s0 ->
  (forall o, In o os -> ~ removes o) -> itruns s0 os = Some s ->
  same64 (live s key metric + reported s key metric + coming s key metric)
         (live s0 key metric + reported s0 key metric + coming s0 key metric + added os key metric).
Proof. exact (kept os0 s0 os s key metric). Qed.
Print Assumptions C108_items.
Definition exK : bs := s2b "gs".
Definition exM : bs := s2b "r:a:m.total_count".
Example C108_items_ex : exists s0 s, itruns itinit [IEvent exK exM 2; IRemove exK; IStep 1; IStep 1; IStep 0] = Some s0 /\ settled s0 /\
  itruns s0 [IEvent exK exM 3; IStep 2; IReport exK; IEvent exK exM 4] = Some s /\ live s exK exM = 0 /\ reported s exK exM = 3 /\ coming s exK exM = 4.
Proof.
  eexists. eexists. split; [vm_compute; reflexivity|]. split; [intros j H; cbn in H; repeat (destruct H as [<-|H]; [exact (fun f => f)|]); destruct H|]. split; [vm_compute; reflexivity|]. repeat split.
Qed.
(* removing an item while nothing else happens: it is gone, and the others are as they were *)
Theorem C108_removed (os0 : list itop) (s0 s : itst) (key : bs) : itruns itinit os0 = Some s0 -> idle s0 ->
  itruns s0 [IRemove key; IStep (length (tJobs s0)); IStep (length (tJobs s0))] = Some s ->
  aget bs_eqb (tItems s) key = None /\ idle s /\ tReported s = tReported s0 /\
  forall k, k <> key -> aget bs_eqb (tItems s) k = aget bs_eqb (tItems s0) k /\ forall m, live s k m = live s0 k m.
Proof. exact (removed os0 s0 key s). Qed.
Print Assumptions C108_removed.
Example C108_removed_ex : exists s0 s, itruns itinit [IEvent exK exM 2; IStep 0] = Some s0 /\ idle s0 /\
  itruns s0 [IRemove exK; IStep (length (tJobs s0)); IStep (length (tJobs s0))] = Some s /\ live s0 exK exM = 2 /\ live s exK exM = 0.
Proof. eexists. eexists. split; [vm_compute; reflexivity|]. split; [intros j [<-|[]]; left; reflexivity|]. split; [vm_compute; reflexivity|]. split; reflexivity. Qed.
(* refuted: an event that begins after an item was removed is not lost.  Two removals at once: the second takes the item made since *)
Theorem C108_removed_refuted : exists s, itruns itinit
    [IEvent exK exM 2; IStep 0; IRemove exK; IRemove exK; IStep 1; IStep 1; (* the first removal is over *) IEvent exK exM 5; IStep 3; IStep 2; IStep 2] = Some s /\
  idle s /\ live s exK exM + reported s exK exM + coming s exK exM = 0 /\ itstep s (IReport exK) = None /\ counters s 1 = [(exM, 5)].
Proof.
  eexists. split; [vm_compute; reflexivity|]. split; [intros j H; cbn in H; repeat (destruct H as [<-|H]; [left; reflexivity|]); destruct H|]. repeat split.
Qed.
Print Assumptions C108_removed_refuted.
