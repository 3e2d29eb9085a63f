(* AcmdProps.v: C106. *)
From Verif Require Import Base UrlModel UrlSpec UrlProofs AcmdModel AcmdSpec AcmdProofs.

(* The agent waits for its clusters: when it goes on saying they are complete, every one of them has finished, well or by a panic; it goes on
   without them only if the timer has fired; and it never waits for nothing: when the timer has fired, or when all have finished, it can go on. *)
Theorem C106_waits : forall n ops s, iruns (iinit n) ops = Some s ->
  (iMain s = MAll -> iLeft s = []) /\ (iMain s = MTimeout -> iFired s = true) /\
  (iMain s = MWait -> iFired s = true -> exists s', istep s IExpire = Some s' /\ iMain s' = MTimeout) /\
  (iMain s = MWait -> iLeft s = [] -> exists ops' s', iruns s ops' = Some s' /\ iMain s' = MAll /\ iFired s' = iFired s).
Proof.
  intros n ops s H. destruct (waited n ops s H) as (A & B & C & D). repeat split; auto. intros M F. cbn [istep]. rewrite M, F. eexists. split; reflexivity.
Qed.
Print Assumptions C106_waits.

(* a cluster that has not finished is one that no step has finished: nothing is forgotten, whether it panicked or not *)
Theorem C106_left : forall n ops s j, iruns (iinit n) ops = Some s -> (In j (iLeft s) <-> j < n /\ forall p, ~ In (IFinish j p) ops).
Proof.
  intros n ops s j H. assert (G : forall ops s0 s, iruns s0 ops = Some s -> (In j (iLeft s) <-> In j (iLeft s0) /\ forall p, ~ In (IFinish j p) ops)).
  { clear. induction ops as [|o ops IH]; intros s0 s H; cbn [iruns] in H; [injection H as <-; cbn; tauto|].
    destruct (istep s0 o) as [s1|] eqn:E; [|discriminate H]. rewrite (IH s1 s H). clear IH H. destruct o as [i p| | | |]; cbn [istep] in E.
    - destruct (existsb (Nat.eqb i) (iLeft s0)); [|discriminate E]. injection E as <-. cbn [iLeft]. rewrite filter_In, negb_true_iff, Nat.eqb_neq. split.
      + intros [[I N] F]. split; [exact I|]. intros q [X|X]; [injection X as X _; auto|exact (F q X)].
      + intros [I F]. split; [split; [exact I|]|intros q X; apply (F q); right; exact X]. intros ->. apply (F p). left. reflexivity.
    - destruct (iFired s0); [discriminate E|]. injection E as <-. cbn [iLeft]. split; intros [I F]; (split; [exact I|]); intros q X; [destruct X as [X|X]; [discriminate X|exact (F q X)]|apply (F q); right; exact X].
    - destruct (iMain s0); try discriminate E. destruct (iFired s0); [|discriminate E]. injection E as <-. cbn [iLeft]. split; intros [I F]; (split; [exact I|]); intros q X; [destruct X as [X|X]; [discriminate X|exact (F q X)]|apply (F q); right; exact X].
    - destruct (iWaiter s0); try discriminate E. destruct (iLeft s0) eqn:L; [|discriminate E]. injection E as <-. cbn [iLeft]. split; intros [I F]; (split; [exact I|]); intros q X; [destruct X as [X|X]; [discriminate X|exact (F q X)]|apply (F q); right; exact X].
    - destruct (iWaiter s0); try discriminate E. destruct (iMain s0); try discriminate E. injection E as <-. cbn [iLeft]. split; intros [I F]; (split; [exact I|]); intros q X; [destruct X as [X|X]; [discriminate X|exact (F q X)]|apply (F q); right; exact X]. }
  rewrite (G ops (iinit n) s H). unfold iinit. cbn [iLeft]. rewrite in_seq. split; intros [A B]; (split; [lia|exact B]).
Qed.
Print Assumptions C106_left.

Example C106_wait_example :
  (exists s, iruns (iinit 2) [IFinish 1 true; IFinish 0 false; IWake; IHand] = Some s /\ iMain s = MAll /\ iFired s = false) /\
  iruns (iinit 2) [IFinish 1 true; IWake] = None /\ iruns (iinit 2) [IExpire] = None /\
  (exists s, iruns (iinit 0) [IWake; IHand] = Some s /\ iMain s = MAll).
Proof. split; [eexists; split; [reflexivity|split; reflexivity]|]. split; [reflexivity|]. split; [reflexivity|]. eexists. split; reflexivity. Qed.

(* (Refuted: "no goroutine is left when all is done". After a timeout the goroutine that waits for the clusters sends to nobody, for ever.) *)
Theorem C106_leak_refuted : exists s, iruns (iinit 1) [IFire; IExpire; IFinish 0 false; IWake] = Some s /\ iLeft s = [] /\
  forall ops s', iruns s ops = Some s' -> iWaiter s' <> WGone.
Proof. eexists. split; [reflexivity|]. split; [reflexivity|]. intros ops s' H. eapply left_timeout; [| |exact H]; [reflexivity|discriminate]. Qed.
Print Assumptions C106_leak_refuted.

(* (Refuted: "the agent serves only when all its clusters are there".) *)
Theorem C106_missing_refuted : exists s, iruns (iinit 2) [IFinish 0 false; IFire; IExpire] = Some s /\ iMain s = MTimeout /\ iLeft s = [1].
Proof. eexists. split; [reflexivity|]. split; reflexivity. Qed.
Print Assumptions C106_missing_refuted.

(* How long it waits: initClusterTimeout milliseconds, ten seconds if there is no such parameter or it is no number. *)
Theorem C106_timeout : forall u,
  (forall t v, param u (s2b "initClusterTimeout") = Some t -> Strconv.parseInt64 t = (v, Strconv.NumOk) -> (-9223372036854 <= v <= 9223372036854)%Z -> initWait u = (v * 1000000)%Z) /\
  ((forall t v, param u (s2b "initClusterTimeout") = Some t -> Strconv.parseInt64 t <> (v, Strconv.NumOk)) -> initWait u = 10000000000%Z).
Proof.
  intro u. pose proof (init_wait u) as W. unfold int_or, int_param in W. split.
  - intros t v P N R. rewrite P in W. rewrite N in W. rewrite W by lia. lia.
  - intro H. destruct (param u (s2b "initClusterTimeout")) as [t|]; [|rewrite W by lia; reflexivity].
    destruct (Strconv.parseInt64 t) as [v []] eqn:E; [destruct (H t v eq_refl E)|rewrite W by lia; reflexivity|rewrite W by lia; reflexivity].
Qed.
Print Assumptions C106_timeout.
Example C106_timeout_example : initWait (mkUrl [] [] 0 [] [] (Some [(s2b "initClusterTimeout", s2b "250")])) = 250000000%Z /\
  initWait (mkUrl [] [] 0 [] [] (Some [(s2b "initClusterTimeout", s2b "soon")])) = 10000000000%Z.
Proof. split; vm_compute; reflexivity. Qed.

(* Which url is registered where: the agent's own, with the local address if it has none; only if it names a registry, that one is configured and
   the application has an implementation of it. *)
Theorem C106_registers : forall u ip regs ext u' r, registerAgent u ip regs ext = Some (u', r) <->
  exists name, param u (s2b "registry") = Some name /\ regs name = Some r /\ ext r = true /\
    u' = mkUrl (uProtocol u) (if bs_eqb (uHost u) [] then ip else uHost u) (uPort u) (uPath u) (uGroup u) (uParams u).
Proof.
  intros u ip regs ext u' r. unfold registerAgent. rewrite pget_param. split.
  - destruct (param u (s2b "registry")) as [name|]; [|discriminate]. destruct (regs name) as [r0|] eqn:R; [|discriminate]. destruct (ext r0) eqn:E; [|discriminate].
    intro H. injection H as <- <-. exists name. split; [reflexivity|]. split; [exact R|]. split; [exact E|]. destruct (uHost u); reflexivity.
  - intros (name & P & R & E & ->). rewrite P, R, E. destruct (uHost u); reflexivity.
Qed.
Print Assumptions C106_registers.

(* (Refuted: "an agent that names several registries, separated by commas as services do, is registered in them".) *)
Theorem C106_registries_refuted : exists u regs, (forall n, In n [s2b "a"; s2b "b"] -> exists r, regs n = Some r) /\
  param u (s2b "registry") = Some (s2b "a,b") /\ registerAgent u (s2b "10.0.0.1") regs (fun _ => true) = None.
Proof.
  exists (mkUrl (s2b "motan2") [] 9981 [] [] (Some [(s2b "registry", s2b "a,b")])),
    (fun n => if existsb (bs_eqb n) [s2b "a"; s2b "b"] then Some (mkUrl (s2b "zookeeper") n 2181 [] [] None) else None).
  split; [|split; reflexivity]. intros n [<-|[<-|[]]]; eexists; reflexivity.
Qed.
Print Assumptions C106_registries_refuted.

(* Commands. No cluster is told anything but a command that the registry had. *)
Theorem C106_only : forall hs cls c ops s k x, aruns hs (ainit cls c) ops = Some s -> In (k, x) (aTold s) -> x = c \/ In (AChange x) ops.
Proof. exact told_known. Qed.
Print Assumptions C106_only.

(* If the command does not change while the agent registers itself, and no clusters are added later, then for every history of changes and
   every schedule, once all is delivered every cluster was last told the command that the registry has. *)
Theorem C106_current : forall hs cls c a b l s1 s, no_handlers hs -> ~ In ASubscribe a ->
  Forall (fun o => ~ is_change o /\ ~ adds o) b -> Forall (fun o => ~ adds o) l ->
  aruns hs (ainit cls c) (a ++ ASubscribe :: b) = Some s1 -> aPh s1 = RDone -> aruns hs s1 l = Some s -> quiet s ->
  forall k, In k (aCls s) -> last_told (aTold s) k = aReg s.
Proof. exact uptodate. Qed.
Print Assumptions C106_current.

Definition exReg := [ACluster 3; ARegister].
Definition exRead := [ARead; ANotify; ATell false 3; ATell false 1; AEnd false].
Definition exLater := [AChange (s2b "B"); APush; ATell true 1; AChange (s2b "B"); AChange (s2b "C"); ATell true 3; AEnd true; APush; APush; ATell true 3; ADrop 3; ATell true 1; AEnd true].
Example C106_current_example : exists s1 s, aruns [] (ainit [1] (s2b "A")) (exReg ++ ASubscribe :: exRead) = Some s1 /\ aPh s1 = RDone /\
  aruns [] s1 exLater = Some s /\ quiet s /\ aCls s = [1] /\ aReg s = s2b "C" /\
  aTold s = [(1, s2b "C"); (3, s2b "C"); (3, s2b "B"); (1, s2b "B"); (1, s2b "A"); (3, s2b "A")].
Proof.
  eexists. eexists. split; [vm_compute; reflexivity|]. split; [reflexivity|]. split; [vm_compute; reflexivity|]. unfold quiet.
  split; [split; [reflexivity|split; [reflexivity|split; reflexivity]]|]. split; [reflexivity|]. split; reflexivity.
Qed.

(* A notified command that equals the current one changes nothing but the queue: no cluster is told, no handler asked. *)
Theorem C106_repeated : forall hs s r, aPush s = TIdle -> aQueue s = aCur s :: r ->
  exists s', astep hs s APush = Some s' /\ aTold s' = aTold s /\ aServed s' = aServed s /\ aPush s' = TIdle /\ aCur s' = aCur s /\ aQueue s' = r.
Proof. intros hs s r P Q. cbn [astep]. rewrite P, Q. unfold notifyStart. rewrite bs_eqb_refl. eexists. split; [reflexivity|]. cbn. auto. Qed.
Print Assumptions C106_repeated.

(* A new command that some handler serves (or panics on) is told to no cluster. *)
Theorem C106_handled : forall hs s c r pre h post, aPush s = TIdle -> aQueue s = c :: r -> c <> aCur s ->
  hs = pre ++ h :: post -> (forall g, In g pre -> g c = HNo) -> h c <> HNo ->
  exists s' c', astep hs s APush = Some s' /\ aPush s' = TEnd c' /\ aTold s' = aTold s /\ hd_error (aServed s') = Some c /\
    forall k, astep hs s' (ATell true k) = None.
Proof.
  intros hs s c r pre h post P Q N E G Hh. cbn [astep]. rewrite P, Q. unfold notifyStart. rewrite (proj2 (bs_eqb_neq _ _) N).
  pose proof (served_not_told hs c (ex_intro _ pre (ex_intro _ h (ex_intro _ post (conj E (conj G Hh)))))) as S. destruct (runHandlers hs c false) as [c' stop].
  cbn [snd] in S. subst stop. eexists. exists c'. split; [reflexivity|]. cbn [aPush aTold aServed]. split; [reflexivity|]. split; [reflexivity|]. split; [|intro k; reflexivity].
  destruct hs; [destruct pre; discriminate E|reflexivity].
Qed.
Print Assumptions C106_handled.

(* (Refuted: "every cluster knows the agent's command". One that is added later is told nothing until the command changes, ...) *)
Theorem C106_late_refuted : exists ops s, aruns [] (ainit [1] (s2b "A")) ops = Some s /\ quiet s /\ aReg s = s2b "A" /\ In 2 (aCls s) /\ last_told (aTold s) 2 = [].
Proof.
  exists [ARegister; ASubscribe; ARead; ANotify; ATell false 1; AEnd false; ACluster 2; AChange (s2b "A"); APush]. eexists. split; [vm_compute; reflexivity|]. unfold quiet.
  split; [repeat split|]. split; [reflexivity|]. split; [left; reflexivity|reflexivity].
Qed.
Print Assumptions C106_late_refuted.

(* (... and a change while the agent registers itself can be overwritten, for good, by the command that it had read before.) *)
Theorem C106_overtaken_refuted : exists ops s, aruns [] (ainit [1] (s2b "A")) ops = Some s /\ quiet s /\ aReg s = s2b "B" /\ aCls s = [1] /\ last_told (aTold s) 1 = s2b "A" /\ aCur s = s2b "A".
Proof.
  exists [ARegister; ASubscribe; ARead; AChange (s2b "B"); APush; ATell true 1; AEnd true; ANotify; ATell false 1; AEnd false]. eexists. split; [vm_compute; reflexivity|]. unfold quiet.
  split; [repeat split|]. split; [reflexivity|]. split; [reflexivity|]. split; reflexivity.
Qed.
Print Assumptions C106_overtaken_refuted.

(* (Refuted: "a repeated command is ignored": if a handler answers another text, that is what the next command is compared with.) *)
Definition exHandler (c : bs) : hres := HServe (s2b "ok").
Theorem C106_again_refuted : exists ops s, aruns [exHandler] (ainit [1] []) ops = Some s /\ aServed s = [s2b "X"; s2b "X"] /\ aTold s = [] /\ changes ops = [s2b "X"; s2b "X"].
Proof.
  exists [ARegister; ASubscribe; ARead; ANotify; AChange (s2b "X"); APush; AEnd true; AChange (s2b "X"); APush; AEnd true]. eexists.
  split; [vm_compute; reflexivity|]. split; [reflexivity|]. split; reflexivity.
Qed.
Print Assumptions C106_again_refuted.
