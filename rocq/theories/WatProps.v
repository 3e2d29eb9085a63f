(* WatProps.v: subscriptions at the ZooKeeper registry.  C102 *)
From Coq Require Import Lia Sorted.
From Verif Require Import Base WatModel WatSpec WatProofs.
Ltac calm_tac := repeat (cbn [calm_run wstep calm_op]; match goal with
  | |- _ /\ _ => split
  | |- True => exact Logic.I
  | |- any _ => exact Logic.I
  | |- true = true => reflexivity
  | |- None = None -> forall w, In w _ -> _ => let H := fresh in intros _ ? H; vm_compute in H; contradiction
  | |- zLis _ = None -> forall w, In w _ -> _ => let E := fresh in let H := fresh in intros E ? H; vm_compute in E; first [discriminate E | vm_compute in H; contradiction]
  | |- forall b, In b _ -> b = true => let H := fresh in intros ? H; cbn in H; repeat (destruct H as [<- | H]; [reflexivity|]); contradiction
  | |- match wstep ?c ?s ?o with Some _ => _ | None => False end => let x := eval vm_compute in (wstep c s o) in change (wstep c s o) with x; cbv iota
  | |- match ?x with Some _ => _ | None => False end => let y := eval vm_compute in x in change x with y; cbv iota
  end).

(* once the watchers have nothing left to do, a listener has last been told the present nodes *)
Theorem C102_latest : forall cmd s l v0, calm cmd any s -> quiet s -> subscribed s l v0 -> v0 < zVer s -> zNodes s <> [] ->
  exists earlier, told s l = earlier ++ [(zVer s, zNodes s)].
Proof.
  intros cmd s l v0 H Q S0 Hv Hn. destruct (i_latest s (calm_inv cmd any s H) l v0 S0 Hv Hn) as [(w & Hw & A & P)|X]; [|exact X].
  exfalso. destruct (Q w Hw) as [D|[D E]]; [exact (A D)|]. destruct P as [P|(v & c & P)]; congruence.
Qed.
Print Assumptions C102_latest.

(* ... and they get there: no more than three steps for each, and as long as there is something to do one of them can go on *)
Theorem C102_settles : forall cmd s os s', calm cmd any s -> Forall watcher_step os -> wruns cmd s os = Some s' ->
  length os <= 3 * length (zW s) /\ ((exists ls, zLis s = Some ls) -> quiet s' \/ exists o, watcher_step o /\ wstep cmd s' o <> None).
Proof.
  intros cmd s os s' H F R. destruct (settle cmd os s s' (calm_inv cmd any s H) F R) as (V & T & L). pose proof (total_le s). split; [lia|].
  intros (ls & El). rewrite <- L in El. exact (quiet_or cmd s' ls V El).
Qed.
Print Assumptions C102_settles.

(* without reconnection every change is told at most once, and in order *)
Theorem C102_once : forall cmd s l, calm cmd no_reconnect s -> StronglySorted lt (map fst (told s l)).
Proof. intros cmd s l H. exact (o_sort s (calm_inv1 cmd s H) l). Qed.
Print Assumptions C102_once.

(* in all runs: what is told was the content of the node, and is not empty *)
Theorem C102_content : forall cmd ex os s l v c, wruns cmd (winit ex) os = Some s -> In (v, c) (told s l) ->
  c <> [] /\ exists pre post s1, os = pre ++ post /\ wruns cmd (winit ex) pre = Some s1 /\ zExists s1 = true /\ zVer s1 = v /\ zNodes s1 = c.
Proof.
  intros cmd ex os s l v c R H. unfold told in H. apply in_map_iff in H. destruct H as ([k x] & E & H). cbn [snd] in E. subst x. apply filter_In in H.
  exact (proj1 (content_inv cmd ex os s R) k v c (proj1 H)).
Qed.
Print Assumptions C102_content.

(* in all runs: who is not subscribed is not told *)
Theorem C102_silent : forall cmd os s s' l, (forall v0, ~ subscribed s l v0) -> (forall ok, ~ In (OSub l ok) os) -> wruns cmd s os = Some s' -> told s' l = told s l.
Proof.
  intros cmd os s s' l N No R. apply (silent cmd os s s' l No); [|exact R]. intros X. unfold lis_keys in X. destruct (zLis s) as [ls|] eqn:El; [|exact X].
  apply in_map_iff in X. destruct X as ([k v0] & E & X). cbn [fst] in E. subst k. apply (N v0). exists ls. auto.
Qed.
Print Assumptions C102_silent.

(* in all runs: who is subscribed.  A step changes nothing for the listeners it does not name, not even when it is the last one that goes *)
Lemma blocked_empty : forall cmd s o s', (zBlocked s <> None -> zLis s = Some []) -> wstep cmd s o = Some s' -> zBlocked s' <> None -> zLis s' = Some [].
Proof.
  intros cmd s o s' H E N.
  assert (D : forall s1 ok, zBlocked (doSub cmd s1 ok) = zBlocked s1).
  { intros s1 ok. unfold doSub. destruct (negb ok || (negb cmd && negb (zExists s1))); [reflexivity|]. destruct (zSw s1); reflexivity. }
  assert (U : forall oks s1, zBlocked (ups cmd s1 oks) = zBlocked s1).
  { induction oks as [|b r IH]; intros s1; cbn [ups]; [reflexivity|]. rewrite IH. apply D. }
  destruct o; cbn [wstep] in E.
  - destruct (zBlocked s) eqn:B; [discriminate|]. destruct (negb (zAvail s)); [injection E as <-; congruence|].
    destruct (zLis s); injection E as <-; exfalso; apply N; [exact B|]. rewrite D. exact B.
  - destruct (zBlocked s) eqn:B; [discriminate|]. destruct (negb (zAvail s)); [injection E as <-; congruence|].
    destruct (zLis s) as [ls|]; [|injection E as <-; congruence].
    destruct (zSw s); [|injection E as <-; exfalso; apply N; exact B].
    destruct (delLis ls l) eqn:Ed; injection E as <-; [cbn [zLis setBlk setLis]; reflexivity|exfalso; apply N; exact B].
  - destruct (zBlocked s); [|discriminate]. destruct (nth_error (zW s) i) as [w|]; [|discriminate]. destruct (wPh w); try discriminate.
    match type of E with (if ?c then _ else _) = _ => destruct c; [|discriminate] end. injection E as <-. exfalso. apply N. reflexivity.
  - destruct (zBlocked s); [|discriminate]. match type of E with (if ?c then _ else _) = _ => destruct c; [|discriminate] end. injection E as <-. exfalso. apply N. reflexivity.
  - destruct (zExists s); [|discriminate]. injection E as <-. exact (H N).
  - destruct (zExists s); [discriminate|]. injection E as <-. exact (H N).
  - destruct (zExists s); [|discriminate]. injection E as <-. exact (H N).
  - injection E as <-. exact (H N).
  - destruct (zAvail s); [discriminate|]. injection E as <-. exact (H N).
  - destruct (zBlocked s) eqn:B; [discriminate|]. destruct (zAvail s); [discriminate|].
    match type of E with (if ?c then _ else _) = _ => destruct c; [|discriminate] end. injection E as <-. exfalso. apply N. rewrite U. exact B.
  - destruct (nth_error (zW s) i) as [w|]; [|discriminate]. destruct (wPh w), (wCh w); try discriminate; injection E as <-; exact (H N).
  - destruct (nth_error (zW s) i) as [w|]; [|discriminate]. destruct (wPh w); try discriminate; injection E as <-; exact (H N).
  - destruct (nth_error (zW s) i) as [w|]; [|discriminate]. destruct (wPh w); try discriminate.
    match type of E with (if ?c then _ else _) = _ => destruct c end; injection E as <-; exact (H N).
  - destruct (nth_error (zW s) i) as [w|]; [|discriminate]. destruct (wPh w); try discriminate; injection E as <-; exact (H N).
  - destruct (nth_error (zW s) i) as [w|]; [|discriminate]. destruct (wPh w); try discriminate.
    match type of E with (if ?c then _ else _) = _ => destruct c; [|discriminate] end; injection E as <-; exact (H N).
Qed.
Lemma runs_blocked : forall cmd os s s', (zBlocked s <> None -> zLis s = Some []) -> wruns cmd s os = Some s' -> zBlocked s' <> None -> zLis s' = Some [].
Proof.
  intros cmd. induction os as [|o r IH]; intros s s' H R; cbn [wruns] in R; [injection R as <-; exact H|].
  destruct (wstep cmd s o) as [s1|] eqn:E; [|discriminate]. exact (IH s1 s' (blocked_empty cmd s o s1 H E) R).
Qed.
Theorem C102_subscribers : forall cmd ex os s o s', wruns cmd (winit ex) os = Some s -> wstep cmd s o = Some s' ->
  (forall l v, (forall ok, o <> OSub l ok) -> (subscribed s' l v <-> subscribed s l v /\ (o = OUnsub l -> zAvail s = false))) /\
  (forall l ok, o = OSub l ok -> if zAvail s then forall v, subscribed s' l v <-> v = zVer s else s' = s).
Proof.
  intros cmd ex os s o s' R E.
  assert (B : zBlocked s <> None -> zLis s = Some []). { apply (runs_blocked cmd os (winit ex) s); [|exact R]. intros X. exfalso. apply X. reflexivity. }
  assert (K : zLis s' = zLis s -> (forall l ok, o <> OSub l ok) -> (forall l, o <> OUnsub l) ->
    (forall l v, (forall ok, o <> OSub l ok) -> (subscribed s' l v <-> subscribed s l v /\ (o = OUnsub l -> zAvail s = false))) /\
    (forall l ok, o = OSub l ok -> if zAvail s then forall v, subscribed s' l v <-> v = zVer s else s' = s)).
  { intros L N1 N2. split.
    - intros l v _. unfold subscribed. rewrite L. split; [intros X; split; [exact X|intros Y; exfalso; exact (N2 l Y)]|intros [X _]; exact X].
    - intros l ok X. exfalso. exact (N1 l ok X). }
  destruct o; cbn [wstep] in E; lazymatch goal with |- context [OSend _] => idtac | _ => try (apply K; [|intros; discriminate|intros; discriminate]) end.
  - split.
    + intros l' v N. assert (Nl : l' <> l) by (intros ->; exact (N ok eq_refl)).
      assert (G : forall P : Prop, (P <-> subscribed s l' v) -> (P <-> subscribed s l' v /\ (OSub l ok = OUnsub l' -> zAvail s = false))).
      { intros P HP. rewrite HP. split; [intros X; split; [exact X|discriminate]|intros [X _]; exact X]. }
      apply G. clear G. destruct (zBlocked s); [discriminate|]. destruct (negb (zAvail s)); [injection E as <-; reflexivity|].
      unfold subscribed. destruct (zLis s) as [ls|] eqn:El; injection E as <-.
      * cbn [zLis setLis]. split; intros (x & X & Y); injection X as <-.
        -- exists ls. split; [reflexivity|]. unfold addLis in Y. apply in_app_or in Y. destruct Y as [Y|[Y|[]]]; [apply filter_In in Y; exact (proj1 Y)|congruence].
        -- eexists. split; [reflexivity|]. unfold addLis. apply in_or_app. left. apply filter_In. split; [exact Y|]. cbn [fst].
           destruct (Nat.eqb_spec l' l); [contradiction|reflexivity].
      * rewrite (proj1 (doSub_keeps cmd _ ok)). cbn [zLis setLis]. split; intros (x & X & Y); [injection X as <-; destruct Y as [Y|[]]; congruence|discriminate].
    + intros l' ok' X. injection X as <- <-. destruct (zBlocked s); [discriminate|]. destruct (zAvail s); cbn [negb] in E; [|injection E as <-; reflexivity].
      intros v. unfold subscribed. destruct (zLis s) as [ls|] eqn:El; injection E as <-.
      * cbn [zLis setLis]. split.
        -- intros (x & X & Y). injection X as <-. unfold addLis in Y. apply in_app_or in Y. destruct Y as [Y|[Y|[]]]; [|congruence].
           apply filter_In in Y. cbn [fst] in Y. rewrite Nat.eqb_refl in Y. destruct Y; discriminate.
        -- intros ->. eexists. split; [reflexivity|]. apply in_or_app. right. left. reflexivity.
      * rewrite (proj1 (doSub_keeps cmd _ ok)). cbn [zLis setLis]. split; [intros (x & X & Y); injection X as <-; destruct Y as [Y|[]]; congruence|].
        intros ->. eexists. split; [reflexivity|]. left. reflexivity.
  - split; [|intros l' ok X; discriminate]. intros l' v _.
    destruct (zBlocked s); [discriminate|]. destruct (zAvail s); cbn [negb] in E.
    + assert (Z : subscribed s' l' v <-> exists ls, zLis s = Some ls /\ In (l', v) (delLis ls l)).
      { unfold subscribed. destruct (zLis s) as [ls|] eqn:El.
        - assert (El' : zLis s' = Some (delLis ls l)).
          { destruct (zSw s); [|injection E as <-; reflexivity]. destruct (delLis ls l) eqn:Ed; injection E as <-; reflexivity. }
          rewrite El'. split; intros (x & X & Y); injection X as <-; eexists; (split; [reflexivity|exact Y]).
        - injection E as <-. rewrite El. split; intros (x & X & _); discriminate. }
      rewrite Z. unfold subscribed. split.
      * intros (ls & X & Y). unfold delLis in Y. apply filter_In in Y. destruct Y as [Y Q]. cbn [fst] in Q. split; [exists ls; auto|].
        intros W. injection W as <-. rewrite Nat.eqb_refl in Q. discriminate.
      * intros [(ls & X & Y) Q]. exists ls. split; [exact X|]. unfold delLis. apply filter_In. split; [exact Y|]. cbn [fst].
        destruct (Nat.eqb_spec l' l) as [->|]; [discriminate (Q eq_refl)|reflexivity].
    + injection E as <-. split; [intros X; split; [exact X|reflexivity]|intros [X _]; exact X].
  - split; [|intros l' ok X; discriminate]. intros l' v _.
    destruct (zBlocked s) as [c|]; [|discriminate]. specialize (B ltac:(discriminate)). destruct (nth_error (zW s) i) as [w|]; [|discriminate]. destruct (wPh w); try discriminate.
    match type of E with (if ?c then _ else _) = _ => destruct c; [|discriminate] end. injection E as <-. unfold subscribed. cbn [zLis setBlk setLis]. rewrite B.
    split; [intros (x & X & _); discriminate|intros [(x & X & Y) _]; injection X as <-; contradiction].
  - destruct (zBlocked s); [|discriminate]. match type of E with (if ?c then _ else _) = _ => destruct c; [|discriminate] end. injection E as <-. reflexivity.
  - destruct (zExists s); [|discriminate]. injection E as <-. reflexivity.
  - destruct (zExists s); [discriminate|]. injection E as <-. reflexivity.
  - destruct (zExists s); [|discriminate]. injection E as <-. reflexivity.
  - injection E as <-. reflexivity.
  - destruct (zAvail s); [discriminate|]. injection E as <-. reflexivity.
  - destruct (zBlocked s); [discriminate|]. destruct (zAvail s); [discriminate|].
    match type of E with (if ?c then _ else _) = _ => destruct c; [|discriminate] end. injection E as <-. rewrite (proj1 (ups_keeps cmd oks _)). reflexivity.
  - destruct (nth_error (zW s) i) as [w|]; [|discriminate]. destruct (wPh w), (wCh w); try discriminate; injection E as <-; reflexivity.
  - destruct (nth_error (zW s) i) as [w|]; [|discriminate]. destruct (wPh w); try discriminate; injection E as <-; reflexivity.
  - destruct (nth_error (zW s) i) as [w|]; [|discriminate]. destruct (wPh w); try discriminate.
    match type of E with (if ?c then _ else _) = _ => destruct c end; injection E as <-; reflexivity.
  - destruct (nth_error (zW s) i) as [w|]; [|discriminate]. destruct (wPh w); try discriminate; injection E as <-; reflexivity.
  - destruct (nth_error (zW s) i) as [w|]; [|discriminate]. destruct (wPh w); try discriminate.
    match type of E with (if ?c then _ else _) = _ => destruct c; [|discriminate] end; injection E as <-; reflexivity.
Qed.
Print Assumptions C102_subscribers.
Example C102_subscribers_example : exists s s', wruns false (winit true) [OSub 1 true; OSub 2 true; OSub 3 true] = Some s /\ wstep false s (OUnsub 2) = Some s' /\
  zLis s' = Some [(1, 0); (3, 0)].
Proof. do 2 eexists. repeat split. Qed.

(* taking out the last listener ends: at most one notification before a watcher takes the message *)
Theorem C102_unsubscribe : forall cmd s c, calm cmd any s -> zBlocked s = Some c ->
  exists i os s', (os = [OSend i] \/ os = [ONotify i; OSend i]) /\ wruns cmd s os = Some s' /\ zBlocked s' = None /\ zLis s' = None.
Proof. intros cmd s c H B. exact (unblock cmd s c (calm_inv cmd any s H) B). Qed.
Print Assumptions C102_unsubscribe.

(* Findings.
   A service that is not there when it is first subscribed is not watched, then or later. *)
Definition n1 : list bs := [s2b "10.0.0.1:8002"].
Definition n2 : list bs := [s2b "10.0.0.1:8002"; s2b "10.0.0.2:8002"].
Theorem C102_missing_node_refuted : exists s, wruns false (winit false) [OSub 1 true; OCreate; OChange n1; OSub 2 true; OChange n2] = Some s /\
  quiet s /\ subscribed s 1 0 /\ subscribed s 2 1 /\ zVer s = 2 /\ zNodes s = n2 /\ zLog s = [] /\ zW s = [].
Proof.
  eexists. split; [reflexivity|]. split; [intros w []|]. split; [eexists; split; [reflexivity|left; reflexivity]|]. split; [eexists; split; [reflexivity|right; left; reflexivity]|]. repeat split.
Qed.
Print Assumptions C102_missing_node_refuted.

(* Subscribing again while the earlier watcher is ending: the new watcher gets the old channel and ends too. *)
Theorem C102_resubscribe_refuted : exists s, wruns false (winit true) [OSub 1 true; OUnsub 1; OSend 0; OSub 2 true; OClose 0; ODel 0; OSwitch 1; OClose 1; OChange n1] = Some s /\
  subscribed s 2 0 /\ zVer s = 1 /\ zNodes s = n1 /\ zLog s = [] /\ (forall w, In w (zW s) -> wPh w = PDead).
Proof.
  eexists. split; [vm_compute; reflexivity|]. split; [eexists; split; [reflexivity|left; reflexivity]|]. split; [reflexivity|]. split; [reflexivity|]. split; [reflexivity|]. intros w [<-|[<-|[]]]; reflexivity.
Qed.
Print Assumptions C102_resubscribe_refuted.

(* A change that happens while the session is lost is not told after it is back. *)
Theorem C102_lost_session_refuted : exists s, wruns false (winit true) [OSub 1 true; ODown; OExpire; OEvent 0 true; OChange n1; OUp [true]] = Some s /\
  quiet s /\ subscribed s 1 0 /\ zVer s = 1 /\ zNodes s = n1 /\ zLog s = [].
Proof.
  eexists. split; [vm_compute; reflexivity|]. split; [intros w [<-|[<-|[]]]; cbn; auto|]. split; [eexists; split; [reflexivity|left; reflexivity]|]. repeat split.
Qed.
Print Assumptions C102_lost_session_refuted.

(* After a short loss of the connection each change is told once more for every listener. *)
Theorem C102_duplicate_refuted : exists s, wruns false (winit true) [OSub 1 true; OSub 2 true; ODown; OUp [true; true]; OChange n1; OEvent 0 true; ONotify 0; OEvent 1 true; ONotify 1; OEvent 2 true; ONotify 2] = Some s /\
  calm false any s /\ told s 1 = [(1, n1); (1, n1); (1, n1)].
Proof.
  eexists. split; [vm_compute; reflexivity|]. split; [|reflexivity].
  apply (calm_runs false any [OSub 1 true; OSub 2 true; ODown; OUp [true; true]; OChange n1; OEvent 0 true; ONotify 0; OEvent 1 true; ONotify 1; OEvent 2 true; ONotify 2] (winit true)); [apply calm_init| |vm_compute; reflexivity]. calm_tac.
Qed.
Print Assumptions C102_duplicate_refuted.

(* If the registry does not answer when the session is back, Unsubscribe waits for ever, and holds the lock. *)
Theorem C102_unsubscribe_refuted : exists s, wruns false (winit true) [OSub 1 true; ODown; OExpire; OEvent 0 true; OUp [false]; OUnsub 1] = Some s /\
  forall os s', wruns false s os = Some s' -> zBlocked s' <> None /\ forall l ok, wstep false s' (OSub l ok) = None /\ wstep false s' (OUnsub l) = None.
Proof.
  eexists. split; [vm_compute; reflexivity|]. intros os s' R. assert (B : zBlocked s' = Some 0). { apply (stuck false os _ s' 0) in R; [exact R|reflexivity|intros []|]. intros w [<-|[]]. reflexivity. }
  rewrite B. split; [discriminate|]. intros l ok. cbn [wstep]. rewrite B. split; reflexivity.
Qed.
Print Assumptions C102_unsubscribe_refuted.

(* A failed read after an event: the watcher never waits again (its channel is closed, so it always receives) and never notifies. *)
Theorem C102_spin_refuted : exists s, wruns false (winit true) [OSub 1 true; OChange n1; OEvent 0 false] = Some s /\
  (forall ok, wstep false s (OEvent 0 ok) = Some s) /\
  forall os s', wruns false s os = Some s' -> exists w, nth_error (zW s') 0 = Some w /\ wCh w = Drained /\ forall v c, wPh w <> PNotify v c.
Proof.
  eexists. split; [vm_compute; reflexivity|]. split; [reflexivity|]. intros os s' R.
  match type of R with wruns _ ?s _ = _ => destruct (drained false os s s' 0 (mkWat Drained PWait 0) eq_refl eq_refl (or_introl eq_refl) R) as (w & N & E & P) end. exists w. split; [exact N|]. split; [exact E|]. intros v c Q. destruct P as [P|[P|[P|P]]]; congruence.
Qed.
Print Assumptions C102_spin_refuted.

Example C102_example : exists s, wruns true (winit true) [OSub 1 true; OChange n1; OEvent 0 true; OSub 2 true; OChange n2; ONotify 0; OEvent 0 true; ONotify 0] = Some s /\
  calm true no_reconnect s /\ calm true any s /\ quiet s /\ subscribed s 1 0 /\ subscribed s 2 1 /\ told s 1 = [(1, n1); (2, n2)] /\ told s 2 = [(1, n1); (2, n2)].
Proof.
  eexists. split; [vm_compute; reflexivity|].
  assert (C : forall ok : wop -> Prop, (forall o, no_reconnect o -> ok o) -> calm true ok (mkW true n2 2 true (Some [(1, 0); (2, 1)]) (Some 0) [] 1 [mkWat Armed PWait 0] None [(1, (1, n1)); (2, (1, n1)); (1, (2, n2)); (2, (2, n2))])).
  { intros ok Hok. apply (calm_runs true ok [OSub 1 true; OChange n1; OEvent 0 true; OSub 2 true; OChange n2; ONotify 0; OEvent 0 true; ONotify 0] (winit true)); [apply calm_init| |vm_compute; reflexivity]. calm_tac; apply Hok; exact Logic.I. }
  split; [apply C; auto|]. split; [apply C; intros; exact Logic.I|]. split; [intros w [<-|[]]; cbn; auto|].
  split; [eexists; split; [reflexivity|left; reflexivity]|]. split; [eexists; split; [reflexivity|right; left; reflexivity]|]. split; reflexivity.
Qed.
Example C102_example_unsubscribe : exists s, wruns false (winit true) [OSub 1 true; ODown; OUp [true]; OChange n1; OEvent 1 true; OUnsub 1] = Some s /\ calm false any s /\ zBlocked s = Some 0.
Proof.
  eexists. split; [vm_compute; reflexivity|]. split; [|reflexivity].
  apply (calm_runs false any [OSub 1 true; ODown; OUp [true]; OChange n1; OEvent 1 true; OUnsub 1] (winit true)); [apply calm_init| |vm_compute; reflexivity]. calm_tac.
Qed.
