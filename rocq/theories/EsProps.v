(* EsProps.v: an endpoint's settings, the address it dials, and what its background periods decide (C115). *)
From Coq Require Import Lia.
From Verif Require Import Base Strconv GoStrings GoStrings2 UrlModel UrlSpec EpModel EpSpec EpProps PoolModel EsModel EsSpec EsProofs.

(* ================= C115 ================= *)
(* Every setting is the value the URL gives for it, and its default when the URL gives none or one that cannot be used. *)
Theorem C115_settings : forall u stored,
  let st := initialize u stored in
  sDial st = millis_or u (s2b "connectTimeout") 1000 /\
  sRetry st = millis_or u (s2b "connectRetryInterval") 60000 /\
  sThreshold st = int_or u (s2b "errorCountThreshold") 10 /\
  sKeepalive st = millis_or u (s2b "keepaliveInterval") 1000 /\
  tReq (sTimes st) = if_positive (int_or u (s2b "requestTimeout") 1000) 1000 /\
  tMin (sTimes st) = int_or u (s2b "minRequestTimeout") 0 /\
  tMax (sTimes st) = int_or u (s2b "maxRequestTimeout") 0 /\
  sConns st = if_positive (int_or u (s2b "clientConnection") 3) 3 /\
  sMaxLen st = if_positive (int_or u (s2b "maxContentLength") 10485760) 10485760 /\
  sLazy st = truth_or u (s2b "lazyInit") false /\
  sAsync st = truth_or u (s2b "asyncInitConnection") (match stored with Some b => b | None => true end) /\
  sGzip st = int_or u (s2b "mingzSize") 0.
Proof.
  intros u stored. cbv zeta. unfold initialize. cbn [sDial sRetry sThreshold sKeepalive sTimes sConns sMaxLen sLazy sAsync sGzip].
  unfold initTimeouts. cbn [tReq tMin tMax]. rewrite !millis, !truths, !ints, !RateProofs.posInt_fresh, !EpProofs.intOrZero_int_or. repeat split; reflexivity.
Qed.
Print Assumptions C115_settings.
(* A unix socket is dialled by its path, anything else as host:port, both with the URL's connect timeout. *)
Theorem C115_dial : forall u stored,
  let timeout := millis_or u (s2b "connectTimeout") 1000 in
  (forall path, uHost u = s2b "unix://" ++ path -> dialArgs u (initialize u stored) = (s2b "unix", path, timeout)) /\
  ((forall path, uHost u <> s2b "unix://" ++ path) ->
     dialArgs u (initialize u stored) = (s2b "tcp", uHost u ++ s2b ":" ++ fmtZ (uPort u), timeout)).
Proof.
  intros u stored. cbv zeta. destruct (C115_settings u stored) as [E _]. cbv zeta in E. destruct (dials u (initialize u stored)) as [A B]. rewrite E in A, B. split; assumption.
Qed.
Print Assumptions C115_dial.

(* With a positive retry period an endpoint that is still connecting comes up with the first attempt in which as many dials
   as the URL asks connections for succeed (or at once, if connections are made lazily); an attempt that fails changes nothing. *)
Theorem C115_connects : forall u stored s tried conns,
  let n := Z.to_nat (if_positive (int_or u (s2b "clientConnection") 3) 3) in
  (0 < millis_or u (s2b "connectRetryInterval") 60000)%Z -> eInit s = IConn ->
  (truth_or u (s2b "lazyInit") false = true \/ n_connect n conns ->
     exists s', wruns (initialize u stored) (s, tried) [WTry conns; WBase OInit] = Some (s', true) /\ eAvail s' = true /\ eChans s' = true) /\
  (truth_or u (s2b "lazyInit") false = false -> ~ n_connect n conns ->
     wstep (initialize u stored) (s, tried) (WTry conns) = Some (s, true)).
Proof.
  intros u stored s tried conns n R I0. subst n.
  pose proof (C115_settings u stored) as (_ & E1 & _ & _ & _ & _ & _ & E2 & _ & E3 & _). rewrite <- E1 in R. rewrite <- E3, <- E2.
  apply tries; [exact R| |exact I0]. rewrite E2. unfold if_positive. destruct (Z.ltb_spec 0 (int_or u (s2b "clientConnection") 3)); lia.
Qed.
Print Assumptions C115_connects.

(* With positive periods the endpoint does what C28 is about: every state it reaches, the machine of C28 reaches. *)
Theorem C115_periods_positive : forall u stored ops s tried,
  (0 < millis_or u (s2b "connectRetryInterval") 60000)%Z -> (0 < millis_or u (s2b "keepaliveInterval") 1000)%Z ->
  wruns (initialize u stored) wep0 ops = Some (s, tried) ->
  exists ops', eruns (int_or u (s2b "errorCountThreshold") 10) ep0 ops' = Some s.
Proof.
  intros u stored ops s tried R K H. pose proof (C115_settings u stored) as (_ & E1 & E2 & E3 & _). cbv zeta in *. rewrite <- E1 in R. rewrite <- E3 in K. rewrite <- E2.
  eapply refines; eassumption.
Qed.
Print Assumptions C115_periods_positive.

(* Finding: with a keepalive period that is not positive, a connected endpoint that goes down never comes back, whatever
   the server would answer. *)
Theorem C115_no_keepalive : forall u stored ops1 ops2 s tried s' tried',
  (millis_or u (s2b "keepaliveInterval") 1000 <= 0)%Z ->
  wruns (initialize u stored) wep0 ops1 = Some (s, tried) -> eInit s = IEnd -> eAvail s = false ->
  wruns (initialize u stored) (s, tried) ops2 = Some (s', tried') -> eAvail s' = false.
Proof.
  intros u stored ops1 ops2 s tried s' tried' K. pose proof (C115_settings u stored) as (_ & _ & _ & E3 & _). rewrite <- E3 in K. apply stays_down. exact K.
Qed.
Print Assumptions C115_no_keepalive.
(* Finding: with a retry period that is not positive, an endpoint whose first attempt fails never comes up. *)
Theorem C115_no_retry : forall u stored ops1 conns ops2 s s' tried',
  (millis_or u (s2b "connectRetryInterval") 60000 <= 0)%Z -> truth_or u (s2b "lazyInit") false = false ->
  wruns (initialize u stored) wep0 ops1 = Some (s, false) ->
  ~ n_connect (Z.to_nat (if_positive (int_or u (s2b "clientConnection") 3) 3)) conns ->
  wruns (initialize u stored) (s, false) (WTry conns :: ops2) = Some (s', tried') -> eAvail s' = false /\ eChans s' = false.
Proof.
  intros u stored ops1 conns ops2 s s' tried' R L. pose proof (C115_settings u stored) as (_ & E1 & _ & _ & _ & _ & _ & E2 & _ & E3 & _). rewrite <- E1 in R. rewrite <- E3 in L. rewrite <- E2.
  apply never_up; [exact R|exact L|]. rewrite E2. unfold if_positive. destruct (Z.ltb_spec 0 (int_or u (s2b "clientConnection") 3)); lia.
Qed.
Print Assumptions C115_no_retry.

Definition u115 (ps : list (bs * bs)) : url := mkUrl (s2b "motan2") (s2b "10.0.0.1") 8002 (s2b "svc") (s2b "g") (Some ps).
Definition x115 : exc := mkExc false 500 false.
Definition good115 : list bool := [true; true; true].
(* connect, ten errors, the last brings the endpoint down and starts the keepalive goroutine *)
Definition down115 : list wop := [WTry good115; WBase OInit] ++ repeat (WBase (OErr x115)) 10 ++ [WBase (OHand 0); WBase (OHand 0); WBase (OHand 0); WBase (OKeep 0)].
(* An endpoint with keepaliveInterval=0 is taken down as any other; its keepalive ends without a single heartbeat. *)
Theorem C115_keepalive_refuted : exists u stored s,
  wruns (initialize u stored) wep0 down115 = Some (s, true) /\ eAvail s = false /\ eDestroyed s = false /\
  (forall ops s' t, wruns (initialize u stored) (s, true) ops = Some (s', t) -> eAvail s' = false).
Proof.
  set (u := u115 [(s2b "keepaliveInterval", s2b "0")]). exists u, None.
  destruct (wruns (initialize u None) wep0 down115) as [[s t]|] eqn:E; [|exfalso; vm_compute in E; discriminate E].
  assert (X : t = true /\ eAvail s = false /\ eDestroyed s = false /\ eInit s = IEnd) by (vm_compute in E; injection E as <- <-; vm_compute; repeat split).
  destruct X as (-> & A & D & I0). exists s. split; [reflexivity|]. split; [exact A|]. split; [exact D|]. intros ops s' t R.
  eapply (C115_no_keepalive u None down115 ops s true); [vm_compute; discriminate|exact E|exact I0|exact A|exact R].
Qed.
Print Assumptions C115_keepalive_refuted.
(* The same history with the default period: a heartbeat that succeeds brings the endpoint back. *)
Example C115_example : let u := u115 [(s2b "requestTimeout", s2b "200")] in
  (match wruns (initialize u None) wep0 (down115 ++ [WBase (OBeat 0 true); WBase (OUp 0)]) with Some (s, _) => eAvail s | None => false end) = true /\
  (match wruns (initialize u None) wep0 down115 with Some (s, _) => eAvail s | None => true end) = false /\
  (match wruns (initialize u None) wep0 [WTry [true; false]; WTry good115; WBase OInit] with Some (s, _) => eAvail s | None => false end) = true /\
  (* retry period 0: the second attempt does not exist *)
  wruns (initialize (u115 [(s2b "connectRetryInterval", s2b "0")]) None) wep0 [WTry [true; false]; WTry good115] = None /\
  dialArgs u (initialize u None) = (s2b "tcp", s2b "10.0.0.1:8002", 1000000000%Z) /\
  (let v := mkUrl (s2b "motan2") (s2b "unix:///tmp/s.sock") 0 [] [] (Some [(s2b "connectTimeout", s2b "50")]) in
   dialArgs v (initialize v None) = (s2b "unix", s2b "/tmp/s.sock", 50000000%Z)) /\
  sAsync (initialize u None) = true /\ sAsync (initialize u (Some false)) = false /\ sConns (initialize u None) = 3%Z.
Proof. vm_compute. repeat split. Qed.
