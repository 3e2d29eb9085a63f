(* AfProps.v *)
From Verif Require Import Base AfModel AfSpec AfProofs.
Import ListNotations.

(* the queue holds, in order, what was accepted and not yet taken, and never more than its capacity *)
Theorem C93_queue cap os s : aruns (ainit cap) os s -> a_in s = a_taken s ++ a_queue s /\ length (a_queue s) <= cap.
Proof. exact (queue_full cap os s). Qed.
Print Assumptions C93_queue.

(* a log call always returns at once: it queues the item exactly when a filter is registered and there is room, and touches nothing a filter sees *)
Theorem C93_log_call s it allow : exists s', astep s (ALog it allow) = Some s'
  /\ sameBut s s'
  /\ (a_filters s = [] -> s' = s)
  /\ (a_filters s <> [] -> length (a_queue s) < a_cap s -> a_queue s' = a_queue s ++ [it] /\ a_lost s' = a_lost s)
  /\ (a_cap s <= length (a_queue s) -> a_queue s' = a_queue s)
  /\ (exists l, a_lost s' = a_lost s ++ l /\ incl l (it :: allow)).
Proof. exact (log_ok s it allow). Qed.
Print Assumptions C93_log_call.

(* each filter is given the taken items at most once each and in order *)
Theorem C93_order cap os s n : aruns (ainit cap) os s -> subseq (sentAs s n) (a_taken s).
Proof. exact (order_ok cap os s n). Qed.
Print Assumptions C93_order.

(* from the moment a filter is registered, each item taken is given to it or missed by it, never both and never neither, whatever the other filters do *)
Theorem C93_each cap os0 s0 os s n : aruns (ainit cap) os0 s0 -> registered s0 n -> a_cons s0 = CWait -> aruns s0 os s -> a_cons s = CWait ->
  exists T S M, a_taken s = a_taken s0 ++ T /\ sentAs s n = sentAs s0 n ++ S /\ missed s n = missed s0 n ++ M /\ shuffle S M T.
Proof. exact (each_ok cap os0 s0 os s n). Qed.
Print Assumptions C93_each.
Theorem C93_all_given cap os0 s0 os s n : aruns (ainit cap) os0 s0 -> registered s0 n -> a_cons s0 = CWait -> aruns s0 os s -> a_cons s = CWait ->
  missed s n = missed s0 n -> exists T, a_taken s = a_taken s0 ++ T /\ sentAs s n = sentAs s0 n ++ T.
Proof. exact (none_missed cap os0 s0 os s n). Qed.
Print Assumptions C93_all_given.

(* an item is missed only by a filter whose channel is closed or full at that moment *)
Theorem C93_missed_only s o s' : astep s o = Some s' ->
  a_miss s' = a_miss s
  \/ exists it n r c, o <> ATake /\ a_cons s = CServe it (n :: r) /\ a_miss s' = a_miss s ++ [(n, it)] /\ a_sent s' = a_sent s
      /\ aget bs_eqb (a_filters s) n = Some c /\ ~ canTake s n c.
Proof. exact (miss_why s o s'). Qed.
Print Assumptions C93_missed_only.
(* a filter that can take the item gets it, in its own channel only *)
Theorem C93_served s it n r c allow : a_cons s = CServe it (n :: r) -> canTake s n c ->
  exists s' k, astep s (AServe allow) = Some s' /\ nth_error (a_chans s) c = Some k /\ nth_error (a_chans s') c = Some (mkChan (k_items k ++ [it]) (k_cap k) (k_bad k))
    /\ (forall c', c' <> c -> nth_error (a_chans s') c' = nth_error (a_chans s) c')
    /\ sentAs s' n = sentAs s n ++ [it] /\ a_miss s' = a_miss s /\ a_queue s' = a_queue s
    /\ a_cons s' = match r with [] => CWait | _ => CServe it r end.
Proof. exact (serve_ok s it n r c allow). Qed.
Print Assumptions C93_served.
(* a closed, full or panicking filter never stops the consumer *)
Theorem C93_goes_on s it n r allow : a_cons s = CServe it (n :: r) ->
  exists s', astep s (AServe allow) = Some s' /\ a_cons s' = match r with [] => CWait | _ => CServe it r end.
Proof. exact (serve_moves s it n r allow). Qed.
Print Assumptions C93_goes_on.
(* a filter's reader receives what was put in its channel, in order *)
Theorem C93_channel cap os s c k : aruns (ainit cap) os s -> nth_error (a_chans s) c = Some k -> sentTo s c = readFrom s c ++ k_items k /\ length (k_items k) <= k_cap k.
Proof. exact (chan_ok cap os s c k). Qed.
Print Assumptions C93_channel.

(* Finding: the message about a missed item is itself a log call, so one dead filter keeps the queue from ever draining *)
Definition exIt : item := mkItem 0 0 (s2b "hello").
Definition exErr : item := mkItem 3 5 (s2b "asyncFilter f  channel is full, drop log").
Lemma feed_once s : a_cap s = 5 -> a_queue s = [exErr] -> a_filters s = [(s2b "f", 0)] -> a_chans s = [mkChan [] 0 false] -> a_cons s = CWait ->
  exists s', aruns s [ATake; ALock [s2b "f"]; AServe [exErr]] s' /\ a_cap s' = 5 /\ a_queue s' = [exErr] /\ a_filters s' = [(s2b "f", 0)]
    /\ a_chans s' = [mkChan [] 0 false] /\ a_cons s' = CWait /\ a_taken s' = a_taken s ++ [exErr].
Proof.
  destruct s as [cp q fl ch cn i tk sn rd ls ms]. cbn. intros -> -> -> -> ->. eexists. split.
  - eapply ar_step; [exact Logic.I|reflexivity|]. eapply ar_step; [|reflexivity|].
    + split; [constructor; [intros []|constructor]|]. intros m. cbn. tauto.
    + eapply ar_step; [exact Logic.I|reflexivity|]. apply ar_nil.
  - repeat split.
Qed.
Theorem C93_drains_refuted :
  exists s0, (exists os, aruns (ainit 5) os s0) /\ a_queue s0 <> []
    /\ forall n, exists os s, aruns s0 os s /\ (forall o it al, In o os -> o <> ALog it al) /\ length (a_taken s) = n /\ a_cons s = CWait /\ a_queue s <> [].
Proof.
  set (s0 := mkA 5 [exErr] [(s2b "f", 0)] [mkChan [] 0 false] CWait [exErr] [] [] [] [] []).
  exists s0. split.
  { exists [AChan 0 false; AAdd (s2b "f") 0; ALog exErr []]. eapply ar_step; [exact Logic.I|reflexivity|]. eapply ar_step; [exact Logic.I|reflexivity|].
    eapply ar_step; [exact Logic.I|reflexivity|]. apply ar_nil. }
  split; [discriminate|].
  assert (K : forall n, exists os s, aruns s0 os s /\ (forall o it al, In o os -> o <> ALog it al) /\ length (a_taken s) = n
            /\ a_cap s = 5 /\ a_queue s = [exErr] /\ a_filters s = [(s2b "f", 0)] /\ a_chans s = [mkChan [] 0 false] /\ a_cons s = CWait).
  { assert (app : forall a x b y c, aruns a x b -> aruns b y c -> aruns a (x ++ y) c).
    { intros a x b y c H; revert y c; induction H; intros y c H2; [exact H2|]. cbn. eapply ar_step; eauto. }
    induction n as [|n IH].
    - exists [], s0. split; [apply ar_nil|]. split; [intros o it al []|]. repeat split.
    - destruct IH as (os&s&H&NL&L&E1&E2&E3&E4&E5). destruct (feed_once s E1 E2 E3 E4 E5) as (s'&H'&F1&F2&F3&F4&F5&F6).
      exists (os ++ [ATake; ALock [s2b "f"]; AServe [exErr]]), s'. split; [eapply app; eassumption|].
      split. { intros o it al I1. apply in_app_or in I1. destruct I1 as [I1|[<-|[<-|[<-|[]]]]]; [apply NL, I1|discriminate|discriminate|discriminate]. }
      split; [rewrite F6, app_length, L; cbn; apply Nat.add_1_r|]. auto. }
  intros n. destruct (K n) as (os&s&H&NL&L&_&E&_&_&W). exists os, s. repeat split; auto. rewrite E. discriminate.
Qed.
Print Assumptions C93_drains_refuted.

(* two filters, one of them full: the other gets both items *)
Definition nmA : bs := s2b "a".
Definition nmB : bs := s2b "b".
Definition exTwo : list aop :=
  [AChan 1 false; AChan 5 false; AAdd nmA 0; AAdd nmB 1; ALog exIt []; ALog exErr [];
   ATake; ALock [nmB; nmA]; AServe []; AServe []; ATake; ALock [nmA; nmB]; AServe []; AServe []; ARead 1].
Definition exEnd : ast :=
  mkA 2 [] [(nmA, 0); (nmB, 1)] [mkChan [exIt] 1 false; mkChan [exErr] 5 false] CWait [exIt; exErr] [exIt; exErr]
      [(nmB, 1, exIt); (nmA, 0, exIt); (nmB, 1, exErr)] [(1, exIt)] [] [(nmA, exErr)].
Lemma ab_ok s (x y : bs) : bs_eqb x y = false -> a_filters s = [(x, 0); (y, 1)] -> okOp s (ALock [x; y]) /\ okOp s (ALock [y; x]).
Proof.
  intros NE E. assert (x <> y) by (intros ->; rewrite bs_eqb_refl in NE; discriminate). unfold okOp. rewrite E.
  split; (split; [constructor; [intros [X|[]]; congruence|constructor; [intros []|constructor]]|intros n; cbn; tauto]).
Qed.
Example ex_two : aruns (ainit 2) exTwo exEnd
  /\ sentAs exEnd nmA = [exIt] /\ missed exEnd nmA = [exErr] /\ sentAs exEnd nmB = [exIt; exErr] /\ missed exEnd nmB = [] /\ readFrom exEnd 1 = [exIt].
Proof.
  split; [|repeat split].
  do 7 (eapply ar_step; [exact Logic.I|cbv; reflexivity|]). eapply ar_step; [apply (ab_ok _ nmA nmB); reflexivity|cbv; reflexivity|].
  do 3 (eapply ar_step; [exact Logic.I|cbv; reflexivity|]). eapply ar_step; [apply (ab_ok _ nmA nmB); reflexivity|cbv; reflexivity|].
  do 3 (eapply ar_step; [exact Logic.I|cbv; reflexivity|]). apply ar_nil.
Qed.
