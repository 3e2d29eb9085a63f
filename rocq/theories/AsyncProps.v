(* AsyncProps.v: C85, asynchronous client calls. *)
From Verif Require Import Base AsyncModel AsyncSpec AsyncProofs.
Require Import Lia.

Lemma on_done s c k : on_chan s c k = match done_of s k with Some d => (d =? c)%nat | None => false end.
Proof. unfold on_chan, done_of. destruct (nth_error (aCalls s) k); reflexivity. Qed.
(* every result is sent at most once, to the channel its Done names; a channel yields the results of its calls in the order they were sent *)
Theorem C85_once os s c : aruns a0 os = Some s ->
  NoDup (sends os) /\ through s c = filter (fun k => match done_of s k with Some d => (d =? c)%nat | None => false end) (sends os).
Proof.
  intro H. destruct (ainv_all os s H) as [_ _ T _ [S _] _]. split; [exact S|]. rewrite T. apply filter_ext_in'. intros k _. apply on_done.
Qed.
Print Assumptions C85_once.
(* a result that comes out of a channel carries the error of its call's response: none, or the exception's message *)
Theorem C85_result os s c k : aruns a0 os = Some s -> In k (through s c) ->
  done_of s k = Some c /\ exists e, answer os k = Some e /\ option_map aErr (nth_error (aCalls s) k) = Some e.
Proof.
  intros H I. destruct (ainv_all os s H) as [_ _ T K [_ S2] _]. rewrite T in I. apply filter_In in I as [I O]. rewrite on_done in O.
  destruct (nth_error (aCalls s) k) as [x|] eqn:E; [|apply nth_error_None in E; pose proof (S2 _ I); lia].
  unfold done_of in *. rewrite E in *. cbn in *. apply Nat.eqb_eq in O. split; [congruence|]. exists (aErr x). split; [|reflexivity].
  pose proof (K _ _ E) as KE. destruct (aPc x); [destruct KE as (_ & _ & N); contradiction|destruct KE as [_ N]; contradiction|exact (proj1 KE)].
Qed.
Print Assumptions C85_result.
(* a call that was answered has its result sent at once unless the channel is full; with room for the results of all its calls it never is *)
Theorem C85_not_stuck os s k e d : aruns a0 os = Some s -> answer os k = Some e -> ~ In k (sends os) -> done_of s k = Some d ->
  exists ch, nth_error (aChans s) d = Some ch /\ ((length (aQueue ch) < aCap ch)%nat <-> astep s (ASent k) <> None) /\
             ((length (calls_on s d) <= aCap ch)%nat -> astep s (ASent k) <> None).
Proof.
  intros H A NS D. destruct (ainv_all os s H) as [C R T K [S1 S2] _]. unfold done_of in D. destruct (nth_error (aCalls s) k) as [x|] eqn:E; [|discriminate]. injection D as D.
  destruct (C _ _ E) as (ch & EC & L). exists ch. rewrite D in EC. split; [exact EC|].
  assert (P : aPc x = ASend). { pose proof (K _ _ E) as KE. destruct (aPc x); [destruct KE; congruence|reflexivity|destruct KE; contradiction]. }
  assert (IFF : (length (aQueue ch) < aCap ch)%nat <-> astep s (ASent k) <> None).
  { cbn [astep]. rewrite E, P, D, EC. destruct (Nat.ltb_spec (length (aQueue ch)) (aCap ch)); split; intro Y; [discriminate|assumption|lia|exfalso; apply Y; reflexivity]. }
  split; [exact IFF|]. intro CO. apply IFF. apply Nat.lt_le_trans with (length (calls_on s d)); [|exact CO].
  assert (LE : (length (aQueue ch) <= length (through s d))%nat) by (unfold through; rewrite EC, app_length; lia).
  apply Nat.le_lt_trans with (1 := LE). rewrite T.
  assert (ND : NoDup (k :: filter (on_chan s d) (sends os))) by (constructor; [intro I; apply filter_In in I as [I _]; contradiction|apply NoDup_filter; exact S1]).
  change (length (k :: filter (on_chan s d) (sends os)) <= length (calls_on s d))%nat. apply NoDup_incl_length; [exact ND|]. intros j [<-|I].
  - apply filter_In. split; [apply in_seq; split; [lia|]; cbn; apply nth_error_Some; congruence|]. unfold done_of. rewrite E. cbn. apply Nat.eqb_eq. exact D.
  - apply filter_In in I as [I O]. apply filter_In. split; [apply in_seq; pose proof (S2 _ I); lia|]. rewrite <- on_done. exact O.
Qed.
Print Assumptions C85_not_stuck.
(* "the result arrives on the channel the caller passed" is false for unbuffered channels: nothing ever arrives there *)
Theorem C85_unbuffered_refuted os s c ch : aruns a0 os = Some s -> nth_error (aChans s) c = Some ch -> aCap ch = O -> through s c = [].
Proof.
  intros H E Z. destruct (ainv_all os s H) as [C _ T _ _ _]. rewrite T. assert (F : forall k, on_chan s c k = false).
  { intro k. unfold on_chan. destruct (nth_error (aCalls s) k) as [x|] eqn:Ek; [|reflexivity]. destruct (Nat.eqb_spec (aChan x) c) as [Q|]; [|reflexivity].
    destruct (C _ _ Ek) as (ch' & E' & L). rewrite Q, E in E'. injection E' as ->. lia. }
  clear T. induction (sends os) as [|k l IH]; [reflexivity|]. cbn. rewrite F. exact IH.
Qed.
Print Assumptions C85_unbuffered_refuted.

Definition exA : list aop := [AMake 1; AMake 0; AGo (Some O); AGo (Some O); AGo (Some 1%nat); AAnswer 1 (Some (s2b "no endpoint")); AAnswer 0 None; AAnswer 2 None; ASent 1; ASent 2; ARecv 0].
Example C85_example : exists s, aruns a0 exA = Some s /\ received s 0 = [1%nat] /\ through s 1 = [] /\ through s 2 = [2%nat] /\ answer exA 0 = Some None /\ ~ In O (sends exA) /\
  done_of s 0 = Some O /\ astep s (ASent 0) <> None /\ option_map aErr (nth_error (aCalls s) 1) = Some (Some (s2b "no endpoint")) /\
  (exists ch, nth_error (aChans s) 1 = Some ch /\ aCap ch = O) /\ calls_on s 2 = [2%nat].
Proof.
  eexists. split; [reflexivity|]. split; [reflexivity|]. split; [reflexivity|]. split; [reflexivity|]. split; [reflexivity|]. split; [intros [X|[X|[]]]; discriminate X|].
  split; [reflexivity|]. split; [discriminate|]. split; [reflexivity|]. split; [eexists; split; reflexivity|reflexivity].
Qed.
