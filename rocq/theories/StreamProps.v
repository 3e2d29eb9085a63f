(* C27: responses are delivered to the call that asked; C62: deadlines of calls. *)
From Coq Require Import NArith List Bool Lia Arith.
From Verif Require Import Base StreamModel StreamSpec StreamProofs StreamProofs2.
Import ListNotations.
Open Scope N_scope.

(* A call that returns a response returns one that carries its own request id and whose
   contents are those of a message that arrived on its channel under the id it was sent with. *)
Theorem C27_delivery : forall s i r, reach s -> returned s i (ROk r) ->
  rRid r = ownId (stCall s i) /\ exists h, answers s h i /\ rOf r = hBody (stHnd s h).
Proof. exact delivery. Qed.
Print Assumptions C27_delivery.

(* Such a message belongs to one call only, and "received nothing" never happens. *)
Theorem C27_one_call : forall s h i j, reach s -> (i < stNc s)%nat -> (j < stNc s)%nat ->
  answers s h i -> answers s h j -> i = j.
Proof. exact one_call. Qed.
Print Assumptions C27_one_call.
Theorem C27_never_nil : forall s i, reach s -> ~ returned s i RNil.
Proof. exact not_nil. Qed.
Print Assumptions C27_never_nil.

(* A goroutine that handles a received message can always take its next step: it never waits
   for a caller, whether that caller still waits, has given up or its stream has been reused. *)
Theorem C27_receiver_never_blocked : forall s h, reach s -> (h < stNh s)%nat -> stHpc s h <> HEnd ->
  exists o s', (o = OLook h \/ o = ORes h \/ o = OPush h) /\ step s o = Some s'.
Proof. exact never_blocked. Qed.
Print Assumptions C27_receiver_never_blocked.

(* No answer is lost: once the received messages have been handled, a call that still waits
   and whose answer is among them can return it. *)
Theorem C27_no_lost_answer : forall s h i, reach s -> (i < stNc s)%nat -> stPc s i = PWait ->
  answers s h i -> noHandlerBusy s -> exists s', step s (OTake i) = Some s'.
Proof. exact no_lost_answer. Qed.
Print Assumptions C27_no_lost_answer.

(* A returned call whose request was handed to the connection leaves nothing behind ... *)
Theorem C27_no_leak : forall s i r, reach s -> returned s i r ->
  In (cCh (stCall s i), sidOf (stCall s i)) (stSent s) -> cSid (stCall s i) <> None ->
  stTab s (cCh (stCall s i)) (cHb (stCall s i)) (sidOf (stCall s i)) = None.
Proof. exact no_leak. Qed.
Print Assumptions C27_no_leak.

(* two calls on one channel, the first times out while its answer is being handled, the second
   reuses the stream object of a third; everybody gets its own answer *)
Definition ex_ops : list op :=
  [OStart 0 false 100 10 1 None; OReg 0; OSendOk 0; OStart 0 false 200 50 2 None; OReg 1; OSendOk 1;
   ODeliver 0 false 2 (s2b "two"); ODeliver 0 false 1 (s2b "one"); OLook 1; OTime 10; OTick 0; OTimeout 0;
   ORemove 0; ORelease 0; ORes 1; OPush 1; OLook 0; ORes 0; OPush 0; OTake 1; ORemove 1; ORelease 1; OPut 1;
   OStart 0 true 0 50 3 (Some 1%nat); OReg 2; OSendOk 2; ODeliver 0 true 3 (s2b "hb"); OLook 2; ORes 2; OPush 2;
   OTake 2; ORemove 2; ORelease 2; OPut 2].
Example C27_example : exists s, reach s /\ returned s 0 RRecvTimeout /\
  returned s 1 (ROk (mkResp 200 (s2b "two"))) /\ returned s 2 (ROk (mkResp 3 (s2b "hb"))).
Proof.
  destruct (runs st0 ex_ops) as [s|] eqn:E; [|vm_compute in E; discriminate E].
  exists s. split; [apply (legalb_reach st0 ex_ops s reach0); [vm_compute; reflexivity|exact E]|].
  vm_compute in E. injection E as <-. unfold returned. repeat split; vm_compute; lia.
Qed.
(* ... whereas one whose request could not be sent stays in the channel's table for ever *)
Definition leak_ops : list op := [OStart 0 false 100 10 1 None; OReg 0; OSendErr 0; ORelease 0; OPut 0].
Theorem C27_send_error_leak_refuted : ~ (forall s i r, reach s -> returned s i r ->
  stTab s (cCh (stCall s i)) (cHb (stCall s i)) (sidOf (stCall s i)) = None).
Proof.
  intros H. destruct (runs st0 leak_ops) as [s|] eqn:E; [|vm_compute in E; discriminate E].
  assert (R : reach s) by (apply (legalb_reach st0 leak_ops s reach0); [vm_compute; reflexivity|exact E]).
  specialize (H s 0%nat REncode R). vm_compute in E. injection E as <-. assert (X := H ltac:(split; [cbn; lia|reflexivity])). discriminate X.
Qed.
Print Assumptions C27_send_error_leak_refuted.
(* so a peer that invents ids can make a call return the answer to another id *)
Definition forged_ops : list op :=
  leak_ops ++ [OStart 0 false 200 10 2 (Some 0%nat); OReg 1; OSendOk 1; ODeliver 0 false 1 (s2b "x"); OLook 0; ORes 0; OPush 0;
               OTake 1; ORemove 1; ORelease 1; OPut 1].
Theorem C27_forged_id_refuted : ~ (forall s i r, reachAny s -> returned s i (ROk r) ->
  exists h, answers s h i /\ rOf r = hBody (stHnd s h)).
Proof.
  intros H. destruct (runs st0 forged_ops) as [s|] eqn:E; [|vm_compute in E; discriminate E].
  assert (R : reachAny s) by (apply (legalIdsb_reach st0 forged_ops s reachAny0); [vm_compute; reflexivity|exact E]).
  specialize (H s 1%nat (mkResp 200 (s2b "x")) R). vm_compute in E. injection E as <-.
  destruct H as (h & (Lh & _ & _ & A) & _); [split; [cbn; lia|vm_compute; reflexivity]|].
  cbn in Lh. assert (h = 0%nat) by lia. subst h. vm_compute in A. discriminate A.
Qed.
Print Assumptions C27_forged_id_refuted.

(* C62: a call can always return by itself once its deadline has passed *)
Theorem C62_call_ends : forall s i, reach s -> (i < stNc s)%nat -> cDead (stCall s i) <= stNow s ->
  exists os s' r, Forall (ownStep s i) os /\ runs s os = Some s' /\ returned s' i r.
Proof. exact call_finishes. Qed.
Print Assumptions C62_call_ends.
(* A call times out only at its deadline if the stream object it got had no unread timer tick ... *)
Theorem C62_not_early : forall s i r, reach s -> returned s i r -> timedOut r -> cStale (stCall s i) = false ->
  cDead (stCall s i) <= stNow s.
Proof. exact timeout_after_deadline. Qed.
Print Assumptions C62_not_early.
Example C62_example : exists s, reach s /\ returned s 0 RRecvTimeout /\ cStale (stCall s 0) = false /\ cDead (stCall s 0) = 10.
Proof.
  destruct (runs st0 ex_ops) as [s|] eqn:E; [|vm_compute in E; discriminate E].
  exists s. split; [apply (legalb_reach st0 ex_ops s reach0); [vm_compute; reflexivity|exact E]|].
  vm_compute in E. injection E as <-. unfold returned. repeat split; vm_compute; lia.
Qed.
(* ... but a reused one may have: the timer of an answered call fires just before it is stopped,
   and the next call on the same stream object times out at once *)
Definition early_ops : list op :=
  [OStart 0 false 100 10 1 None; OReg 0; OSendOk 0; ODeliver 0 false 1 (s2b "one"); OLook 0; ORes 0; OPush 0;
   OTime 10; OTick 0; OTake 0; ORemove 0; ORelease 0; OPut 0;
   OStart 0 false 200 1000 2 (Some 0%nat); OReg 1; OSendOk 1; OTimeout 1; ORemove 1; ORelease 1; OPut 1].
Theorem C62_early_timeout_refuted : ~ (forall s i r, reach s -> returned s i r -> timedOut r -> cDead (stCall s i) <= stNow s).
Proof.
  intros H. destruct (runs st0 early_ops) as [s|] eqn:E; [|vm_compute in E; discriminate E].
  assert (R : reach s) by (apply (legalb_reach st0 early_ops s reach0); [vm_compute; reflexivity|exact E]).
  specialize (H s 1%nat RRecvTimeout R). vm_compute in E. injection E as <-.
  assert (X := H ltac:(split; [cbn; lia|vm_compute; reflexivity]) ltac:(right; reflexivity)). vm_compute in X. now apply X.
Qed.
Print Assumptions C62_early_timeout_refuted.
(* a stream waiting to be reused carries no token, no response and no request of the call that used it before, and is there once *)
Theorem C27_pool_clean : forall s k, reach s -> NoDup (stPool s) /\
  (In k (stPool s) -> sTok (stStm s k) = 0%nat /\ sRes (stStm s k) = None /\ sReq (stStm s k) = None /\
                      forall h, stHpc s h = HRes k \/ stHpc s h = HPush k -> ~ (h < stNh s)%nat).
Proof.
  intros s k R. destruct (v_pool s (inv_reach s R)) as [Hn H]. split; [exact Hn|]. intro Hk. destruct (H k Hk) as (_ & ((Ht & Hh) & Hr) & Hq).
  split; [exact Ht|]. split; [exact Hr|]. split; [exact Hq|]. intros h Hp Hl. apply (Hh h). unfold holds. tauto.
Qed.
Print Assumptions C27_pool_clean.
