(* What callers of a channel may rely on. *)
From Coq Require Import NArith List Bool.
From Verif Require Import Base StreamModel.
Import ListNotations.
Open Scope N_scope.

(* The environment: a started call gets a stream id that no earlier call got, and a message
   that arrives on a channel carries the id of something that was sent on that channel (as often
   as the peer likes, in any order, with any heartbeat flag and any contents). *)
Definition legal (s : st) (o : op) : Prop :=
  match o with
  | OStart _ _ _ _ sid _ => forall i, (i < stNc s)%nat -> cSid (stCall s i) <> Some sid
  | ODeliver ch _ rid _ => In (ch, rid) (stSent s)
  | _ => True
  end.
Inductive reach : st -> Prop :=
| reach0 : reach st0
| reachS s o s' : reach s -> legal s o -> step s o = Some s' -> reach s'.

(* the result of a call once it has returned *)
Definition returned (s : st) (i : nat) (r : cres) : Prop := (i < stNc s)%nat /\ stPc s i = PDone r.
(* message h arrived on the channel with the id under which call i was sent *)
Definition answers (s : st) (h i : nat) : Prop :=
  (h < stNh s)%nat /\ hCh (stHnd s h) = cCh (stCall s i) /\ hHb (stHnd s h) = cHb (stCall s i) /\
  cSid (stCall s i) = Some (hRid (stHnd s h)).
(* the id the caller expects in the response: the one of its own request; a heartbeat has no
   request and gets the id it was sent with *)
Definition ownId (c : call) : N := if cHb c then sidOf c else cReq c.
(* a peer that may send any id it likes *)
Definition legalIds (s : st) (o : op) : Prop := match o with OStart _ _ _ _ _ _ => legal s o | _ => True end.
Inductive reachAny : st -> Prop :=
| reachAny0 : reachAny st0
| reachAnyS s o s' : reachAny s -> legalIds s o -> step s o = Some s' -> reachAny s'.
(* a message with this id came in on this channel before *)
Definition noHandlerBusy (s : st) : Prop := forall h, (h < stNh s)%nat -> stHpc s h = HEnd.
(* the steps of call i itself, and its timer *)
Definition ownStep (s : st) (i : nat) (o : op) : Prop :=
  o = OReg i \/ o = OSendTimeout i \/ o = OTimeout i \/ o = ORemove i \/ o = ORelease i \/ o = OPut i \/ o = OTick (cStm (stCall s i)).
Definition timedOut (r : cres) : Prop := r = RSendTimeout \/ r = RRecvTimeout.
