(* HourSpec.v: what C109 says. *)
From Verif Require Import Base LogModel HourModel.
Local Open Scope Z_scope.

(* the hour a wall clock in the zone shows, counted since 1970 *)
Definition wall_hour (zone t : Z) : Z := (t + zone) / 3600000000000.
(* the clock does not go back while it rotates *)
Definition orderly (w : wake) : Prop := wTime w <= wName w <= wAgain w.
(* the sleeps of a run end more than 0 and at most [d] ns late *)
Fixpoint prompt (zone d : Z) (s : hst) (l : list wake) : Prop :=
  match l with [] => True | w :: r => 0 < wTime w - (hSlept s + hDur s) <= d /\ prompt zone d (hstep zone s w) r end.
Fixpoint increasing (l : list Z) : Prop :=
  match l with a :: ((b :: _) as r) => a < b /\ increasing r | _ => True end.
(* every request is followed by the beginning of a run *)
Fixpoint served (l : list mevent) : Prop :=
  match l with [] => True | MRequest :: r => In MBegin r /\ served r | MBegin :: r => served r end.
