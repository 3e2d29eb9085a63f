(* RrfModel.v: a call through a failover cluster whose endpoints are selected by round robin (ha/failoverHA.go 36-38 over
   lb/roundrobinLb.go 17-49).
   Simplification: the endpoints of the load balance do not change during the call. *)
From Verif Require Import Base BytesModel Strconv ProtoModel ConvModel SimpleModel UrlModel UrlSpec ServerModel ProvModel FoModel LbModel.

(* roundrobinLb.go:44: the shared counter (uint32) before attempt [i], when [others i] selections of other calls came before it *)
Definition rrCounter (counter : N) (others : nat -> nat) (i : nat) : N := ((counter + N.of_nat (i + others i)) mod 2 ^ 32)%N.

(* roundrobinLb.go:23-26 Select for attempt [i]: it sees availability [avs i] and draws [rs i]; nil ends the call, and so does a panic *)
Definition rrLink (avs : nat -> nat -> link -> bool) (rs : nat -> N * N) (counter : N) (others : nat -> nat) (eps : list link) (i : nat) : option link :=
  match snd (roundrobinSelect (avs i) (fst (rs i)) (snd (rs i)) (rrCounter counter others i) eps) with
  | PEp _ l => Some l
  | PNil | PPanic => None
  end.

Definition rrTrip (c : gclient) (avs : nat -> nat -> link -> bool) (rs : nat -> N * N) (counter : N) (others : nat -> nat) (eps : list link)
  (u : url) (reply : target) (q : mrequest value) (noEp : bs) : outcome * nat :=
  failoverTrip c (rrLink avs rs counter others eps) u reply q noEp.
