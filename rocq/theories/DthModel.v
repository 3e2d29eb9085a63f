(* DthModel.v: the attempts a cluster makes over time, with round robin (lb/roundrobinLb.go 23-26, 39-49) and the error counter, the
   availability flag and the heartbeats of its endpoints (endpoint/motanCommonEndpoint.go 168-203, 252-277, 318-331;
   endpoint/motanEndpoint.go 144-211, 246-261, 287-299 is the same).
   Simplification: one attempt or heartbeat at a time (EpModel.v has the interleavings inside one endpoint), and the list of endpoints
   does not change.  A heartbeat is sent only by the keepalive goroutine, so only while the endpoint is not available. *)
From Verif Require Import Base Strconv UrlModel EpModel LbModel.

(* motanCommonEndpoint.go:55-60: errorCount and available of one endpoint *)
Record epc := mkEpc { ecCount : N; ecUp : bool }.

(* 252-263 recordErrAndKeepalive and 275-277 resetErr, as Call uses them (186-196): [good] when the service itself answered *)
Definition afterAttempt (thr : Z) (good : bool) (e : epc) : epc :=
  if good then mkEpc 0 (ecUp e)
  else if (0 <? thr)%Z then
    let c := w32 (ecCount e + 1) in mkEpc c (if (thr32 thr <=? c)%N then false else ecUp e)
  else e.

(* a call attempts one endpoint, or the heartbeat of endpoint [i] is answered *)
Inductive cev := Attempt (r1 r2 : N) (good : nat -> bool) | Beat (i : nat).

(* roundrobinLb.go:23-26 Select, then Call of the endpoint selected: who was tried and whether it answered *)
Definition clusterAttempt (thr : nat -> Z) (r1 r2 : N) (good : nat -> bool) (index : N) (eps : list epc) : N * list epc * (option nat * bool) :=
  let '(next, p) := roundrobinSelect (fun _ => ecUp) r1 r2 index eps in
  match p with
  | PEp i e => (next, list_set eps i (afterAttempt (thr i) (good i) e), (Some i, good i))
  | PNil | PPanic => (next, eps, (None, false))
  end.

(* 318-326: available again, the counter at zero *)
Definition beat (i : nat) (eps : list epc) : list epc :=
  match nth_error eps i with
  | Some e => if ecUp e then eps else list_set eps i (mkEpc 0 true)
  | None => eps
  end.

Fixpoint clusterRun (thr : nat -> Z) (evs : list cev) (index : N) (eps : list epc) : list (option nat * bool) :=
  match evs with
  | [] => []
  | Attempt r1 r2 good :: r => let '(next, eps', o) := clusterAttempt thr r1 r2 good index eps in o :: clusterRun thr r next eps'
  | Beat i :: r => clusterRun thr r index (beat i eps)
  end.
