(* DcoModel.v: DthModel.v with attempts that overlap.  An attempt selects its endpoint (lb/roundrobinLb.go 23-26, 39-49, or lb/randomLb.go 17-20) and ends later,
   when its outcome is counted (endpoint/motanCommonEndpoint.go 186-196, 252-263, 275-277).  At most [W] attempts are under way at a time:
   the callers of the cluster are W goroutines, each making one call after the other.
   Simplification: counting an error and taking the endpoint down is one step, and so is the effect of an answered heartbeat
   (EpModel.v has these steps apart). *)
From Verif Require Import Base Strconv UrlModel EpModel LbModel DthModel.

Inductive oev :=
| Start (r1 r2 : N)                       (* a caller selects an endpoint; nothing happens while W attempts are under way *)
| Finish (k : nat) (good : nat -> bool)   (* the k-th attempt under way ends; [good i]: endpoint i answered *)
| OBeatOk (i : nat).                      (* the heartbeat of endpoint i is answered *)

Record ost := mkOst { oIndex : N; oEps : list epc; oBusy : list nat }.

(* take out the k-th element *)
Definition dropNth {A} (l : list A) (k : nat) : list A := firstn k l ++ skipn (S k) l.

(* roundrobinLb.go:23-26, randomLb.go:17-20 Select *)
Inductive lbkind := ByRoundRobin | ByRandom.
Definition oSelect (lb : lbkind) (r1 r2 : N) (index : N) (eps : list epc) : N * pick epc :=
  match lb with
  | ByRoundRobin => roundrobinSelect (fun _ => ecUp) r1 r2 index eps
  | ByRandom => (index, randomSelect (fun _ => ecUp) r1 r2 eps)
  end.

(* the new state, and which endpoint was selected if an attempt began: [Some None] when there was none to select *)
Definition oStep (lb : lbkind) (W : nat) (thr : nat -> Z) (s : ost) (e : oev) : ost * option (option nat) :=
  match e with
  | Start r1 r2 =>
      if length (oBusy s) <? W then
        let '(next, p) := oSelect lb r1 r2 (oIndex s) (oEps s) in
        match p with
        | PEp i _ => (mkOst next (oEps s) (i :: oBusy s), Some (Some i))
        | PNil | PPanic => (mkOst next (oEps s) (oBusy s), Some None)
        end
      else (s, None)
  | Finish k good =>
      match nth_error (oBusy s) k with
      | Some i =>
          match nth_error (oEps s) i with
          | Some x => (mkOst (oIndex s) (list_set (oEps s) i (afterAttempt (thr i) (good i) x)) (dropNth (oBusy s) k), None)
          | None => (s, None)
          end
      | None => (s, None)
      end
  | OBeatOk i => (mkOst (oIndex s) (beat i (oEps s)) (oBusy s), None)
  end.

(* the selections of all attempts that began *)
Fixpoint oRun (lb : lbkind) (W : nat) (thr : nat -> Z) (evs : list oev) (s : ost) : list (option nat) :=
  match evs with
  | [] => []
  | e :: r => let '(s', o) := oStep lb W thr s e in
              match o with Some x => x :: oRun lb W thr r s' | None => oRun lb W thr r s' end
  end.
