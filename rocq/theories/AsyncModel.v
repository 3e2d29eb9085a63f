(* AsyncModel.v: asynchronous client calls.  Models client.go:59-83 (Go, BaseGo). *)
From Verif Require Export Base.

(* a channel of results: capacity, results sent and not yet received (a result is the number of its call), results received *)
Record achan := mkAchan { aCap : nat; aQueue : list nat; aGot : list nat }.
(* the goroutine of a call: waiting for the cluster; the error is set, the send is next; the result was sent *)
Inductive apc := AWait | ASend | ADone.
(* a call: its Result's channel, the Result's Error, its goroutine *)
Record acall := mkAcall { aChan : nat; aErr : option bs; aPc : apc }.
Record ast := mkAst { aChans : list achan; aCalls : list acall }.
Definition a0 : ast := mkAst [] [].

Inductive aop :=
| AMake (cap : nat)               (* the program makes a channel *)
| AGo (done : option nat)         (* Go with no channel, or with one of the program's *)
| AAnswer (k : nat) (e : option bs) (* cluster.Call returns for call k: no exception, or its message *)
| ASent (k : nat)                 (* the goroutine's send completes *)
| ARecv (c : nat).                (* somebody receives from channel c *)
Definition setCall (s : ast) (k : nat) (x : acall) : ast := mkAst (aChans s) (list_set (aCalls s) k x).

Definition astep (s : ast) (o : aop) : option ast :=
  match o with
  | AMake cap => Some (mkAst (aChans s ++ [mkAchan cap [] []]) (aCalls s))
  | AGo done =>
      (* client.go:66-68: a channel that is missing or unbuffered is replaced by a new one with room for five *)
      let own := Some (mkAst (aChans s ++ [mkAchan 5 [] []]) (aCalls s ++ [mkAcall (length (aChans s)) None AWait])) in
      match done with
      | None => own
      | Some c => match nth_error (aChans s) c with
                  | None => None
                  | Some ch => if (aCap ch =? 0)%nat then own else Some (mkAst (aChans s) (aCalls s ++ [mkAcall c None AWait]))
                  end
      end
  | AAnswer k e => (* client.go:75-78 *)
      match nth_error (aCalls s) k with
      | Some x => match aPc x with AWait => Some (setCall s k (mkAcall (aChan x) e ASend)) | _ => None end
      | None => None end
  | ASent k => (* client.go:79: blocks while the channel is full *)
      match nth_error (aCalls s) k with
      | Some x => match aPc x, nth_error (aChans s) (aChan x) with
                  | ASend, Some ch => if (length (aQueue ch) <? aCap ch)%nat
                      then Some (mkAst (list_set (aChans s) (aChan x) (mkAchan (aCap ch) (aQueue ch ++ [k]) (aGot ch))) (list_set (aCalls s) k (mkAcall (aChan x) (aErr x) ADone)))
                      else None
                  | _, _ => None end
      | None => None end
  | ARecv c =>
      match nth_error (aChans s) c with
      | Some ch => match aQueue ch with
                   | k :: q => Some (mkAst (list_set (aChans s) c (mkAchan (aCap ch) q (aGot ch ++ [k]))) (aCalls s))
                   | [] => None end
      | None => None end
  end.
Fixpoint aruns (s : ast) (os : list aop) : option ast :=
  match os with [] => Some s | o :: r => match astep s o with Some s' => aruns s' r | None => None end end.
