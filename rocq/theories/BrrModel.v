(* BrrModel.v: the caller's reply variable during a call with backup requests.
   ha/backupRequestHA.go 103: every request sent is a clone of the caller's; core/motan.go 594: a clone has the same Reply pointer;
   endpoint/motanEndpoint.go 204-208: an endpoint deserializes the value of its answer through that pointer before it returns, in the
   goroutine of its request (backupRequestHA.go 109-117).
   The system is that of HaModel.v; beside it, for each call, what its reply variable holds.
   Simplifications: storing a value is one step; the value fits the variable's type and is not null; answers with an exception store nothing. *)
From Verif Require Import Base Strconv UrlModel UrlSpec HaModel.
Open Scope nat_scope.

Definition replies := nat -> option bs.

(* what the step stores: the endpoint's answer to request [i] of call [c], if it is a value *)
Definition stores (e : ev) (m : replies) : replies :=
  match e with
  | EReply c _ (Some r) => match rExc r with
                           | None => fun d => if Nat.eqb d c then Some (rValue r) else m d
                           | Some _ => m
                           end
  | _ => m
  end.

Fixpoint replyRun (s : sys) (m : replies) (es : list ev) : option (sys * replies) :=
  match es with
  | [] => Some (s, m)
  | e :: r => match sysStep s e with Some s' => replyRun s' (stores e m) r | None => None end
  end.
Definition untouched : replies := fun _ => None.
