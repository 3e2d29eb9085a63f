(* BrrSpec.v: vocabulary of C121. *)
From Verif Require Import Base Strconv UrlModel UrlSpec HaModel HaSpec BrrModel.
Open Scope nat_scope.

(* an endpoint has answered the call with this value *)
Definition answered_with (b : bcall) (v : bs) : Prop := exists r, In r (bHeard b) /\ rExc r = None /\ rValue r = v.
(* all endpoints that answered the call with a value answered with the same one *)
Definition agree (b : bcall) : Prop := forall v w, answered_with b v -> answered_with b w -> v = w.
