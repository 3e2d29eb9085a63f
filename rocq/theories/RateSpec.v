(* RateSpec.v: vocabulary of C47. *)
From Coq Require Import QArith.
From Verif Require Import Base GoStrings2 UrlModel UrlSpec RateModel.
Local Open Scope Z_scope.

(* a bucket as it is made: full *)
Record fresh_bucket (b : bucket) (t0 : Z) : Prop := {
  fb_eq : b = newBucket (bStart b) (bFill b) (bQuantum b) (bCap b);
  fb_fill : 0 < bFill b; fb_q : 0 < bQuantum b; fb_cap : 0 < bCap b; fb_t : bStart b <= t0 }.
(* refills between two times, and the most that may pass in between, both ends included *)
Definition refills (b : bucket) (t1 t2 : Z) : Z := (t2 - bStart b) / bFill b - (t1 - bStart b) / bFill b.
Definition allowance (b : bucket) (t1 t2 : Z) : Z := Z.max (bCap b) (bQuantum b) + refills b t1 t2 * bQuantum b.
Definition within (t1 t2 t : Z) : bool := (t1 <=? t) && (t <=? t2).

(* requests to one bucket: arrival time and longest wait; the times at which they may go on *)
Fixpoint takes (b : bucket) (ops : list (Z * Z)) : list Z :=
  match ops with
  | [] => []
  | (now, w) :: r => let (b', d) := take b now w in match d with Some d => (now + d) :: takes b' r | None => takes b' r end
  end.
Fixpoint in_order {A} (t0 : Z) (ops : list (Z * A)) : Prop := match ops with [] => True | (t, _) :: r => t0 <= t /\ in_order t r end.

(* the filter *)
Definition forwarded_of (m : bs) (t1 t2 : Z) (c : rlcall) : bool :=
  bs_eqb (rcMethod c) m && match rcState c with RFwd t => within t1 t2 t | _ => false end.
Definition past_service (t1 t2 : Z) (c : rlcall) : bool := match rcService c with Some t => within t1 t2 t | None => false end.
Definition stays_on (os : list (Z * rlop)) : Prop := forall t on, ~ In (t, RSwitch on) os.
(* a new filter: nothing taken, its switcher open *)
Definition new_filter (s : rlsys) : Prop := ryCalls s = [] /\ rlOpen (ryF s) = true.
