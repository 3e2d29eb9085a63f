(* FailfastSpec.v: vocabulary of C26. *)
From Verif Require Import Base FailfastModel.
Local Open Scope Z_scope.

(* ---- one call at a time.  Histories are read newest first *)
(* failed responses from an address since its last good one *)
Fixpoint streak (addr : bs) (h : list ffop) : nat :=
  match h with
  | [] => 0%nat
  | FResult a ok _ :: r => if bs_eqb a addr then (if ok then 0%nat else S (streak addr r)) else streak addr r
  | _ :: r => streak addr r
  end.
Definition registered (addr : bs) (h : list ffop) : Prop := exists t, In (FNew addr t) h.
(* only registered addresses are called or asked about (a filter is made by NewFilter, which registers) *)
Fixpoint well_formed (h : list ffop) : Prop :=
  match h with [] => True | FNew _ _ :: r => well_formed r | FResult a _ _ :: r | FAsk a _ :: r => registered a r /\ well_formed r end.
(* the time of the last response from the address or of the last test request let through *)
Fixpoint marked (addr : bs) (h : list ffop) : option Z :=
  match h with
  | [] => None
  | FNew a t :: r => if bs_eqb a addr then (match marked addr r with None => Some t | Some x => Some x end) else marked addr r
  | FResult a _ t :: r => if bs_eqb a addr then (match marked addr r with None => None | Some _ => Some t end) else marked addr r
  | FAsk a t :: r =>
      if bs_eqb a addr then
        match marked addr r with
        | Some x => if (10 <=? streak addr r)%nat && (x + 10 * 1000 * 1000 * 1000 <? t) then Some t else Some x
        | None => None
        end
      else marked addr r
  end.

(* ---- many calls at once *)
(* the clock never runs back, and starts no earlier than the status was made *)
Fixpoint clocked (t0 : Z) (os : list (Z * ffsched)) : Prop :=
  match os with [] => True | (t, _) :: r => t0 <= t /\ clocked t r end.
Definition is_call (p : ffpc) : Prop := p = PAsk \/ exists ok, p = PRes ok.
Definition calls_only (os : list (Z * ffsched)) : Prop := forall t p, In (t, SCall p) os -> is_call p.
Definition failing (o : Z * ffsched) : bool := match snd o with SCall (PRes false) => true | _ => false end.
Definition succeeding (o : Z * ffsched) : bool := match snd o with SCall (PRes true) => true | _ => false end.
Definition finished (p : ffpc) : bool := match p with PDone => true | _ => false end.
(* nothing in this part of the schedule works on a failed response *)
Definition fails_now (p : ffpc) : Prop := p = PRes false \/ exists c, p = PFailed c.
Definition no_failure (s : ffst) (os : list (Z * ffsched)) : Prop :=
  (forall t, ~ In (t, SCall (PRes false)) os) /\
  (forall t j p, In (t, SStep j) os -> nth_error (fsCalls s) j = Some p -> ~ fails_now p).
