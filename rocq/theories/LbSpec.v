(* LbSpec.v: vocabulary for the statements about load balancing and request ids. *)
From Verif Require Import Base Lists BytesModel Strconv GoStrings LbModel.

(* ids produced by consecutive calls: call k reads the clock as [clocks k]; calls of concurrent goroutines are ordered
   by their atomic increment *)
Fixpoint request_ids (clocks : nat -> N) (offset : N) (k : nat) : list N :=
  match k with
  | O => []
  | S k' => let '(offset', id) := generateRequestID (clocks 0) offset in
            id :: request_ids (fun j => clocks (S j)) offset' k'
  end.

(* how often position i was chosen *)
Definition times {E} (i : nat) (l : list (pick E)) : nat :=
  length (filter (fun p => match p with PEp j _ => j =? i | _ => false end) l).
(* the pick is really the endpoint at that position *)
Definition picked_from {E} (eps : list E) (p : pick E) : Prop :=
  exists i e, p = PEp i e /\ nth_error eps i = Some e.

(* the pick is an endpoint of the list that said it was available when asked, or nil with every endpoint of the list
   having said no at some moment of the call; never a panic *)
Definition sound_pick {E} (av : nat -> E -> bool) (eps : list E) (p : pick E) : Prop :=
  match p with
  | PEp i e => nth_error eps i = Some e /\ exists t, av t e = true
  | PNil => forall e, In e eps -> exists t, av t e = false
  | PPanic => False
  end.

(* n consecutive round-robin selections; selection j sees availability [avs j] and draws [rs j] *)
Fixpoint rr_run {E} (avs : nat -> nat -> E -> bool) (rs : nat -> N * N) (index : N) (eps : list E) (n : nat) : list (pick E) :=
  match n with
  | O => []
  | S n' => let '(next, p) := roundrobinSelect (avs 0) (fst (rs 0)) (snd (rs 0)) index eps in
            p :: rr_run (fun j => avs (S j)) (fun j => rs (S j)) next eps n'
  end.
Definition all_up {E} : nat -> nat -> E -> bool := fun _ _ _ => true.

(* n consecutive selections of weighted round robin; the j-th one sees [os j] *)
Fixpoint wrr_run {E} (os : nat -> answers E) (s : selector E) (n : nat) : list (pick E) :=
  match n with
  | O => []
  | S n' => let '(s', p) := wrrSelect (os 0) s in p :: wrr_run (fun j => os (S j)) s' n'
  end.
(* every endpoint always answers that it is available; the draws are arbitrary *)
Definition up_answers {E} (rs : nat -> N) : nat -> answers E := fun j => mkAns (fun _ _ => true) (fun _ => true) (fun _ _ => true) (rs j).
(* the selection asked nobody but saw e available / unavailable *)
Definition saw {E} (a : answers E) (b : bool) (e : E) : Prop :=
  (exists t, a_av1 a t e = b) \/ a_av2 a e = b \/ exists t, a_av3 a t e = b.
(* the same selector with another value of its counter *)
Definition with_counter {E} (s : selector E) (c : Z) : selector E :=
  match s with SelRR h _ => SelRR h c | SelRing h r _ => SelRing h r c | SelWindow i w _ => SelWindow i w c end.
Definition int64 (z : Z) : Prop := (- 2 ^ 63 <= z < 2 ^ 63)%Z.

(* the selector keeps a current weight per endpoint (too many endpoints or too much weight for a ring) *)
Definition is_window {E} (s : selector E) : bool := match s with SelWindow _ _ _ => true | _ => false end.
(* all positions but at most one *)
Definition all_but_one {E} (eps : list E) (no : E -> Prop) : Prop :=
  exists q, forall i e, nth_error eps i = Some e -> i <> q -> no e.

(* the pick was seen available; nil only when everybody (all but one, for the window selector) was seen unavailable *)
Definition sel_pick_ok {E} (window : bool) (eps : list E) (a : answers E) (p : pick E) : Prop :=
  match p with
  | PEp i e => nth_error eps i = Some e /\ saw a true e
  | PNil => if window then all_but_one eps (saw a false) else forall e, In e eps -> saw a false e
  | PPanic => False
  end.

(* the greatest common divisor of a list *)
Definition is_gcd (g : N) (l : list N) : Prop :=
  (forall w, In w l -> N.divide g w) /\ (forall d, (forall w, In w l -> N.divide d w) -> N.divide d g).

(* group weights: the clamped number of the last entry naming the group; 1 without a (valid) number; 0 if not named *)
Definition entry_weight (e : bs) : bs * Z :=
  match splitOn x3a e with
  | g :: v :: _ => (g, match parseInt64 v with (z, NumOk) => Z.max 1 (Z.min 100 z) | _ => 1%Z end)
  | [g] => (g, 1%Z)
  | [] => ([], 1%Z)
  end.
Definition group_weight (weight : bs) (g : bs) : N :=
  match find (fun e => negb (bs_empty e) && bs_eqb (fst (entry_weight e)) g) (rev (splitOn x2c weight)) with
  | Some e => Z.to_N (snd (entry_weight e))
  | None => 0%N
  end.
(* some entry gives a number *)
Definition weighted (weight : bs) : bool := existsb (fun e => 1 <? length (splitOn x3a e)) (splitOn x2c weight).

(* the groups asked by n consecutive selections *)
Fixpoint group_run (ring : list bs) (index : N) (n : nat) : list (option bs) :=
  match n with
  | O => []
  | S n' => let '(next, g) := selectGroup ring index in g :: group_run ring next n'
  end.
Definition times_group (g : bs) (l : list (option bs)) : nat :=
  length (filter (fun o => match o with Some g' => bs_eqb g' g | None => false end) l).
(* an enumeration of the distinct groups of the endpoints *)
Definition groups_of {E} (grp : E -> bs) (eps : list E) (order : list bs) : Prop :=
  NoDup order /\ forall g, In g order <-> exists e, In e eps /\ grp e = g.

(* consistent hashing: the pick, wherever it came from *)
Definition ch_pick_ok {E} (av : nat -> E -> bool) (eps : list E) (p : pick E) : Prop :=
  match p with
  | PEp _ e => In e eps /\ exists t, av t e = true
  | PNil => forall e, In e eps -> exists t, av t e = false
  | PPanic => False
  end.
(* a fresh load balancer after any history of endpoint list refreshes *)
Definition ch_fresh {E R L} : chState E R L := mkCh [] None 0 None None.
Definition ch_after {E R L} (H : hashlib E R L) part load replica (history : list (list E)) : chState E R L :=
  fold_left (chRefresh H part load replica) history ch_fresh.
(* what the hashing library promises: located members are members the ring was built from *)
Definition locates_members {E R L} (H : hashlib E R L) : Prop :=
  forall eps part replica load ring key, h_new H eps part replica load = Some ring ->
    exists e, h_locate H ring key = Some e /\ In e eps.

(* endpoint weights over time: the endpoint list is refreshed, or a holder's dynamic metadata is read again *)
Inductive weight_op (E : Type) := OpRefresh (eps : list E) (dyn : E -> bs) | OpDynamic (i : nat) (meta : bs).
Arguments OpRefresh {E}. Arguments OpDynamic {E}.
Definition weight_step {E} (same : E -> E -> bool) (static : E -> bs) (hs : list (holder E)) (o : weight_op E) : list (holder E) :=
  match o with
  | OpRefresh eps dyn => refreshHolders same static (fun e => dynamicWeight (dyn e)) hs eps
  | OpDynamic i meta => match nth_error hs i with
                        | Some h => upd hs i (mkHolder (hEp h) (hStatic h) (dynamicWeight meta))
                        | None => hs
                        end
  end.
Definition weights_after {E} (same : E -> E -> bool) (static : E -> bs) (ops : list (weight_op E)) : list (holder E) :=
  fold_left (weight_step same static) ops [].
