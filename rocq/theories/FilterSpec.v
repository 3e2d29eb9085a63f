(* FilterSpec.v: vocabulary of C25 and C60. *)
From Coq Require Import Permutation Sorted.
From Verif Require Import Base Strconv GoStrings GoStrings2 UrlModel UrlSpec FilterModel.
Local Open Scope nat_scope.

(* the names written in the parameter "filter" *)
Definition filter_names (u : url) : list bs :=
  match param u (s2b "filter") with None => [] | Some v => filter nonblank (map trimSpace (splitStr (s2b ",") v)) end.
(* the filters they stand for *)
Definition known {R A} (lib : flib R A) (names : list bs) : list (fdef R A) :=
  flat_map (fun n => match flGet lib n with Some d => [d] | None => [] end) names.
Definition made {R A} (u : url) (ds : list (fdef R A)) : list (finst R A) :=
  flat_map (fun d => match fdNew d u with Some i => [i] | None => [] end) ds.
Definition configured_cluster {R A} (lib : flib R A) (u : url) : list (finst R A) :=
  made u (filter (fun d => fdCluster d) (known lib (filter_names u))).
Definition configured_endpoint {R A} (lib : flib R A) (u : url) : list (fdef R A) :=
  filter (fun d => negb (fdCluster d)) (known lib (filter_names u)).
(* what NewFilter makes of them for one endpoint *)
Definition endpoint_filters {R A} (u : url) (ds : list (fdef R A)) : list (finst R A) := filter (fun i => fiEndpoint i) (made u ds).

Definition sorters_ok {R A} (lib : flib R A) : Prop :=
  (forall l, Permutation (flSortP lib l) l /\ StronglySorted (fun a b => (fdIndex b <= fdIndex a)%Z) (flSortP lib l)) /\
  (forall l, Permutation (flSortI lib l) l /\ StronglySorted (fun a b => (fiIndex b <= fiIndex a)%Z) (flSortI lib l)).

(* the request as the filters of the list leave it, if all of them pass it on; and what they make of the answer, first filter last *)
Fixpoint passed_on {R A} (l : list (finst R A)) (r : R) : option R :=
  match l with [] => Some r | f :: t => match fiBeh f r with inr (r', _) => passed_on t r' | inl _ => None end end.
Fixpoint rewritten {R A} (l : list (finst R A)) (r : R) (a : A) : A :=
  match l with [] => a | f :: t => match fiBeh f r with inr (r', post) => post (rewritten t r' a) | inl x => x end end.
Definition enters {R A} (l : list (finst R A)) : list fev := map (fun f => FEnter (fiName f)) l.
Definition leaves {R A} (l : list (finst R A)) : list fev := map (fun f => FLeave (fiName f)) (rev l).

(* a call through the filters of [order], the first one outermost *)
Definition goes_through {R A} (order : list (finst R A)) (call : (R -> A) -> R -> list fev * A) : Prop :=
  forall caller r,
    (forall r', passed_on order r = Some r' ->
       call caller r = (enters order ++ [FInner] ++ leaves order, rewritten order r (caller r'))) /\
    (forall before f after r' a, order = before ++ f :: after -> passed_on before r = Some r' -> fiBeh f r' = inl a ->
       call caller r = (enters (before ++ [f]) ++ leaves (before ++ [f]), rewritten before r a)).

(* a positive number of the URL, or the default *)
Definition positive_of (u : url) (k : bs) (d : Z) (v : Z) : Prop :=
  (int_param u k = Some v /\ (0 < v)%Z) \/ ((forall w, int_param u k = Some w -> (w <= 0)%Z) /\ v = d).
(* what the parameter says is an integer that fits, or no integer at all *)
Definition fits (u : url) (k : bs) : Prop := forall t, param u k = Some t -> snd (parseInt64 t) <> NumRange.
