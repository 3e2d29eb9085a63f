(* RepSpec.v: what C108 says, in terms of the calls made and of the configuration. *)
From Coq Require Import Permutation.
From Verif Require Import Base UrlModel UrlSpec MetricModel RepModel.
Local Open Scope Z_scope.

(* the first StartReporter of a history *)
Fixpoint first_start (os : list rop) : option (option mconf * option url) :=
  match os with [] => None | OStart c a :: _ => Some (c, a) | _ :: r => first_start r end.
(* the seconds between two reports, the number of event loops, the application *)
Definition seconds_of (c : option mconf) : Z := match c with Some m => if Z.ltb 0 (mcPeriod m) then mcPeriod m else 5 | None => 5 end.
Definition loops_of (c : option mconf) : Z :=
  match c with Some m => if Z.leb 2 (mcProcessor m) && Z.leb (mcProcessor m) 50 then mcProcessor m else 1 | None => 1 end.
Definition app_of (a : option url) : option bs := match a with Some u => Some (str_or u (s2b "application") (s2b "unknown")) | None => None end.
(* a period that fits: 2^63 ns are 9223372036.85 s *)
Definition fits (c : option mconf) : Prop := seconds_of c <= 9223372036.
Definition fits_first (os : list rop) : Prop := match first_start os with Some (c, _) => fits c | None => True end.

(* the writers offered, oldest first: those of the configuration the reporter was started with, and those of AddWriter *)
Definition of_conf (c : option mconf) : list (bs * writer) :=
  match c with Some m => map (fun g : bs * Z * bs => (snd g, WGraphite (fst (fst g)) (snd (fst g)))) (mcGraphite m) | None => [] end.
Fixpoint offered (started : bool) (os : list rop) : list (bs * writer) :=
  match os with
  | [] => []
  | OStart c _ :: r => (if started then [] else of_conf c) ++ offered true r
  | OWriter n (Some w) :: r => (n, w) :: offered started r
  | _ :: r => offered started r
  end.
Fixpoint latest {A} (n : bs) (l : list (bs * A)) : option A :=
  match l with
  | [] => None
  | (m, w) :: r => match latest n r with Some x => Some x | None => if bs_eqb m n then Some w else None end
  end.
(* the sampler registered under a key *)
Fixpoint sampler_at (k : bs) (os : list rop) (now : option nat) : option nat :=
  match os with
  | [] => now
  | ORegister k' f :: r => sampler_at k r (if bs_eqb k' k then Some f else now)
  | OUnregister k' :: r => sampler_at k r (if bs_eqb k' k then None else now)
  | _ :: r => sampler_at k r now
  end.
(* the gauge of one sampler *)
Definition gauge_of (app : bs) (val : nat -> Z) (x : bs * nat) : event :=
  mkEv KGauge (s2b "motan-stat") [] (s2b "status") [s2b "motan-agent"; app; fst x] [] (val (snd x)).
Definition panic_event (app : bs) : event :=
  mkEv KCounter (s2b "motan-stat") [] (s2b "status") [s2b "motan-agent"; app; s2b "panic"] (s2b ".total_count") 1.

(* ------------------------------------------------------------ items *)
Definition zsum (l : list Z) : Z := fold_right Z.add 0 l.
(* what an item has for a metric, what was reported of it, what is on its way to it *)
Definition live (s : itst) (key metric : bs) : Z :=
  match aget bs_eqb (tItems s) key with Some it => getc (counters s it) metric | None => 0 end.
Definition reported (s : itst) (key metric : bs) : Z :=
  zsum (map (fun r : bs * list (bs * Z) => if bs_eqb (fst r) key then getc (snd r) metric else 0) (tReported s)).
Definition coming (s : itst) (key metric : bs) : Z :=
  match aget bs_eqb (tItems s) key with
  | Some it => zsum (map (fun j => match j with JEvent m v i => if Nat.eqb i it && bs_eqb m metric then v else 0 | _ => 0 end) (tJobs s))
  | None => 0
  end.
(* the events of a history *)
Definition added (os : list itop) (key metric : bs) : Z :=
  zsum (map (fun o => match o with IEvent k m v => if bs_eqb k key && bs_eqb m metric then v else 0 | _ => 0 end) os).
Definition removes (o : itop) : Prop := match o with IRemove _ | IClearAll => True | _ => False end.
(* no removal is under way *)
Definition removing (j : ijob) : Prop := match j with JRemove _ _ => True | JClear (_ :: _) => True | _ => False end.
Definition settled (s : itst) : Prop := forall j, In j (tJobs s) -> ~ removing j.
Definition idle (s : itst) : Prop := forall j, In j (tJobs s) -> j = JOver \/ j = JClear [].
Definition same64 (a b : Z) : Prop := a mod 2 ^ 64 = b mod 2 ^ 64.
