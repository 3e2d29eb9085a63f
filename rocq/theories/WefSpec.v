(* WefSpec.v: what the weighted load balancer should have installed, in terms of the calls made and the answers the servers gave. *)
From Verif Require Import Base Strconv LbModel WefModel.

Definition on_time (os : list wop) : Prop := forall k, ~ In (OTimeout k) os.
Definition quiet (s : wef) : Prop := lst s = None /\ tik s = None.
(* the endpoint list given last *)
Fixpoint last_list (os : list wop) (now : option (list nat)) : option (list nat) :=
  match os with [] => now | OList eps :: r => last_list r (Some eps) | _ :: r => last_list r now end.
(* the newest weight a holder's server has told; no weight counts as the empty text *)
Fixpoint told (said : list (nat * wans)) (h : nat) : option bs :=
  match said with
  | [] => None
  | (h', AWeight w) :: r => if Nat.eqb h h' then Some w else told r h
  | _ :: r => told r h
  end.
(* a number is taken within 1 and 500; anything else leaves the static weight *)
Definition weight_for (static : nat -> Z) (e : nat) (t : option bs) : Z :=
  match t with
  | Some (c :: w) => match parseInt64 (c :: w) with (z, NumOk) => Z.max 1 (Z.min 500 z) | _ => static e end
  | _ => static e
  end.
(* what is installed for the holders [hs] of the endpoints [eps] *)
Definition up_to_date (static : nat -> Z) (said : list (nat * wans)) (hs : list nat) (l : list (nat * Z)) : Prop :=
  Forall2 (fun h ew => snd ew = weight_for static (fst ew) (told said h)) hs l.
Definition refused (said : list (nat * wans)) (h : nat) : bool := existsb (fun x => Nat.eqb h (fst x) && match snd x with ANot => true | _ => false end) said.
Definition ep_of (s : wef) (h : nat) : option nat := option_map whEp (nth_error (heap s) h).
Definition holders (s : wef) : list nat := match stored s with Some l => l | None => [] end.
