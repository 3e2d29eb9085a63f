(* WatSpec.v *)
From Verif Require Import Base WatModel.

(* runs in which the node exists, the session is kept and the registry answers, and in which nobody subscribes anew before the goroutines of
   an earlier subscription have ended *)
Definition calm_op (s : wst) (o : wop) : Prop :=
  match o with
  | OSub _ ok => ok = true /\ (zLis s = None -> forall w, In w (zW s) -> wPh w = PDead)
  | OUp oks => forall b, In b oks -> b = true
  | OEvent _ ok => ok = true
  | ODelete | OExpire => False
  | _ => True
  end.
Inductive calm (cmd : bool) (ok : wop -> Prop) : wst -> Prop :=
| calm_init : calm cmd ok (winit true)
| calm_step : forall s o s', calm cmd ok s -> calm_op s o -> ok o -> wstep cmd s o = Some s' -> calm cmd ok s'.
Definition any (o : wop) : Prop := True.
Definition no_reconnect (o : wop) : Prop := match o with OUp _ => False | _ => True end.

(* no watching goroutine has anything to do *)
Definition quiet (s : wst) : Prop := forall w, In w (zW s) -> wPh w = PDead \/ (wPh w = PWait /\ wCh w = Armed).
(* what the listener has been told *)
Definition told (s : wst) (l : nat) : list (nat * list bs) := map snd (filter (fun e => fst e =? l) (zLog s)).
Definition subscribed (s : wst) (l v0 : nat) : Prop := exists ls, zLis s = Some ls /\ In (l, v0) ls.
(* the steps that the watchers take by themselves *)
Definition watcher_step (o : wop) : Prop := match o with OEvent _ ok => ok = true | ONotify _ => True | _ => False end.
