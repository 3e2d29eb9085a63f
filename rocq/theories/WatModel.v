(* WatModel.v: subscriptions and commands at the ZooKeeper registry (registry/zkRegistry.go 81-97, 115-135, 177-272, 290-392): listeners,
   the goroutines that watch a node, and the channels that end them.

   One node of the registry is modelled: the maps of the code are keyed by path and no operation touches two paths.  The content of the node is
   the list of its children for a service; for a command node with data d it is [d], and [] when the data is empty.  Atomic steps: a call under
   subscribeLock up to the point where it waits for a channel; one receive of a watcher, with the read that follows it; the notification of all
   listeners; close and delete after "false" was received (254-258).  The go-zookeeper client is taken to deliver one event on each watch channel
   and to close the channel then, as it does.  Not modelled: unsynchronised access to the maps by the watchers beyond the order of these steps,
   registering as a client (224-228), snapshots (SnapModel.v), the URLs made of the nodes (ZkModel.v nodeChildsToURLs). *)
From Verif Require Import Base.

Inductive chan := Armed | Changed | Deleted | NotWatching | Drained. (* nothing yet; an event waits; the event was taken and the channel is closed *)
Inductive phase := PWait | PNotify (v : nat) (c : list bs) | PClose | PDelete | PDead.
Record wat := mkWat { wCh : chan; wPh : phase; wSw : nat }.
Record wst := mkW {
  zExists : bool; zNodes : list bs; zVer : nat;  (* the node at the registry; zVer counts its changes *)
  zAvail : bool;
  zLis : option (list (nat * nat));              (* subscribedServiceMap[path]: the listeners; the second number only records when: the zVer at the time *)
  zSw : option nat;                              (* switcherMap[path] *)
  zClosed : list nat; zNext : nat;               (* the closed switcher channels, the next new one *)
  zW : list wat;                                 (* the goroutines *)
  zBlocked : option nat;                         (* an Unsubscribe that sends on this channel and holds subscribeLock *)
  zLog : list (nat * (nat * list bs))            (* notifications: listener, version and content *)
}.
Definition winit (ex : bool) : wst := mkW ex [] 0 true None None [] 0 [] None [].

Inductive wop :=
| OSub (l : nat) (ok : bool)      (* Subscribe; ok: the registry answers without error *)
| OUnsub (l : nat)
| OSend (i : nat)                 (* the waiting Unsubscribe hands false to watcher i *)
| OPanic                          (* ... or finds the channel closed *)
| OChange (c : list bs) | OCreate | ODelete   (* at the registry *)
| ODown | OExpire | OUp (oks : list bool)     (* connection lost, session lost, connection back *)
| OEvent (i : nat) (ok : bool)    (* watcher i receives from its watch; ok: the next read succeeds *)
| ONotify (i : nat) | OClose (i : nat) | ODel (i : nat)
| OSwitch (i : nat).              (* watcher i receives from a closed switcher channel *)

Definition setW (s : wst) (i : nat) (w : wat) : wst :=
  mkW (zExists s) (zNodes s) (zVer s) (zAvail s) (zLis s) (zSw s) (zClosed s) (zNext s) (list_set (zW s) i w) (zBlocked s) (zLog s).
(* go-zookeeper: all channels waiting for the node get the event *)
Definition fire (e : chan) (ws : list wat) : list wat := map (fun w => match wCh w with Armed => mkWat e (wPh w) (wSw w) | _ => w end) ws.
Definition setNode (s : wst) (ex : bool) (c : list bs) (v : nat) (ws : list wat) : wst :=
  mkW ex c v (zAvail s) (zLis s) (zSw s) (zClosed s) (zNext s) ws (zBlocked s) (zLog s).
Definition setLis (s : wst) (l : option (list (nat * nat))) : wst :=
  mkW (zExists s) (zNodes s) (zVer s) (zAvail s) l (zSw s) (zClosed s) (zNext s) (zW s) (zBlocked s) (zLog s).
Definition setBlk (s : wst) (b : option nat) : wst :=
  mkW (zExists s) (zNodes s) (zVer s) (zAvail s) (zLis s) (zSw s) (zClosed s) (zNext s) (zW s) b (zLog s).
Definition setAv (s : wst) (b : bool) (ws : list wat) : wst :=
  mkW (zExists s) (zNodes s) (zVer s) b (zLis s) (zSw s) (zClosed s) (zNext s) ws (zBlocked s) (zLog s).

(* 198-262 doSubscribe and, with cmd, 316-368 doSubscribeCommand, which creates the node when it is missing (329-331; if that fails the read
   after it fails, [ok] is false) *)
Definition doSub (cmd : bool) (s : wst) (ok : bool) : wst :=
  if negb ok || (negb cmd && negb (zExists s)) then s
  else
    let '(c, next) := match zSw s with Some c => (c, zNext s) | None => (zNext s, S (zNext s)) end in
    mkW true (zNodes s) (zVer s) (zAvail s) (zLis s) (Some c) (zClosed s) next (zW s ++ [mkWat Armed PWait c]) (zBlocked s) (zLog s).

Definition addLis (ls : list (nat * nat)) (l v : nat) : list (nat * nat) := filter (fun e => negb (fst e =? l)) ls ++ [(l, v)].
Definition delLis (ls : list (nat * nat)) (l : nat) : list (nat * nat) := filter (fun e => negb (fst e =? l)) ls.
Fixpoint ups (cmd : bool) (s : wst) (oks : list bool) : wst := match oks with [] => s | ok :: r => ups cmd (doSub cmd s ok) r end.

Definition wstep (cmd : bool) (s : wst) (o : wop) : option wst :=
  match o with
  (* 177-196, 290-314 *)
  | OSub l ok =>
      match zBlocked s with
      | Some _ => None
      | None =>
          if negb (zAvail s) then Some s
          else match zLis s with
               | Some ls => Some (setLis s (Some (addLis ls l (zVer s))))
               | None => Some (doSub cmd (setLis s (Some [(l, zVer s)])) ok)
               end
      end
  (* 264-281, 370-392 *)
  | OUnsub l =>
      match zBlocked s with
      | Some _ => None
      | None =>
          if negb (zAvail s) then Some s
          else match zLis s with
               | None => Some s
               | Some ls =>
                   let s1 := setLis s (Some (delLis ls l)) in
                   match zSw s, delLis ls l with
                   | Some c, [] => Some (setBlk s1 (Some c))
                   | _, _ => Some s1
                   end
               end
      end
  | OSend i =>
      match zBlocked s, nth_error (zW s) i with
      | Some c, Some w =>
          match wPh w with
          | PWait => if (wSw w =? c) && negb (existsb (Nat.eqb c) (zClosed s))
                     then Some (setBlk (setLis (setW s i (mkWat (wCh w) PClose (wSw w))) None) None) else None
          | _ => None
          end
      | _, _ => None
      end
  | OPanic => match zBlocked s with Some c => if existsb (Nat.eqb c) (zClosed s) then Some (setBlk s None) else None | None => None end
  | OChange c => if zExists s then Some (setNode s true c (S (zVer s)) (fire Changed (zW s))) else None
  | OCreate => if zExists s then None else Some (setNode s true [] (zVer s) (zW s))
  | ODelete => if zExists s then Some (setNode s false [] (S (zVer s)) (fire Deleted (zW s))) else None
  (* 81-97 *)
  | ODown => Some (setAv s false (zW s))
  | OExpire => if zAvail s then None else Some (setAv s false (fire NotWatching (zW s)))
  (* 115-135: one call for each listener *)
  | OUp oks =>
      match zBlocked s with
      | Some _ => None
      | None => if zAvail s then None
                else let ls := match zLis s with Some ls => ls | None => [] end in
                     if length oks =? length ls then Some (ups cmd (setAv s true (zW s)) oks) else None
      end
  (* 232-252, 343-361 *)
  | OEvent i ok =>
      match nth_error (zW s) i with
      | Some w => match wPh w, wCh w with
                  | PWait, Changed => Some (setW s i (if ok && zExists s then mkWat Armed (PNotify (zVer s) (zNodes s)) (wSw w) else mkWat Drained PWait (wSw w)))
                  | PWait, Deleted => Some (setW s i (mkWat Drained PWait (wSw w)))
                  | PWait, NotWatching => Some (setW s i (mkWat Drained PDead (wSw w)))
                  | PWait, Drained => Some s
                  | _, _ => None
                  end
      | None => None
      end
  (* 239-245, 350-356 *)
  | ONotify i =>
      match nth_error (zW s) i with
      | Some w => match wPh w with
                  | PNotify v c =>
                      let s1 := setW s i (mkWat (wCh w) PWait (wSw w)) in
                      let new := match zLis s, c with Some ls, _ :: _ => map (fun e => (fst e, (v, c))) ls | _, _ => [] end in
                      Some (mkW (zExists s1) (zNodes s1) (zVer s1) (zAvail s1) (zLis s1) (zSw s1) (zClosed s1) (zNext s1) (zW s1) (zBlocked s1) (zLog s1 ++ new))
                  | _ => None
                  end
      | None => None
      end
  (* 253-258, 362-367 *)
  | OClose i =>
      match nth_error (zW s) i with
      | Some w => match wPh w with
                  | PClose =>
                      if existsb (Nat.eqb (wSw w)) (zClosed s) then Some (setW s i (mkWat (wCh w) PDead (wSw w)))  (* close of a closed channel: recovered *)
                      else let s1 := setW s i (mkWat (wCh w) PDelete (wSw w)) in
                           Some (mkW (zExists s1) (zNodes s1) (zVer s1) (zAvail s1) (zLis s1) (zSw s1) (wSw w :: zClosed s1) (zNext s1) (zW s1) (zBlocked s1) (zLog s1))
                  | _ => None
                  end
      | None => None
      end
  | ODel i =>
      match nth_error (zW s) i with
      | Some w => match wPh w with
                  | PDelete =>
                      let s1 := setW s i (mkWat (wCh w) PDead (wSw w)) in
                      Some (mkW (zExists s1) (zNodes s1) (zVer s1) (zAvail s1) (zLis s1) None (zClosed s1) (zNext s1) (zW s1) (zBlocked s1) (zLog s1))
                  | _ => None
                  end
      | None => None
      end
  | OSwitch i =>
      match nth_error (zW s) i with
      | Some w => match wPh w with
                  | PWait => if existsb (Nat.eqb (wSw w)) (zClosed s) then Some (setW s i (mkWat (wCh w) PClose (wSw w))) else None
                  | _ => None
                  end
      | None => None
      end
  end.
Fixpoint wruns (cmd : bool) (s : wst) (os : list wop) : option wst :=
  match os with [] => Some s | o :: r => match wstep cmd s o with Some s' => wruns cmd s' r | None => None end end.
