(* RepModel.v: model of the metrics reporter's start, its writers, the status samplers, the panic counter and the removal of items
   (metrics/metrics.go 111-191, 272-293, 797-912; metrics/sampler/sampler.go; metrics/graphite.go 48-56; core/util.go 178-188).

   Oracles: what the configuration's "metrics" section decodes to (GetStruct), what a sampler or a writer does, the order in which a map
   is visited.  Not modelled: the path of an event behind the bus (CountModel.v) and the text a graphite writer sends (MetricModel.v). *)
From Verif Require Import Base UrlModel MetricModel.
Local Open Scope Z_scope.

(* 797-801 the section: Period, Processor, and for each graphite its Host, Port and Name *)
Inductive writer := WGraphite (host : bs) (port : Z) | WOwn (n : nat).
Record mconf := mkMconf { mcPeriod : Z; mcProcessor : Z; mcGraphite : list (bs * Z * bs) }.
(* what a call of a sampler does: a value, a panic, or a call of RegisterStatusSampler or UnregisterStatusSampler, for which it waits *)
Inductive sampled := SValue (z : Z) | SPanic | SRegisters.
(* what Write does *)
Inductive wrote := WOk | WErr | WPanic.

Record rst := mkRst {
  rOnce : bool;                        (* start.Do has run *)
  rInterval : Z;                       (* rp.interval, ns *)
  rProcs : Z;                          (* rp.processor *)
  rLoops : Z; rSinks : Z;              (* event loops and sinks started *)
  rDead : bool;                        (* a goroutine panicked without a recover: the process is gone *)
  rWriters : list (bs * writer);
  rApp : option bs;                    (* the application PanicStatFunc and the status samples are made with *)
  rSamplers : list (bs * nat);
  rStuck : bool;                       (* statusSamplerRegisterLock is held for ever *)
  rBus : list event;
  rOffered : list event;               (* every event sendEventWithKeys was called with *)
  rLog : list (bs * writer * list snap) (* what was handed to a writer *) }.
Definition rinit : rst := mkRst false (5 * 1000000000) 1 0 0 false [] None [] false [] [] [].

Inductive rop :=
| OStart (conf : option mconf) (agent : option url)   (* StartReporter; None: GetStruct fails; the context's AgentURL *)
| OWriter (name : bs) (w : option writer)             (* AddWriter; None: a nil writer *)
| ORegister (key : bs) (f : nat) | OUnregister (key : bs)
| OSample (order : list (bs * nat)) (val : nat -> sampled)   (* a tick of startSampleStatus *)
| OPanic                                              (* HandlePanic recovers a panic somewhere *)
| OSink (snaps : list snap) (order : list (bs * writer)) (res : writer -> wrote)  (* a tick of sink *)
| OTakeEv.                                            (* an event loop takes an event *)

Definition setWriters (s : rst) (w : list (bs * writer)) : rst :=
  mkRst (rOnce s) (rInterval s) (rProcs s) (rLoops s) (rSinks s) (rDead s) w (rApp s) (rSamplers s) (rStuck s) (rBus s) (rOffered s) (rLog s).
Definition setSamplers (s : rst) (l : list (bs * nat)) : rst :=
  mkRst (rOnce s) (rInterval s) (rProcs s) (rLoops s) (rSinks s) (rDead s) (rWriters s) (rApp s) l (rStuck s) (rBus s) (rOffered s) (rLog s).
Definition setStuck (s : rst) : rst :=
  mkRst (rOnce s) (rInterval s) (rProcs s) (rLoops s) (rSinks s) (rDead s) (rWriters s) (rApp s) (rSamplers s) true (rBus s) (rOffered s) (rLog s).
Definition setBus (s : rst) (b o : list event) : rst :=
  mkRst (rOnce s) (rInterval s) (rProcs s) (rLoops s) (rSinks s) (rDead s) (rWriters s) (rApp s) (rSamplers s) (rStuck s) b o (rLog s).
Definition setLog (s : rst) (l : list (bs * writer * list snap)) : rst :=
  mkRst (rOnce s) (rInterval s) (rProcs s) (rLoops s) (rSinks s) (rDead s) (rWriters s) (rApp s) (rSamplers s) (rStuck s) (rBus s) (rOffered s) l.

(* 860-867 addWriter *)
Definition addWriter (m : list (bs * writer)) (name : bs) (w : option writer) : list (bs * writer) :=
  match w with
  | Some w => if bs_eqb name [] then m else aset bs_eqb m name w
  | None => m
  end.
(* 237-251 sendEventWithKeys, [cap] the size of the bus *)
Definition offer (cap : nat) (s : rst) (e : event) : rst :=
  setBus s (if Nat.ltb (length (rBus s)) cap then rBus s ++ [e] else rBus s) (rOffered s ++ [e]).
(* core/util.go 178-188 HandlePanic (its log and the function given to it apart), 828-832 *)
Definition countPanic (cap : nat) (s : rst) : rst :=
  match rApp s with
  | Some app => offer cap s (mkEv KCounter (s2b "motan-stat") [] (s2b "status") [s2b "motan-agent"; app; s2b "panic"] (s2b ".total_count") 1)
  | None => s
  end.
(* 276-283 sampleStatus, sampler.go 39-47 RangeDo: the lock is given back by a defer *)
Fixpoint sampleAll (cap : nat) (app : bs) (val : nat -> sampled) (l : list (bs * nat)) (s : rst) : rst :=
  match l with
  | [] => s
  | (k, f) :: r =>
      match val f with
      | SValue z => sampleAll cap app val r (offer cap s (mkEv KGauge (s2b "motan-stat") [] (s2b "status") [s2b "motan-agent"; app; k] [] z))
      | SPanic => countPanic cap s
      | SRegisters => setStuck s
      end
  end.
(* 892-896: the loop over the writers; a panic leaves the function and is recovered by 887 *)
Fixpoint writeAll (cap : nat) (res : writer -> wrote) (snaps : list snap) (l : list (bs * writer)) (s : rst) : rst :=
  match l with
  | [] => s
  | (n, w) :: r =>
      let s' := setLog s (rLog s ++ [(n, w, snaps)]) in
      match res w with WPanic => countPanic cap s' | _ => writeAll cap res snaps r s' end
  end.
(* 803-836 StartReporter.  time.NewTicker of sink (884) panics for an interval that is not positive, and nothing recovers it *)
Definition startReporter (s : rst) (conf : option mconf) (agent : option url) : rst :=
  if rOnce s then s else
  let iv := match conf with Some c => if Z.ltb 0 (mcPeriod c) then wrapI64 (mcPeriod c * 1000000000) else rInterval s | None => rInterval s end in
  let np := match conf with Some c => if Z.ltb 1 (mcProcessor c) && Z.leb (mcProcessor c) 50 then mcProcessor c else rProcs s | None => rProcs s end in
  let ws := match conf with
            | Some c => fold_left (fun m (g : bs * Z * bs) => let '(h, p, n) := g in addWriter m n (Some (WGraphite h p))) (mcGraphite c) (rWriters s)
            | None => rWriters s end in
  mkRst true iv np np 1 (Z.leb iv 0) ws
        (match agent with Some u => Some (getParam u (s2b "application") (s2b "unknown")) | None => rApp s end)
        (rSamplers s) (rStuck s) (rBus s) (rOffered s) (rLog s).

Definition rstep (cap : nat) (s : rst) (o : rop) : option rst :=
  if rDead s then None else
  match o with
  | OStart conf agent => Some (startReporter s conf agent)
  | OWriter n w => Some (setWriters s (addWriter (rWriters s) n w))
  | ORegister k f => if rStuck s then None else Some (setSamplers s (aset bs_eqb (rSamplers s) k f))   (* sampler.go 26-30 *)
  | OUnregister k => if rStuck s then None else Some (setSamplers s (adel bs_eqb (rSamplers s) k))     (* sampler.go 32-36 *)
  | OSample order val =>
      match rApp s with
      | Some app => if rStuck s then None else Some (sampleAll cap app val order s)
      | None => None
      end
  | OPanic => Some (countPanic cap s)
  | OSink snaps order res =>
      if Z.eqb (rSinks s) 0 then None else
      match snaps, rWriters s with                                              (* 889 *)
      | _ :: _, _ :: _ => Some (writeAll cap res snaps order s)
      | _, _ => Some s
      end
  | OTakeEv => if Z.eqb (rLoops s) 0 then None else match rBus s with [] => None | _ :: r => Some (setBus s r (rOffered s)) end
  end.
(* the orders of the maps are theirs *)
Fixpoint rruns (cap : nat) (s : rst) (os : list rop) : option rst :=
  match os with [] => Some s | o :: r => match rstep cap s o with Some s' => rruns cap s' r | None => None end end.

(* ------------------------------------------------------------ removal of items
   Atomic steps: one locked section of items, one call of an item.  An item is the number it was made with, its metrics are counters. *)
Inductive rmpc := RGot (it : nat) | RDeleted (it : nat).
Inductive ijob := JEvent (metric : bs) (v : Z) (it : nat) | JRemove (key : bs) (p : rmpc) | JClear (left : list nat) | JOver.
Record itst := mkItst {
  tItems : list (bs * nat);             (* items *)
  tStore : list (list (bs * Z));        (* the counters of every item made *)
  tJobs : list ijob;
  tReported : list (bs * list (bs * Z)) (* the snapshots taken, with the key of the item *) }.
Definition itinit : itst := mkItst [] [] [] [].
Inductive itop :=
| IEvent (key metric : bs) (v : Z)   (* processEvent up to GetOrRegisterStatItem (871) *)
| IRemove (key : bs)                 (* RMStatItem up to safeGet (132-133) *)
| IClearAll                          (* ClearStatItems up to safeExchangeNew (141) *)
| IStep (j : nat)                    (* the next step of a job *)
| IReport (key : bs).                (* snapshot of the item under the key (906-909) *)
Definition counters (s : itst) (it : nat) : list (bs * Z) := match nth_error (tStore s) it with Some m => m | None => [] end.
Definition getc (m : list (bs * Z)) (k : bs) : Z := match aget bs_eqb m k with Some v => v | None => 0 end.
Definition itstep (s : itst) (o : itop) : option itst :=
  match o with
  | IEvent key metric v => (* 111-118, 173-182 *)
      match aget bs_eqb (tItems s) key with
      | Some it => Some (mkItst (tItems s) (tStore s) (tJobs s ++ [JEvent metric v it]) (tReported s))
      | None => Some (mkItst (aset bs_eqb (tItems s) key (length (tStore s))) (tStore s ++ [[]])
                             (tJobs s ++ [JEvent metric v (length (tStore s))]) (tReported s))
      end
  | IRemove key => (* 131-138 *)
      match aget bs_eqb (tItems s) key with
      | Some it => Some (mkItst (tItems s) (tStore s) (tJobs s ++ [JRemove key (RGot it)]) (tReported s))
      | None => Some (mkItst (tItems s) (tStore s) (tJobs s ++ [JOver]) (tReported s))
      end
  | IClearAll => (* 140-145, 185-191 *)
      Some (mkItst [] (tStore s) (tJobs s ++ [JClear (map snd (tItems s))]) (tReported s))
  | IStep j =>
      match nth_error (tJobs s) j with
      | Some (JEvent metric v it) => (* 377-383 AddCounter *)
          Some (mkItst (tItems s) (list_set (tStore s) it (aset bs_eqb (counters s it) metric (wrapI64 (getc (counters s it) metric + v))))
                       (list_set (tJobs s) j JOver) (tReported s))
      | Some (JRemove key (RGot it)) => (* 135 safeDelete *)
          Some (mkItst (adel bs_eqb (tItems s) key) (tStore s) (list_set (tJobs s) j (JRemove key (RDeleted it))) (tReported s))
      | Some (JRemove key (RDeleted it)) => (* 136 Clear *)
          Some (mkItst (tItems s) (list_set (tStore s) it []) (list_set (tJobs s) j JOver) (tReported s))
      | Some (JClear (it :: l)) => Some (mkItst (tItems s) (list_set (tStore s) it []) (list_set (tJobs s) j (JClear l)) (tReported s))
      | _ => None
      end
  | IReport key =>
      match aget bs_eqb (tItems s) key with
      | Some it => Some (mkItst (tItems s) (list_set (tStore s) it []) (tJobs s) (tReported s ++ [(key, counters s it)]))
      | None => None
      end
  end.
Fixpoint itruns (s : itst) (os : list itop) : option itst :=
  match os with [] => Some s | o :: r => match itstep s o with Some s' => itruns s' r | None => None end end.
