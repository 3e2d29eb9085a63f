(* WefModel.v: lb/weightedEpRefresher.go as a process: what the weighted load balancer installs when its endpoint list is refreshed, when its
   ticker fires, and when the servers' answers come late.

   Endpoints are numbers (interface equality).  Parameters: the static weight of an endpoint (144-157 with [false], 159-175: LbModel.adjustWeight),
   whether its URL allows dynamic meta (217-222), and the answers of the meta service (MetaModel.v).  RefreshWeightedHolders is called under the
   cluster's notifyLock (cluster/motanCluster.go 121-132), so one at a time.  NotifyWeightChange reads the weights of all holders in one step; what
   it builds from them is LbModel.notifyWeightChange. *)
From Verif Require Import Base Strconv UrlModel MetaModel LbModel.

(* 205-211; the holders are in a heap, as the list and the goroutines share them *)
Record wh := mkWh { whEp : nat; whStatic : Z; whSup : bool; whDyn : Z }.
(* 224-229 *)
Definition whWeight (h : wh) : Z := if (0 <? whDyn h)%Z then whDyn h else whStatic h.
(* 96-116: a goroutine: not begun, after reading the old weight, done *)
Inductive rpc := RNew | RRead (old : Z) | RDone.
Record reader := mkReader { rHolder : nat; rPc : rpc }.
(* 144-157 with [true]: the service is not supported, another error, the value of the weight's key *)
Inductive wans := ANot | AErr | AWeight (text : bs).
(* 133-141: waiting; then 84, 85 *)
Inductive tpc := PWait | PStore | PNotify.
(* [tSending]: the waiting goroutine (122-133) is at 130 *)
Record task := mkTask { tReaders : list reader; tChanged : bool; tSending : bool; tPc : tpc }.
Record wef := mkWef {
  heap : list wh;
  stored : option (list nat);                (* weightedEpHolders *)
  inst : option (list (nat * Z));            (* what NotifyWeightChange saw when it last ran: endpoints and weights *)
  lst : option (list nat * task);            (* a RefreshWeightedHolders under way: the holders to be stored *)
  tik : option task;                         (* a refreshHolderDynamicWeightTask under way *)
  late : list reader;                        (* goroutines whose refreshDynamicWeight has returned *)
  cancelled : bool; stopped : bool;          (* 47, 182-183 *)
  crashed : bool;                            (* a send on a closed channel: the process ends *)
  said : list (nat * wans)                   (* the answers, by holder, newest first *)
}.
Definition winit : wef := mkWef [] None None None None [] false false false [].

(* 33-44 and 177-178: the period and whether ticks do anything; None: NewTicker panics, a period that is not positive *)
Definition newRefresher (u : curl) : option (Z * bool) :=
  let '(p, _) := getIntValue u (s2b "weightRefreshPeriodSecond") 3 in
  let d := wrapI64 (wrapI64 1000000000 * p) in
  if (d <=? 0)%Z then None else Some (d, getBoolValue (cUrl u) (s2b "dynamicMeta") true).

Section Env.
Variable static : nat -> Z.
Variable sup : nat -> bool.
Variable dynamic : bool.                     (* 28 supportDynamicWeight of the balancer's URL *)

(* 57-80: the list of all holders, the new ones, the heap *)
Definition findHolder (hp : list wh) (old : list nat) (e : nat) : option nat :=
  find (fun h => match nth_error hp h with Some x => Nat.eqb (whEp x) e | None => false end) old.
Fixpoint holdersFor (hp : list wh) (old : list nat) (eps : list nat) : list nat * list nat * list wh :=
  match eps with
  | [] => ([], [], hp)
  | e :: r =>
      match findHolder hp old e with
      | Some h => let '(a, n, hp') := holdersFor hp old r in (h :: a, n, hp')
      | None => let '(a, n, hp') := holdersFor (hp ++ [mkWh e (static e) (sup e) 0]) old r in (length hp :: a, length hp :: n, hp')
      end
  end.
(* 92-119: a goroutine for every holder that supports it *)
Definition readersFor (hp : list wh) (hs : list nat) : list reader :=
  flat_map (fun h => match nth_error hp h with Some x => if whSup x then [mkReader h RNew] else [] | None => [] end) hs.
Definition newTask (hp : list wh) (hs : list nat) : task := mkTask (readersFor hp hs) false false PWait.
Definition idle (t : task) : bool := forallb (fun r => match rPc r with RDone => true | _ => false end) (tReaders t).

Inductive which := WList | WTick | WLate.
Inductive wop :=
| OList (eps : list nat)                     (* OnRefresh *)
| OTick                                      (* 185-188 *)
| OBegin (k : which) (i : nat)               (* 98 *)
| OAnswer (k : which) (i : nat) (a : wans)   (* 100-114 *)
| OWaited (k : which)                        (* 123-130: the readers are done and the channel is open *)
| OTake (k : which)                          (* 138 *)
| OTimeout (k : which)                       (* 137, then 121 *)
| OStore                                     (* 84 *)
| ONotify (k : which)                        (* 85, 200 *)
| ODestroy                                   (* 46-48 *)
| OStop.                                     (* 182-184 *)

Definition setHeap (s : wef) hp said' := mkWef hp (stored s) (inst s) (lst s) (tik s) (late s) (cancelled s) (stopped s) (crashed s) said'.
Definition setLst (s : wef) l := mkWef (heap s) (stored s) (inst s) l (tik s) (late s) (cancelled s) (stopped s) (crashed s) (said s).
Definition setTik (s : wef) t := mkWef (heap s) (stored s) (inst s) (lst s) t (late s) (cancelled s) (stopped s) (crashed s) (said s).
Definition setLate (s : wef) l := mkWef (heap s) (stored s) (inst s) (lst s) (tik s) l (cancelled s) (stopped s) (crashed s) (said s).
Definition taskOf (s : wef) (k : which) : option task :=
  match k with WList => match lst s with Some (_, t) => Some t | None => None end | WTick => tik s | WLate => None end.
Definition setTask (s : wef) (k : which) (t : task) : wef :=
  match k with
  | WList => match lst s with Some (a, _) => setLst s (Some (a, t)) | None => s end
  | WTick => setTik s (Some t)
  | WLate => s
  end.
Definition readersOf (s : wef) (k : which) : list reader :=
  match k with WLate => late s | _ => match taskOf s k with Some t => tReaders t | None => [] end end.
(* [c]: needNotify is set *)
Definition setReaders (s : wef) (k : which) (rs : list reader) (c : bool) : wef :=
  match k with
  | WLate => setLate s rs
  | _ => match taskOf s k with Some t => setTask s k (mkTask rs (tChanged t || c) (tSending t) (tPc t)) | None => s end
  end.
(* refreshDynamicWeight returns: the goroutines still running go on; 83-85 or 199-201 *)
Definition returned (s : wef) (k : which) (t : task) : wef :=
  let s1 := setLate s (late s ++ filter (fun r => match rPc r with RDone => false | _ => true end) (tReaders t)) in
  match k with
  | WList => setTask s1 WList (mkTask [] (tChanged t) false PStore)
  | WTick => if tChanged t then setTask s1 WTick (mkTask [] true false PNotify) else setTik s1 None
  | WLate => s1
  end.
Definition seen (s : wef) : option (list (nat * Z)) :=
  match stored s with
  | None => inst s
  | Some hs => Some (flat_map (fun h => match nth_error (heap s) h with Some x => [(whEp x, whWeight x)] | None => [] end) hs)
  end.
Definition notified (s : wef) : wef := mkWef (heap s) (stored s) (seen s) (lst s) (tik s) (late s) (cancelled s) (stopped s) (crashed s) (said s).

Definition wstep1 (s : wef) (o : wop) : option wef :=
  match o with
  | OList eps =>
      match lst s with
      | Some _ => None
      | None =>
          let '(a, n, hp) := holdersFor (heap s) (match stored s with Some l => l | None => [] end) eps in
          let s1 := setHeap s hp (said s) in
          Some (setLst s1 (Some (a, match n with [] => mkTask [] false false PStore | _ => newTask hp n end)))
      end
  | OTick =>
      match tik s with
      | Some _ => None
      | None => if stopped s || negb dynamic then None
                else Some (setTik s (Some (newTask (heap s) (match stored s with Some l => l | None => [] end))))
      end
  | OBegin k i =>
      match nth_error (readersOf s k) i with
      | Some r => match rPc r, nth_error (heap s) (rHolder r) with
                  | RNew, Some x => Some (setReaders s k (list_set (readersOf s k) i (mkReader (rHolder r) (RRead (whDyn x)))) false)
                  | _, _ => None
                  end
      | None => None
      end
  | OAnswer k i a =>
      match nth_error (readersOf s k) i with
      | Some r =>
          match rPc r, nth_error (heap s) (rHolder r) with
          | RRead old, Some x =>
              let x' := match a with
                        | ANot => mkWh (whEp x) (whStatic x) false (whDyn x)
                        | AErr => x
                        | AWeight w => mkWh (whEp x) (whStatic x) (whSup x) (adjustWeight w 0)
                        end in
              let c := match a with AWeight w => negb (old =? adjustWeight w 0)%Z | _ => false end in
              Some (setReaders (setHeap s (list_set (heap s) (rHolder r) x') ((rHolder r, a) :: said s)) k
                               (list_set (readersOf s k) i (mkReader (rHolder r) RDone)) c)
          | _, _ => None
          end
      | None => None
      end
  | OWaited k =>
      match taskOf s k with
      | Some t => match tPc t with
                  | PWait => if idle t && negb (tSending t) then Some (setTask s k (mkTask (tReaders t) (tChanged t) true PWait)) else None
                  | _ => None
                  end
      | None => None
      end
  | OTake k =>
      match taskOf s k with
      | Some t => match tPc t with PWait => if tSending t then Some (returned s k t) else None | _ => None end
      | None => None
      end
  | OTimeout k =>
      match taskOf s k with
      | Some t =>
          match tPc t with
          | PWait => let s1 := returned s k t in
                     Some (mkWef (heap s1) (stored s1) (inst s1) (lst s1) (tik s1) (late s1) (cancelled s1) (stopped s1) (tSending t) (said s1))
          | _ => None
          end
      | None => None
      end
  | OStore =>
      match lst s with
      | Some (a, t) =>
          match tPc t with
          | PStore => Some (mkWef (heap s) (Some a) (inst s) (Some (a, mkTask [] (tChanged t) false PNotify)) (tik s) (late s) (cancelled s) (stopped s) (crashed s) (said s))
          | _ => None
          end
      | None => None
      end
  | ONotify k =>
      match taskOf s k with
      | Some t => match tPc t with
                  | PNotify => Some (match k with WList => setLst (notified s) None | _ => setTik (notified s) None end)
                  | _ => None
                  end
      | None => None
      end
  | ODestroy => Some (mkWef (heap s) (stored s) (inst s) (lst s) (tik s) (late s) true (stopped s) (crashed s) (said s))
  | OStop =>
      match tik s with
      | Some _ => None
      | None => if cancelled s && negb (stopped s) then Some (mkWef (heap s) (stored s) (inst s) (lst s) (tik s) (late s) true true (crashed s) (said s)) else None
      end
  end.
Definition wstep (s : wef) (o : wop) : option wef := if crashed s then None else wstep1 s o.
Fixpoint wruns (s : wef) (os : list wop) : option wef :=
  match os with [] => Some s | o :: r => match wstep s o with Some s' => wruns s' r | None => None end end.
End Env.
