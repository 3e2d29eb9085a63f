(* FailfastModel.v: model of filter/failfast.go.  Times are UnixNano values (int64); the sum 82 does not overflow before the year 2262. *)
From Verif Require Import Base Lists.
Local Open Scope Z_scope.

(* 27-32 endpointStatus; errorCount is a uint32 *)
Record eps := mkEps { epAvail : bool; epErr : N; epTime : Z }.
Definition failureCount : N := 10.
Definition nextTestTime : Z := 10000000000.
(* 34, 43-58: epsMap, one status per address, made on first use *)
Definition ffmap := list (bs * eps).
Definition getEps (m : ffmap) (addr : bs) (now : Z) : ffmap :=
  match aget bs_eqb m addr with Some _ => m | None => aset bs_eqb m addr (mkEps true 0 now) end.

(* ---- one call at a time *)
(* 62-72: what Filter does with the response; [ok]: not nil and without exception *)
Definition ffResult (e : eps) (ok : bool) (now : Z) : eps :=
  if ok then mkEps true 0 now
  else let c := ((epErr e + 1) mod 2 ^ 32)%N in
       mkEps (if (failureCount <=? c)%N then false else epAvail e) c now.
(* 76-89 IsAvailable *)
Definition ffAsk (e : eps) (now : Z) : eps * bool :=
  if epAvail e then (e, true)
  else if epTime e + nextTestTime <? now then (mkEps (epAvail e) (epErr e) now, true) else (e, false).
Inductive ffop := FNew (addr : bs) (now : Z) | FResult (addr : bs) (ok : bool) (now : Z) | FAsk (addr : bs) (now : Z).
(* a filter exists only for an address that has been registered by NewFilter (37-41) *)
Definition ffStep (m : ffmap) (o : ffop) : ffmap * option bool :=
  match o with
  | FNew a t => (getEps m a t, None)
  | FResult a ok t => (match aget bs_eqb m a with Some e => aset bs_eqb m a (ffResult e ok t) | None => m end, None)
  | FAsk a t => match aget bs_eqb m a with Some e => let (e', b) := ffAsk e t in (aset bs_eqb m a e', Some b) | None => (m, None) end
  end.
Definition ffRun (m : ffmap) (h : list ffop) : ffmap := fold_left (fun m o => fst (ffStep m o)) h m.

(* ---- many calls at once: every atomic access or mutex section is one step *)
Inductive ffpc :=
| PRes (ok : bool)       (* the response has arrived: about to run 63 or 67 *)
| PFailed (c : N)        (* 63 gave c: about to test and run 64 *)
| POk                    (* 67 done: about to read, 68 *)
| POkSet                 (* 69 *)
| PMark                  (* 72 *)
| PDone
| PAsk                   (* 78 *)
| PLoad                  (* 81 *)
| PCheck (v : Z)         (* 82 *)
| PCas (v : Z)           (* 83 *)
| PAns (b : bool).       (* 88 *)
(* what gets written to the time: by a result (72) or by an admitted probe (83) *)
Inductive ffev := EvMark (t : Z) | EvProbe (t : Z).
Definition ffStep1 (e : eps) (p : ffpc) (now : Z) : eps * ffpc * list ffev :=
  match p with
  | PRes false => let c := ((epErr e + 1) mod 2 ^ 32)%N in (mkEps (epAvail e) c (epTime e), PFailed c, [])
  | PFailed c => (mkEps (if (failureCount <=? c)%N then false else epAvail e) (epErr e) (epTime e), PMark, [])
  | PRes true => (mkEps (epAvail e) 0 (epTime e), POk, [])
  | POk => (e, if epAvail e then PMark else POkSet, [])
  | POkSet => (mkEps true (epErr e) (epTime e), PMark, [])
  | PMark => (mkEps (epAvail e) (epErr e) now, PDone, [EvMark now])
  | PAsk => (e, if epAvail e then PAns true else PLoad, [])
  | PLoad => (e, PCheck (epTime e), [])
  | PCheck v => (e, if v + nextTestTime <? now then PCas v else PAns false, [])
  | PCas v => if epTime e =? v then (mkEps (epAvail e) (epErr e) now, PAns true, [EvProbe now]) else (e, PAns false, [])
  | PDone | PAns _ => (e, p, [])
  end.
(* the calls in progress, by number; a call starts as PRes or PAsk *)
Inductive ffsched := SCall (p : ffpc) | SStep (i : nat).
Record ffst := mkFfst { fsEps : eps; fsCalls : list ffpc; fsLog : list ffev }.
Definition ffMove (s : ffst) (o : Z * ffsched) : ffst :=
  match snd o with
  | SCall p => mkFfst (fsEps s) (fsCalls s ++ [p]) (fsLog s)
  | SStep i => match nth_error (fsCalls s) i with
               | Some p => let '(e, p', l) := ffStep1 (fsEps s) p (fst o) in mkFfst e (list_set (fsCalls s) i p') (fsLog s ++ l)
               | None => s
               end
  end.
Definition ffMoves (s : ffst) (os : list (Z * ffsched)) : ffst := fold_left ffMove os s.
Definition ffInit (t0 : Z) : ffst := mkFfst (mkEps true 0 t0) [] [].
