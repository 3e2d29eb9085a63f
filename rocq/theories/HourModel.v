(* HourModel.v: the hourly rotation of a log file and the goroutine that deletes and compresses old ones
   (log/rotate.go 391-410 millRun and mill, 483-509 rotatePerHour).

   Times are in ns since 1970; the zone is [l_zone] ahead of UTC and does not change.  When a sleep ends and what the clock then shows are
   oracles.  Not modelled: what Rotate and millRunOnce do with the files (LogModel.v); a panic of Rotate, which would end the loop. *)
From Verif Require Import Base LogModel.
Local Open Scope Z_scope.

(* 496: time.Date of the next hour on the wall clock *)
Definition nextHour (zone now : Z) : Z := (hourOf (now + zone) + 1) * nsHour - zone.
(* 497-500 *)
Definition firstSleep (next now : Z) : Z := if Z.eqb (next - now) 0 then nsHour else next - now.

(* the goroutine in its sleep (502): now and nextRotateTime of the round, when it fell asleep, for how long; the rotations made, each with
   the time at which the backup's name was made *)
Record hst := mkHst { hNow : Z; hNext : Z; hSlept : Z; hDur : Z; hRot : list Z }.
Definition hround (zone now : Z) (rot : list Z) : hst := mkHst now (nextHour zone now) now (firstSleep (nextHour zone now) now) rot.
(* it starts at [t] *)
Definition hinit (zone t : Z) : hst := hround zone t [].
(* the sleep ends and the clock shows [w]; where it rotates, the name is made at [q] and the next round begins at [r] *)
Record wake := mkWake { wTime : Z; wName : Z; wAgain : Z }.
Definition hstep (zone : Z) (s : hst) (o : wake) : hst :=
  if Z.ltb (hNext s) (wTime o)                                     (* 503 *)
  then hround zone (wAgain o) (hRot s ++ [wName o])                (* 504-505, 495-500 *)
  else mkHst (hNow s) (hNext s) (wTime o) (hNext s - hNow s) (hRot s). (* 507 *)
Definition hruns (zone : Z) (s : hst) (l : list wake) : hst := fold_left (hstep zone) l s.

(* ------------------------------------------------------------ mill *)
(* millCh, whose capacity is 1; whether millRunOnce runs; how often the Once has run; the requests and the beginnings of runs, in order *)
Inductive mevent := MRequest | MBegin.
Record millst := mkMill { mlCh : bool; mlRunning : bool; mlStarted : nat; mlOnce : bool; mlLog : list mevent }.
Definition millinit : millst := mkMill false false 0 false [].
Inductive millop := MMill | MReceive | MFinish.
Definition millstep (s : millst) (o : millop) : option millst :=
  match o with
  | MMill => (* 400-410 *)
      Some (mkMill true (mlRunning s) (if mlOnce s then mlStarted s else S (mlStarted s)) true (mlLog s ++ [MRequest]))
  | MReceive => (* 392 *)
      if mlOnce s && mlCh s && negb (mlRunning s) then Some (mkMill false true (mlStarted s) true (mlLog s ++ [MBegin])) else None
  | MFinish => if mlRunning s then Some (mkMill (mlCh s) false (mlStarted s) (mlOnce s) (mlLog s)) else None
  end.
Fixpoint millruns (s : millst) (l : list millop) : option millst :=
  match l with [] => Some s | o :: r => match millstep s o with Some s' => millruns s' r | None => None end end.
