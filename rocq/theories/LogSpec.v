(* LogSpec.v: what C88 says about the log file, apart from the model's helpers. *)
From Verif Require Import Base GoStrings GoStrings2 Strconv UrlModel LogModel.
From Coq Require Import Permutation Sorted.

(* the bytes the writer reported as written; the files moved aside, in order; the names deleted *)
Definition written (ev : list lev) : bs := flat_map (fun e => match e with EWrote b => b | _ => [] end) ev.
Definition backed (ev : list lev) : list (Z * bs * bs) := flat_map (fun e => match e with EBackup t n x => [(t, n, x)] | _ => [] end) ev.
Definition removed (ev : list lev) : list bs := flat_map (fun e => match e with ERemoved n => [n] | _ => [] end) ev.

(* the file's content can still be had, plain or compressed *)
Definition retrievable (gunzip : bs -> option bs) (fs : list (bs * bs)) (n x : bs) : Prop :=
  aget bs_eqb fs n = Some x \/ aget bs_eqb fs n = None /\ exists z, aget bs_eqb fs (n ++ s2b ".gz") = Some z /\ gunzip z = Some x.

(* hours that can be written in four digits for the year: 1970 to 9955 *)
Definition hour_ok (h : Z) : Prop := (0 <= h < 70000000)%Z.
(* what is assumed of time.Format and time.Parse *)
Definition clock_ok (c : lcfg) : Prop :=
  (forall h, hour_ok h -> l_parse c (l_stamp c h) = Some h) /\ forall h, ~ In x2e (l_stamp c h).
(* the hour on the wall clock of a rotation at [t] *)
Definition wall_hour (c : lcfg) (t : Z) : Z := ((t + l_zone c) / nsHour)%Z.

(* the faults an operation meets; its stat of the log file itself, just before moving it aside, is not among them *)
Definition stat_works (o : logop) : Prop := match o with LWrite _ _ f _ | LRotate _ f => f_stat2 f = false | _ => True end.

(* nothing in the directory has the name of a backup to come *)
Definition unused (fs : list (bs * bs)) (n : bs) : Prop :=
  forall k, In k (akeys fs) -> k <> n /\ k <> n ++ s2b ".gz" /\ k ++ s2b ".gz" <> n.

(* ------------------------------------------------------------ cleaning *)

Definition newest_first (ord : list (Z * bs) -> list (Z * bs)) : Prop :=
  forall l, Permutation (ord l) l /\ StronglySorted (fun a b => (fst b <= fst a)%Z) (ord l).
(* the name without a final .gz *)
Definition stem (n s : bs) : Prop := n = s ++ s2b ".gz" \/ n = s /\ ~ exists r, n = r ++ s2b ".gz".
Definition is_backup (c : lcfg) (n : bs) (h : Z) : Prop := backupTime c n = Some h.
(* backups of one hour differ in .gz only *)
Definition dir_ok (c : lcfg) (fs : list (bs * bs)) : Prop :=
  NoDup (akeys fs) /\
  forall n1 n2 h1 h2 s1 s2, In n1 (akeys fs) -> In n2 (akeys fs) -> is_backup c n1 h1 -> is_backup c n2 h2 -> stem n1 s1 -> stem n2 s2 ->
    (s1 = s2 <-> h1 = h2).
(* at least [k] different hours later than [h] have backups *)
Definition later_hours (c : lcfg) (fs : list (bs * bs)) (h : Z) (k : nat) : Prop :=
  exists l, NoDup l /\ length l = k /\ forall h', In h' l -> (h < h')%Z /\ exists n, In n (akeys fs) /\ is_backup c n h'.
Definition too_many (c : lcfg) (fs : list (bs * bs)) (h : Z) : Prop := (0 < l_maxBackups c)%Z /\ later_hours c fs h (Z.to_nat (l_maxBackups c)).
Definition too_old (c : lcfg) (now h : Z) : Prop := (0 < l_maxAge c)%Z /\ (h * nsHour < now - l_maxAge c * (24 * nsHour))%Z.

(* ------------------------------------------------------------ nothing lost *)

(* the files around the log, and their names: no name twice, none the compressed form of another *)
Definition around (c : lcfg) (fs : list (bs * bs)) : list (bs * bs) := filter (fun f => negb (bs_eqb (fst f) (l_name c))) fs.
Definition apart (l : list bs) : Prop := NoDup l /\ forall m n, In m l -> In n l -> m ++ s2b ".gz" <> n.

(* the sort used by the cleaning puts newest first, ties in any order *)
Definition sorts (o : logop) : Prop := match o with LMill _ ord => newest_first ord | _ => True end.
Definition start (fs : list (bs * bs)) : wst := mkW fs None [].
(* the hour a rotation at [t] is named after can be written *)
Definition time_ok (c : lcfg) (t : Z) : Prop := hour_ok (if l_perHour c then wall_hour c t - 1 else wall_hour c t)%Z.
