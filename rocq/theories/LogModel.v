(* LogModel.v: log/rotate.go (the rotating log file) and log/rotate_notwin.go.  The directory holding the log is a map
   from file names to contents (no sub-directories); no other process writes there.  The mutex makes Write, Rotate and
   Close atomic; the goroutine that deletes and compresses (millRun) does not take it, so its steps are separate. *)
From Verif Require Import Base GoStrings GoStrings2 Strconv UrlModel.

(* ------------------------------------------------------------ file names *)

(* filepath.Ext on a name without slashes: from the last dot; the empty string if there is none *)
Fixpoint extRev (r acc : bs) : option bs :=
  match r with [] => None | x :: r' => if byte_eqb x x2e then Some (x :: acc) else extRev r' (x :: acc) end.
Definition fileExt (name : bs) : bs := match extRev (rev name) [] with Some e => e | None => [] end.
Definition fileBase (name : bs) : bs := firstn (length name - length (fileExt name)) name.

(* settings.  Times are in nanoseconds since 1970.  [l_stamp]/[l_parse]: time.Format and time.Parse with the backup time
   format, on hours since 1970 (LocalTime: read on the wall clock, [l_zone] ahead of UTC; Parse always reads UTC). *)
Record lcfg := mkLcfg {
  l_name : bs; l_maxSize : Z; l_maxAge : Z; l_maxBackups : Z; l_compress : bool; l_perHour : bool; l_zone : Z;
  l_stamp : Z -> bs; l_parse : bs -> option Z }.
Definition nsHour : Z := 3600000000000.
Definition hourOf (t : Z) : Z := (t / nsHour)%Z.
Definition gzSuffix : bs := s2b ".gz".

(* rotate.go 458-463 max *)
Definition maxBytes (c : lcfg) : Z :=
  if (l_maxSize c =? 0)%Z then (1073741824 * 1048576)%Z else wrapI64 (l_maxSize c * 1048576).
(* 253-272 backupName *)
Definition backupName (c : lcfg) (t : Z) : bs :=
  let t := if l_perHour c then (t - nsHour)%Z else t in
  fileBase (l_name c) ++ s2b "-" ++ l_stamp c (hourOf (t + l_zone c)) ++ fileExt (l_name c).
(* 442-455 timeFromName; where prefix and extension overlap the slice expression would panic: see C88_no_panic *)
Definition timeFromName (c : lcfg) (n ext : bs) : option Z :=
  let pre := fileBase (l_name c) ++ s2b "-" in
  if negb (hasPrefix n pre) then None
  else if negb (hasSuffix n ext) then None
  else l_parse c (firstn (length n - length ext - length pre) (skipn (length pre) n)).
(* 412-437 oldLogFiles, before sorting *)
Definition backupTime (c : lcfg) (n : bs) : option Z :=
  match timeFromName c n (fileExt (l_name c)) with
  | Some h => Some h
  | None => timeFromName c n (fileExt (l_name c) ++ gzSuffix)
  end.
Definition oldLogFiles (c : lcfg) (fs : list (bs * bs)) : list (Z * bs) :=
  flat_map (fun n => match backupTime c n with Some h => [(h, n)] | None => [] end) (akeys fs).

(* ------------------------------------------------------------ state *)

Inductive task := TRemove (n : bs) | TCompress (n : bs).
(* the directory; the size the writer believes its open file has; what the cleaning goroutine has still to do *)
Record wst := mkW { w_fs : list (bs * bs); w_open : option Z; w_todo : list task }.
Definition content (fs : list (bs * bs)) (n : bs) : bs := match aget bs_eqb fs n with Some x => x | None => [] end.
Definition rename (fs : list (bs * bs)) (a b : bs) : list (bs * bs) :=
  match aget bs_eqb fs a with Some x => aset bs_eqb (adel bs_eqb fs a) b x | None => fs end.

(* which system calls fail *)
Record flt := mkFlt { f_stat : bool; f_stat2 : bool; f_append : bool; f_close : bool; f_mkdir : bool; f_rename : bool; f_create : bool; f_chown : bool; f_open : bool }.
Definition noFlt : flt := mkFlt false false false false false false false false false.
(* what happened, as seen from outside: bytes taken, a file moved aside at a time, a file deleted *)
Inductive lev := EWrote (b : bs) | EBackup (t : Z) (n x : bs) | ERemoved (n : bs).

(* 213-248 openNew and rotate_notwin.go 12-22 chown; the flag says whether it succeeded.  A failing stat counts as a
   missing file. *)
Definition openNew (c : lcfg) (t : Z) (f : flt) (s : wst) : wst * list lev * bool :=
  if f_mkdir f then (s, [], false)
  else
    let finish fs ev :=
      if f_open f then (mkW fs (w_open s) (w_todo s), ev, false)
      else (mkW (aset bs_eqb fs (l_name c) []) (Some 0%Z) (w_todo s), ev, true) in
    match aget bs_eqb (w_fs s) (l_name c), f_stat2 f with
    | Some x, false =>
        if f_rename f then (s, [], false)
        else
          let fs := rename (w_fs s) (l_name c) (backupName c t) in
          let ev := [EBackup t (backupName c t) x] in
          if f_create f then (mkW fs (w_open s) (w_todo s), ev, false)
          else
            let fs := aset bs_eqb fs (l_name c) [] in
            if f_chown f then (mkW fs (w_open s) (w_todo s), ev, false) else finish fs ev
    | _, _ => finish (w_fs s) []
    end.
(* 173-181 close, 195-208 rotate *)
Definition closeFile (s : wst) : wst := mkW (w_fs s) None (w_todo s).
Definition rotate (c : lcfg) (t : Z) (f : flt) (s : wst) : wst * list lev * bool :=
  match w_open s with
  | Some _ => if f_close f then (closeFile s, [], false) else openNew c t f (closeFile s)
  | None => openNew c t f s
  end.
(* 277-303 openExistingOrNew *)
Definition openExisting (c : lcfg) (len : Z) (t : Z) (f : flt) (s : wst) : wst * list lev * bool :=
  if f_stat f then (s, [], false)
  else
    match aget bs_eqb (w_fs s) (l_name c) with
    | None => openNew c t f s
    | Some x =>
        let size := Z.of_nat (length x) in
        if (maxBytes c <=? size + len)%Z then rotate c t f s
        else if f_append f then openNew c t f s
        else (mkW (w_fs s) (Some size) (w_todo s), [], true)
    end.
(* 136-162 Write; [n]: how many bytes the system took, all of them or fewer *)
Definition writeLog (c : lcfg) (p : bs) (t : Z) (f : flt) (n : nat) (s : wst) : wst * list lev * option nat :=
  let len := Z.of_nat (length p) in
  if (maxBytes c <? len)%Z then (s, [], None)
  else
    let '(s1, ev1, ok) := match w_open s with Some _ => (s, [], true) | None => openExisting c len t f s end in
    if negb ok then (s1, ev1, None)
    else
      let '(s2, ev2, ok) :=
        match w_open s1 with
        | Some size => if (maxBytes c <? size + len)%Z then rotate c t f s1 else (s1, [], true)
        | None => (s1, [], false)
        end in
      if negb ok then (s2, ev1 ++ ev2, None)
      else
        match w_open s2 with
        | Some size =>
            let taken := firstn n p in
            (mkW (aset bs_eqb (w_fs s2) (l_name c) (content (w_fs s2) (l_name c) ++ taken)) (Some (size + Z.of_nat (length taken))%Z) (w_todo s2),
             ev1 ++ ev2 ++ [EWrote taken], Some (length taken))
        | None => (s2, ev1 ++ ev2, None)
        end.

(* ------------------------------------------------------------ cleaning *)

(* 318-386 millRunOnce: what to remove and what to compress.  [ord]: the order sort.Sort leaves the files in. *)
Definition stripGz (n : bs) : bs := if hasSuffix n gzSuffix then firstn (length n - length gzSuffix) n else n.
(* 331-347: files in order, names seen so far *)
Fixpoint splitBackups (maxb : Z) (seen : list bs) (l : list (Z * bs)) : list (Z * bs) * list (Z * bs) :=
  match l with
  | [] => ([], [])
  | (h, n) :: r =>
      let seen := if existsb (bs_eqb (stripGz n)) seen then seen else stripGz n :: seen in
      let '(keep, rm) := splitBackups maxb seen r in
      if (maxb <? Z.of_nat (length seen))%Z then (keep, (h, n) :: rm) else ((h, n) :: keep, rm)
  end.
Definition millTasks (c : lcfg) (ord : list (Z * bs) -> list (Z * bs)) (now : Z) (fs : list (bs * bs)) : list task :=
  if (l_maxBackups c =? 0)%Z && (l_maxAge c =? 0)%Z && negb (l_compress c) then []
  else
    let files := ord (oldLogFiles c fs) in
    let '(files, rm1) :=
      if (0 <? l_maxBackups c)%Z && (l_maxBackups c <? Z.of_nat (length files))%Z then splitBackups (l_maxBackups c) [] files else (files, []) in
    let '(files, rm2) :=
      if (0 <? l_maxAge c)%Z then
        let cutoff := (now - wrapI64 (24 * nsHour * l_maxAge c))%Z in
        (filter (fun f => negb (fst f * nsHour <? cutoff)%Z) files, filter (fun f => (fst f * nsHour <? cutoff)%Z) files)
      else (files, []) in
    map (fun f => TRemove (snd f)) (rm1 ++ rm2) ++
    (if l_compress c then map (fun f => TCompress (snd f)) (filter (fun f => negb (hasSuffix (snd f) gzSuffix)) files) else []).
(* 507-559 compressLogFile: done; given up before the target was touched, with the target removed, or (also by a crash) with
   something left there *)
Inductive cout := CDone | CNone | CGone | CLeft (g : bs).
Definition compressFile (gzip : bs -> bs) (o : cout) (n : bs) (fs : list (bs * bs)) : list (bs * bs) :=
  match aget bs_eqb fs n with
  | None => fs
  | Some x =>
      match o with
      | CDone => adel bs_eqb (aset bs_eqb fs (n ++ gzSuffix) (gzip x)) n
      | CNone => fs
      | CGone => adel bs_eqb fs (n ++ gzSuffix)
      | CLeft g => aset bs_eqb fs (n ++ gzSuffix) g
      end
  end.
(* one task; [rmok]: os.Remove succeeded *)
Definition doTask (gzip : bs -> bs) (k : task) (rmok : bool) (o : cout) (fs : list (bs * bs)) : list (bs * bs) * list lev :=
  match k with
  | TRemove n => if rmok then (adel bs_eqb fs n, [ERemoved n]) else (fs, [])
  | TCompress n => (compressFile gzip o n fs, [])
  end.

(* ------------------------------------------------------------ runs *)

(* LRestart: the process ends, at any point between steps, and a new one starts *)
Inductive logop :=
| LWrite (p : bs) (t : Z) (f : flt) (n : nat) | LRotate (t : Z) (f : flt) | LClose
| LMill (now : Z) (ord : list (Z * bs) -> list (Z * bs)) | LTask (rmok : bool) (o : cout) | LRestart.
Definition logStep (gzip : bs -> bs) (c : lcfg) (s : wst) (o : logop) : wst * list lev :=
  match o with
  | LWrite p t f n => fst (writeLog c p t f n s)
  | LRotate t f => fst (rotate c t f s)
  | LClose => (closeFile s, [])
  | LMill now ord => match w_todo s with [] => (mkW (w_fs s) (w_open s) (millTasks c ord now (w_fs s)), []) | _ => (s, []) end
  | LTask rmok o =>
      match w_todo s with
      | [] => (s, [])
      | k :: r => let (fs, ev) := doTask gzip k rmok o (w_fs s) in (mkW fs (w_open s) r, ev)
      end
  | LRestart => (mkW (w_fs s) None [], [])
  end.
Fixpoint logRun (gzip : bs -> bs) (c : lcfg) (s : wst) (l : list logop) : wst * list lev :=
  match l with
  | [] => (s, [])
  | o :: r => let (s1, e1) := logStep gzip c s o in let (s2, e2) := logRun gzip c s1 r in (s2, e1 ++ e2)
  end.
(* a whole cleaning without interruption or failure *)
Definition cleanAll (gzip : bs -> bs) (c : lcfg) (ord : list (Z * bs) -> list (Z * bs)) (now : Z) (fs : list (bs * bs)) : list (bs * bs) :=
  fold_left (fun fs k => fst (doTask gzip k true CDone fs)) (millTasks c ord now fs) fs.
