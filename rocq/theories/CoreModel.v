(* CoreModel.v: model of core/map.go CopyOnWriteMap, core/motan.go CircularRecorder and core/switcher.go. *)
From Verif Require Import Base Lists Strconv.

(* ================================================================ core/motan.go 1265-1321 CircularRecorder *)
(* [None] items are nil interfaces.  The ring (container/ring) is the list of its slots read from the current element on;
   ring.New of a size below 1 is a nil ring, the empty list *)
Record recItem (V : Type) := mkItem { itTime : Z; itValue : V }.
Arguments mkItem {V}. Arguments itTime {V}. Arguments itValue {V}.
(* 1277-1283 *)
Definition newRecorder (V : Type) (size : Z) : list (option (recItem V)) := repeat None (Z.to_nat size).
(* 1285-1296; None = nil dereference of the empty ring *)
Definition addRecord {V} (r : list (option (recItem V))) (now : Z) (item : option V) : option (list (option (recItem V))) :=
  match item with
  | None => Some r
  | Some v => match r with [] => None | _ :: rest => Some (rest ++ [Some (mkItem now v)]) end
  end.
(* 1315-1321 *)
Definition recordKey (idx time : Z) : bs := fmtZ idx ++ [x3a] ++ fmtZ time.
(* 1298-1313 *)
Fixpoint collect {V} (r : list (option (recItem V))) (idx : Z) (records : list (bs * V)) : list (bs * V) :=
  match r with
  | [] => records
  | None :: r' => collect r' idx records
  | Some it :: r' => collect r' (idx + 1)%Z (aset bs_eqb records (recordKey idx (itTime it)) (itValue it))
  end.
Definition getRecords {V} (r : list (option (recItem V))) : list (bs * V) := collect r 0 [].
Fixpoint addAll {V} (r : list (option (recItem V))) (l : list (Z * option V)) : option (list (option (recItem V))) :=
  match l with [] => Some r | (t, v) :: l' => match addRecord r t v with Some r' => addAll r' l' | None => None end end.

(* the key buffer is a field written under the read lock: the steps of two readers may interleave *)
Inductive kstep := KReset | KIdx (i : Z) | KColon | KTime (t : Z) | KTake.
Definition keyProgram (idx time : Z) : list kstep := [KReset; KIdx idx; KColon; KTime time; KTake].
(* [run buf l]: l is the interleaving, each step with its reader; the result lists the keys taken *)
Fixpoint keyRun (buf : bs) (l : list (nat * kstep)) : list (nat * bs) :=
  match l with
  | [] => []
  | (t, KReset) :: r => keyRun [] r
  | (t, KIdx i) :: r => keyRun (buf ++ fmtZ i) r
  | (t, KColon) :: r => keyRun (buf ++ [x3a]) r
  | (t, KTime z) :: r => keyRun (buf ++ fmtZ z) r
  | (t, KTake) :: r => (t, buf) :: keyRun buf r
  end.

(* ================================================================ core/map.go 89-174 CopyOnWriteMap *)
Section Cow.
Context {V : Type}.
Definition amap := list (bs * V).
(* the writing operations: Store 123-127 and UnsafeStore 129-137, Delete 139-156, Swap 162-168 *)
Inductive wop := WStore (k : bs) (v : V) | WDelete (k : bs) | WSwap (m : amap).
(* map objects live on a heap and are known by their address; the atomic value holds the current one, nil at first.
   pend: a writer that has read the current map and not yet published; rng: the map a Range iterates over *)
Record cow := mkCow { cHeap : list amap; cCur : option nat; cLock : option nat; cPend : list (nat * (wop * option nat)); cRng : list (nat * option nat) }.
Definition cowInit : cow := mkCow [] None None [] [].
Definition deref (h : list amap) (p : option nat) : amap := match p with None => [] | Some a => nth a h [] end.

Inductive cev :=
| CLock (t : nat) | CUnlock (t : nat)          (* m.mu *)
| CRead (t : nat) (op : wop)                   (* lastMap := m.data() *)
| CPublish (t : nat)                           (* build the copy, m.innerMap.Store(copy) *)
| CLoad (t : nat) (k : bs) | CLen (t : nat)    (* 106-114, 158-160 *)
| CRange (t : nat) | CSee (t : nat).           (* 116-121: the range expression is evaluated; later, all that the loop yields *)
Inductive cout := OUnit | OVal (v : option V) | OLen (n : nat) | OMap (m : amap).

(* 131-134 the copying loop *)
Definition copyMap (m : amap) : amap := fold_left (fun acc kv => aset bs_eqb acc (fst kv) (snd kv)) m [].
(* 146-153 *)
Definition copyWithout (m : amap) (k : bs) : amap :=
  fold_left (fun acc kv => if bs_eqb (fst kv) k then acc else aset bs_eqb acc (fst kv) (snd kv)) m [].

Definition publish (h : list amap) (last : option nat) (op : wop) : option amap * cout :=
  let m := deref h last in
  match op with
  | WStore k v => (Some (aset bs_eqb (copyMap m) k v), OUnit)
  | WDelete k => match aget bs_eqb m k with None => (None, OVal None) | Some v => (Some (copyWithout m k), OVal (Some v)) end
  | WSwap n => (Some n, OMap m)
  end.
Definition isUnsafe (op : wop) : bool := match op with WStore _ _ => true | _ => false end.

(* strict: every writer holds the lock (Store, Delete, Swap, and UnsafeStore inside SafeDoFunc 170-174);
   not strict: UnsafeStore may also run without it *)
Definition cowStep (strict : bool) (s : cow) (e : cev) : option (cow * cout) :=
  let holds t := match cLock s with Some t' => Nat.eqb t t' | None => false end in
  match e with
  | CLock t => match cLock s with None => Some (mkCow (cHeap s) (cCur s) (Some t) (cPend s) (cRng s), OUnit) | Some _ => None end
  | CUnlock t => if holds t then match aget Nat.eqb (cPend s) t with None => Some (mkCow (cHeap s) (cCur s) None (cPend s) (cRng s), OUnit) | Some _ => None end else None
  | CRead t op => match aget Nat.eqb (cPend s) t with
                  | Some _ => None
                  | None => if holds t || (negb strict && isUnsafe op)
                            then Some (mkCow (cHeap s) (cCur s) (cLock s) (aset Nat.eqb (cPend s) t (op, cCur s)) (cRng s), OUnit) else None
                  end
  | CPublish t => match aget Nat.eqb (cPend s) t with
                  | None => None
                  | Some (op, last) =>
                      match publish (cHeap s) last op with
                      | (None, o) => Some (mkCow (cHeap s) (cCur s) (cLock s) (adel Nat.eqb (cPend s) t) (cRng s), o)
                      | (Some m, o) => Some (mkCow (cHeap s ++ [m]) (Some (length (cHeap s))) (cLock s) (adel Nat.eqb (cPend s) t) (cRng s), o)
                      end
                  end
  | CLoad t k => Some (s, OVal (aget bs_eqb (deref (cHeap s) (cCur s)) k))
  | CLen t => Some (s, OLen (length (deref (cHeap s) (cCur s))))
  | CRange t => Some (mkCow (cHeap s) (cCur s) (cLock s) (cPend s) (aset Nat.eqb (cRng s) t (cCur s)), OUnit)
  | CSee t => match aget Nat.eqb (cRng s) t with None => None | Some p => Some (s, OMap (deref (cHeap s) p)) end
  end.
Fixpoint cowRun (strict : bool) (s : cow) (es : list cev) : option (cow * list (cev * cout)) :=
  match es with
  | [] => Some (s, [])
  | e :: r => match cowStep strict s e with
              | None => None
              | Some (s1, o) => match cowRun strict s1 r with None => None | Some (s2, tr) => Some (s2, (e, o) :: tr) end
              end
  end.
End Cow.

(* ================================================================ core/switcher.go *)
(* listeners are numbers.  Notifications run in goroutines: each is the list of listeners still to be told *)
Record switcher := mkSw { swValue : bool; swListeners : list nat }.
Record swState := mkSws { swMap : list (bs * switcher); swGo : list (bs * bool * list nat); swTold : list (bs * bool * nat) }.
Definition swInit : swState := mkSws [] [] [].
Inductive swOp :=
| SRegister (name : bs) (v : bool) (ls : list nat)
| SSet (name : bs) (v : bool)
| SWatch (name : bs) (ls : list nat)        (* Watch on the switcher GetSwitcher returns, if any *)
| STell (i : nat).                          (* goroutine i calls its next listener *)
(* 41-56 *)
Definition swRegister (s : swState) (name : bs) (v : bool) (ls : list nat) : swState :=
  if bs_eqb name [] then s
  else match aget bs_eqb (swMap s) name with
       | Some _ => s
       | None => mkSws (aset bs_eqb (swMap s) name (mkSw v ls)) (swGo s) (swTold s)
       end.
(* 139-159 Switcher.SetValue; reading and writing the value is one step here *)
Definition swSetValue (s : swState) (name : bs) (sw : switcher) (v : bool) : swState :=
  if Bool.eqb v (swValue sw) then s
  else mkSws (aset bs_eqb (swMap s) name (mkSw v (swListeners sw))) (swGo s ++ [(name, v, swListeners sw)]) (swTold s).
(* 79-85 and 98-100; None = nil dereference *)
Definition swSet (s : swState) (name : bs) (v : bool) : option swState :=
  let s1 := match aget bs_eqb (swMap s) name with Some _ => s | None => swRegister s name v [] end in
  match aget bs_eqb (swMap s1) name with Some sw => Some (swSetValue s1 name sw v) | None => None end.
(* 129-136 *)
Definition swWatch (s : swState) (name : bs) (ls : list nat) : swState :=
  match aget bs_eqb (swMap s) name with
  | None => s
  | Some sw => mkSws (aset bs_eqb (swMap s) name (mkSw (swValue sw) (swListeners sw ++ ls))) (swGo s) (swTold s)
  end.
(* 148-157 *)
Definition swTell (s : swState) (i : nat) : swState :=
  match nth_error (swGo s) i with
  | Some (n, v, x :: rest) => mkSws (swMap s) (list_set (swGo s) i (n, v, rest)) (swTold s ++ [(n, v, x)])
  | _ => s
  end.
Definition swStep (s : swState) (o : swOp) : option swState :=
  match o with
  | SRegister n v ls => Some (swRegister s n v ls)
  | SSet n v => swSet s n v
  | SWatch n ls => Some (swWatch s n ls)
  | STell i => Some (swTell s i)
  end.
Fixpoint swRun (s : swState) (os : list swOp) : option swState :=
  match os with [] => Some s | o :: r => match swStep s o with Some s' => swRun s' r | None => None end end.
(* 88-95 *)
Definition swIsOpen (s : swState) (n : bs) : bool := match aget bs_eqb (swMap s) n with Some sw => swValue sw | None => false end.
(* 59-66 *)
Definition swAll (s : swState) : list (bs * bool) := map (fun kv => (fst kv, swValue (snd kv))) (swMap s).
