(* CountModel.v: model of the way of an event from the caller to a snapshot (metrics/metrics.go).

   Atomic steps: one channel send or receive, one load or swap of the registry pointer, one call of a registry of
   go-metrics (they are under its lock), one Inc or Update of a metric (atomic), one getCache (under its lock).
   Any number of processors may run: every number the configuration allows is covered.
   Not modelled: Remove, Clear and the removal of items, which no report makes; the sample behind a histogram, of which the
   updates are kept. *)
From Verif Require Import Base UrlModel MetricModel.

(* an event as processEvent uses it: the item it goes to, and the key *)
Record mev := mkMev { mKind : kind; mItem : bs; mKey : bs; mVal : Z }.
Inductive entry := EC (z : Z) | EH (updates : list Z) | EG (z : Z).
Inductive pc := PStart | PMiss | PItem | PReg (r : nat) | PNil | PReg2 (r : nat) | PObj (r : nat) | PDone.
Record job := mkJob { jEv : mev; jPc : pc }.
Record mst := mkMst {
  mBus : list mev;                       (* rp.eventBus *)
  mItems : list (bs * nat);              (* items: the current registry of each *)
  mRegs : list (bs * list (bs * entry)); (* every registry made: the item it was made for, its metrics *)
  mJobs : list job;                      (* events being processed *)
  mSnaps : list (nat * list (bs * entry)); (* snapshots taken: the registry, the cache *)
  mSent : list mev; mDropped : list mev; mPanicked : list mev (* for the statements *) }.
Definition minit : mst := mkMst [] [] [] [] [] [] [] [].

Inductive mop := OSend (e : mev) | OTake | OStep (j : nat) | OSnap (item : bs) | ORead (i : nat) (key : bs).

Definition zeroOf (k : kind) : entry := match k with KCounter => EC 0 | KHist => EH [] | KGauge => EG 0 end.
(* 377-400: the type assertion, then Inc or Update.  None = panic *)
Definition bump (e : mev) (x : entry) : option entry :=
  match mKind e, x with
  | KCounter, EC z => Some (EC (wrapI64 (z + mVal e)))
  | KHist, EH l => Some (EH (l ++ [mVal e]))
  | KGauge, EG _ => Some (EG (mVal e))
  | _, _ => None
  end.
Definition regOf (s : mst) (r : nat) : list (bs * entry) := match nth_error (mRegs s) r with Some (_, m) => m | None => [] end.
Definition setReg (s : mst) (r : nat) (m : list (bs * entry)) : list (bs * list (bs * entry)) :=
  match nth_error (mRegs s) r with Some (o, _) => list_set (mRegs s) r (o, m) | None => mRegs s end.
Definition goto (s : mst) (j : nat) (e : mev) (p : pc) : mst :=
  mkMst (mBus s) (mItems s) (mRegs s) (list_set (mJobs s) j (mkJob e p)) (mSnaps s) (mSent s) (mDropped s) (mPanicked s).

(* 874-887 processEvent, 111-118 GetOrRegisterStatItem, 173-182 safePutAbsent, 377-400 AddCounter, AddHistograms, AddGauge *)
Definition jstep (s : mst) (j : nat) (e : mev) (p : pc) : option mst :=
  match p with
  | PStart => Some (goto s j e (match aget bs_eqb (mItems s) (mItem e) with Some _ => PItem | None => PMiss end))
  | PMiss =>
      match aget bs_eqb (mItems s) (mItem e) with
      | Some _ => Some (goto s j e PItem)
      | None =>
          let s' := mkMst (mBus s) (aset bs_eqb (mItems s) (mItem e) (length (mRegs s))) (mRegs s ++ [(mItem e, [])]) (mJobs s)
                          (mSnaps s) (mSent s) (mDropped s) (mPanicked s) in
          Some (goto s' j e PItem)
      end
  | PItem => match aget bs_eqb (mItems s) (mItem e) with Some r => Some (goto s j e (PReg r)) | None => None end
  | PReg r => Some (goto s j e (match aget bs_eqb (regOf s r) (mKey e) with Some _ => PObj r | None => PNil end))
  | PNil => match aget bs_eqb (mItems s) (mItem e) with Some r => Some (goto s j e (PReg2 r)) | None => None end
  | PReg2 r =>
      match aget bs_eqb (regOf s r) (mKey e) with
      | Some _ => Some (goto s j e (PObj r))
      | None =>
          let s' := mkMst (mBus s) (mItems s) (setReg s r (aset bs_eqb (regOf s r) (mKey e) (zeroOf (mKind e)))) (mJobs s)
                          (mSnaps s) (mSent s) (mDropped s) (mPanicked s) in
          Some (goto s' j e (PObj r))
      end
  | PObj r =>
      match aget bs_eqb (regOf s r) (mKey e) with
      | None => None
      | Some x =>
          match bump e x with
          | Some y =>
              let s' := mkMst (mBus s) (mItems s) (setReg s r (aset bs_eqb (regOf s r) (mKey e) y)) (mJobs s)
                              (mSnaps s) (mSent s) (mDropped s) (mPanicked s) in
              Some (goto s' j e PDone)
          | None =>
              let s' := mkMst (mBus s) (mItems s) (mRegs s) (mJobs s) (mSnaps s) (mSent s) (mDropped s) (mPanicked s ++ [e]) in
              Some (goto s' j e PDone)
          end
      end
  | PDone => None
  end.

(* [cap] is the size of the event bus *)
Definition mstep (cap : nat) (s : mst) (o : mop) : option mst :=
  match o with
  | OSend e => (* 237-251 sendEventWithKeys *)
      if Nat.ltb (length (mBus s)) cap
      then Some (mkMst (mBus s ++ [e]) (mItems s) (mRegs s) (mJobs s) (mSnaps s) (mSent s ++ [e]) (mDropped s) (mPanicked s))
      else Some (mkMst (mBus s) (mItems s) (mRegs s) (mJobs s) (mSnaps s) (mSent s ++ [e]) (mDropped s ++ [e]) (mPanicked s))
  | OTake => (* 857-864 eventLoop *)
      match mBus s with
      | [] => None
      | e :: r => Some (mkMst r (mItems s) (mRegs s) (mJobs s ++ [mkJob e PStart]) (mSnaps s) (mSent s) (mDropped s) (mPanicked s))
      end
  | OStep j => match nth_error (mJobs s) j with Some (mkJob e p) => jstep s j e p | None => None end
  | OSnap item => (* 408-423 SnapshotAndClear *)
      match aget bs_eqb (mItems s) item with
      | Some r => Some (mkMst (mBus s) (aset bs_eqb (mItems s) item (length (mRegs s))) (mRegs s ++ [(item, [])]) (mJobs s)
                              (mSnaps s ++ [(r, [])]) (mSent s) (mDropped s) (mPanicked s))
      | None => None
      end
  | ORead i key => (* 572-606 getCache *)
      match nth_error (mSnaps s) i with
      | Some (r, c) =>
          match aget bs_eqb c key with
          | Some _ => Some s
          | None =>
              match aget bs_eqb (regOf s r) key with
              | None => Some s
              | Some x => Some (mkMst (mBus s) (mItems s) (mRegs s) (mJobs s) (list_set (mSnaps s) i (r, aset bs_eqb c key x))
                                      (mSent s) (mDropped s) (mPanicked s))
              end
          end
      | None => None
      end
  end.
Fixpoint mruns (cap : nat) (s : mst) (os : list mop) : option mst :=
  match os with [] => Some s | o :: r => match mstep cap s o with Some s' => mruns cap s' r | None => None end end.

(* 608-625 Count of a snapshot: the cached metric, or the one in the registry, which is then cached *)
Definition countEntry (x : option entry) : Z :=
  match x with Some (EC z) => z | Some (EH l) => Z.of_nat (length l) | _ => 0 end.
Definition snapCount (s : mst) (sn : nat * list (bs * entry)) (key : bs) : Z :=
  countEntry (match aget bs_eqb (snd sn) key with Some x => Some x | None => aget bs_eqb (regOf s (fst sn)) key end).
(* 458-470 Count of the live item *)
Definition liveCount (s : mst) (item key : bs) : Z :=
  match aget bs_eqb (mItems s) item with Some r => countEntry (aget bs_eqb (regOf s r) key) | None => 0 end.
