(* PoolModel.v: the pool of channels (connections) of one endpoint.
   /repo/endpoint/motanCommonEndpoint.go 796-927.  (motanEndpoint.go 700-830 is the same code.)

   Channels are numbered in the order they are built; pOpen says which are not closed (Channel.IsClosed, 784-794).
   The Go channel c.channels is a bounded queue of slots, each nil or a channel.  Goroutines interleave freely at the
   actions below.  The connection factory is part of the environment: a step says whether it succeeds.  A failing
   factory returns a nil connection, for which buildChannel returns nil (896-898); the configuration is taken to be
   valid (900-903).  c.config, read once more before buildChannel, has a default when nil and is left out. *)
From Verif Require Import Base.

(* Get, 813-838: before reading c.channels (814), at the receive (818), after a receive that found a slot: before
   c.factory is called (820), before sending back (831), before closeOnErr of a channel that could not be sent back (832),
   returned a channel, returned an error, panicked (call of a nil factory) *)
Inductive gpc := GRead | GRecv | GMake | GPut (c : option nat) | GErr (c : nat) | GOk (c : nat) | GFail | GPanic.
(* Close, 855-873: before the locked section's c.channels = nil (858), before c.factory = nil (859), before close (865), in the
   range loop (866), with a received slot before closing it (868), returned *)
Inductive cpc := CStart | CFac | CClose | CDrain | CShut (c : option nat) | CDone.
Record pool := mkPool {
  pCap : nat; pQ : list (option nat); pQClosed : bool;     (* the queue *)
  pPtr : bool; pFac : bool;                                 (* c.channels / c.factory are not nil *)
  pLock : bool;                                             (* channelsLock is held *)
  pOpen : list bool;                                        (* channels built so far: open? *)
  pGet : list gpc; pClose : list cpc }.

Definition setQ s q := mkPool (pCap s) q (pQClosed s) (pPtr s) (pFac s) (pLock s) (pOpen s) (pGet s) (pClose s).
Definition setOpen s o := mkPool (pCap s) (pQ s) (pQClosed s) (pPtr s) (pFac s) (pLock s) o (pGet s) (pClose s).
Definition setGet s i g := mkPool (pCap s) (pQ s) (pQClosed s) (pPtr s) (pFac s) (pLock s) (pOpen s) (list_set (pGet s) i g) (pClose s).
Definition setClose s i c := mkPool (pCap s) (pQ s) (pQClosed s) (pPtr s) (pFac s) (pLock s) (pOpen s) (pGet s) (list_set (pClose s) i c).
Definition isOpen (s : pool) (c : nat) : bool := nth c (pOpen s) false.

Inductive pop :=
| PGet                          (* a goroutine calls Get *)
| PClose                        (* a goroutine calls Close *)
| PRead (i : nat)               (* 814-817 *)
| PRecv (i : nat)               (* 818-819; blocks on an empty open queue *)
| PMake (i : nat) (ok : bool)   (* 820-829: factory() and buildChannel; ok: the connection could be made *)
| PPut (i : nat)                (* 831, 840-853; a send on a closed Go channel panics and is recovered; blocks on a full queue *)
| PErr (i : nat)                (* 832 closeOnErr *)
| PNil (k : nat)                (* 856-858 lock and c.channels = nil; also decides whether there is anything to close *)
| PFac (k : nat)                (* 859-861 c.factory = nil and unlock *)
| PShut (k : nat)               (* 865 close(channels) *)
| PDrain (k : nat)              (* 866 receive in the range loop *)
| PShutOne (k : nat)            (* 867-869 channel.Close *)
| PBreak (c : nat).             (* a channel closes itself: connection lost *)

Definition pstep (s : pool) (o : pop) : option pool :=
  match o with
  | PGet => Some (mkPool (pCap s) (pQ s) (pQClosed s) (pPtr s) (pFac s) (pLock s) (pOpen s) (pGet s ++ [GRead]) (pClose s))
  | PClose => Some (mkPool (pCap s) (pQ s) (pQClosed s) (pPtr s) (pFac s) (pLock s) (pOpen s) (pGet s) (pClose s ++ [CStart]))
  | PRead i =>
      match nth_error (pGet s) i with
      | Some GRead => Some (setGet s i (if pPtr s then GRecv else GFail))
      | _ => None
      end
  | PRecv i =>
      match nth_error (pGet s) i with
      | Some GRecv =>
          match pQ s with
          | None :: q => Some (setGet (setQ s q) i GMake)
          | Some c :: q => Some (setGet (setQ s q) i (if isOpen s c then GPut (Some c) else GMake))
          | [] => if pQClosed s then Some (setGet s i (GPut None)) else None
          end
      | _ => None
      end
  | PMake i ok =>
      match nth_error (pGet s) i with
      | Some GMake =>
          if pFac s then
            if ok then Some (setGet (setOpen s (pOpen s ++ [true])) i (GPut (Some (length (pOpen s)))))
            else Some (setGet s i (GPut None))
          else Some (setGet s i GPanic)
      | _ => None
      end
  | PPut i =>
      match nth_error (pGet s) i with
      | Some (GPut c) =>
          if pQClosed s then Some (setGet s i (match c with Some n => GErr n | None => GFail end))
          else if (length (pQ s) <? pCap s)%nat then Some (setGet (setQ s (pQ s ++ [c])) i (match c with Some n => GOk n | None => GFail end))
          else None
      | _ => None
      end
  | PErr i =>
      match nth_error (pGet s) i with
      | Some (GErr c) => Some (setGet (setOpen s (list_set (pOpen s) c false)) i (GOk c))
      | _ => None
      end
  | PNil k =>
      match nth_error (pClose s) k with
      | Some CStart =>
          if pLock s then None
          else if pPtr s
               then Some (setClose (mkPool (pCap s) (pQ s) (pQClosed s) false (pFac s) true (pOpen s) (pGet s) (pClose s)) k CFac)
               else Some (setClose s k CDone)
      | _ => None
      end
  | PFac k =>
      match nth_error (pClose s) k with
      | Some CFac => Some (setClose (mkPool (pCap s) (pQ s) (pQClosed s) (pPtr s) false false (pOpen s) (pGet s) (pClose s)) k CClose)
      | _ => None
      end
  | PShut k =>
      match nth_error (pClose s) k with
      | Some CClose => Some (setClose (mkPool (pCap s) (pQ s) true (pPtr s) (pFac s) (pLock s) (pOpen s) (pGet s) (pClose s)) k CDrain)
      | _ => None
      end
  | PDrain k =>
      match nth_error (pClose s) k with
      | Some CDrain => match pQ s with c :: q => Some (setClose (setQ s q) k (CShut c)) | [] => Some (setClose s k CDone) end
      | _ => None
      end
  | PShutOne k =>
      match nth_error (pClose s) k with
      | Some (CShut (Some c)) => Some (setClose (setOpen s (list_set (pOpen s) c false)) k CDrain)
      | Some (CShut None) => Some (setClose s k CDrain)
      | _ => None
      end
  | PBreak c => if isOpen s c then Some (setOpen s (list_set (pOpen s) c false)) else None
  end.
Fixpoint pruns (s : pool) (os : list pop) : option pool :=
  match os with [] => Some s | o :: r => match pstep s o with Some s' => pruns s' r | None => None end end.

(* 875-904 NewChannelPool: the results of the factory in order.  The result is the pool, or an error, together with the
   channels built and whether they are still open *)
Fixpoint fillPool (n : nat) (conns : list bool) (built : nat) : nat * bool :=
  match n with
  | O => (built, true)
  | S m => match conns with
           | true :: r => fillPool m r (S built)
           | _ => (built, false)
           end
  end.
Definition newPool (cap : Z) (lazyInit : bool) (conns : list bool) : option pool * list bool :=
  if (cap <=? 0)%Z then (None, [])
  else let n := Z.to_nat cap in
       if lazyInit then (Some (mkPool n (repeat None n) false true true false [] [] []), [])
       else let (b, ok) := fillPool n conns 0 in
            if ok then let opens := repeat true b in (Some (mkPool n (map Some (seq 0 b)) false true true false opens [] []), opens)
            else (None, repeat false b).
