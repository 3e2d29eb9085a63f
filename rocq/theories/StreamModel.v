(* Calls on motan channels: streams taken from and returned to a shared pool, the table of
   outstanding streams of each channel, the receiving goroutines, timers and shutdown.
   /repo/endpoint/motanCommonEndpoint.go 24-31, 369-735, 784-794, 929-940.
   (/repo/endpoint/motanEndpoint.go has the same structure for motan2 only.)

   Every step below is one atomic action of one goroutine; goroutines interleave freely.
   Simplifications: the two tables of a channel (streams, heartbeats) are one table whose key
   has a heartbeat flag; a message is its heartbeat flag, its id and its contents, and the
   response converted from it is its contents (conversion is modelled in ConvModel.v and
   V1Model.v); a message that cannot be converted becomes an error response with the same
   id (lines 536-556) and is not told apart here; tracing is left out. *)
From Coq Require Import NArith List Bool.
From Verif Require Import Base.
Import ListNotations.
Open Scope N_scope.

(* the response handed to a caller: its request id and what it was converted from *)
Record resp := mkResp { rRid : N; rOf : bs }.

(* 369-408: a stream object. sTok: tokens in recvNotifyCh (capacity 1, line 27); sArmed: when
   the running timer fires; sTick: an unread tick in the timer's channel (capacity 1).
   go.mod asks for go 1.16, so Stop and Reset do not drain that channel. *)
Record stm := mkStm {
  sCh : option nat; sHb : bool; sId : N; sReq : option N; sRes : option resp;
  sTok : nat; sCan : bool; sArmed : option N; sTick : bool }.
(* 25-29: a new stream object *)
Definition stm0 : stm := mkStm None false 0 None None 0 false None false.

(* what a call returns: a response, "recvMsg is nil", or one of the errors *)
Inductive cres := ROk (r : resp) | RNil | REncode | RSendTimeout | RRecvTimeout | RShutdown.
(* where a call is: newStream before inserting (587), Send at its select (469), Recv at its
   select (501), the deferred RemoveFromChannel (491), releaseStream (935), its Put (937), returned *)
Inductive cpc :=
| PReg | PSend | PWait | PRemove (r : cres) | PRelease (r : cres) | PPut (r : cres) | PDone (r : cres).
(* a call: channel, heartbeat or request, id of its request, deadline, stream id (None if it
   failed before having one), stream object; cStale: the stream object it got had an
   unread tick (a note for the statements, the code does not look at it) *)
Record call := mkCall {
  cCh : nat; cHb : bool; cReq : N; cDead : N; cSid : option N; cStm : nat; cStale : bool }.

(* 661-735: a received message in the hands of a goroutine of handleMsgPool: before the table
   is looked up (719), before s.res is set (566), before the token is pushed (567), finished *)
Inductive hpc := HLook | HRes (s : nat) | HPush (s : nat) | HEnd.
Record hnd := mkHnd { hCh : nat; hHb : bool; hRid : N; hBody : bs }.

Record st := mkSt {
  stStm : nat -> stm; stNs : nat;          (* stream objects and how many exist *)
  stPool : list nat;                        (* streamPool *)
  stTab : nat -> bool -> N -> option nat;   (* channel, heartbeat flag, stream id -> stream *)
  stCall : nat -> call; stPc : nat -> cpc; stNc : nat;   (* calls started so far, where they are *)
  stHnd : nat -> hnd; stHpc : nat -> hpc; stNh : nat;    (* messages received so far *)
  stSent : list (nat * N);                  (* (channel, stream id) handed to the connection *)
  stClosed : nat -> bool;                   (* shutdown of each channel *)
  stNow : N }.

Definition fupd {A} (f : nat -> A) (k : nat) (v : A) : nat -> A := fun x => if Nat.eqb x k then v else f x.
Definition tupd (t : nat -> bool -> N -> option nat) (c : nat) (h : bool) (i : N) (v : option nat)
  : nat -> bool -> N -> option nat :=
  fun c' h' i' => if (Nat.eqb c' c && Bool.eqb h' h && N.eqb i' i)%bool then v else t c' h' i'.
Definition poolDel (k : nat) (l : list nat) : list nat := filter (fun x => negb (Nat.eqb x k)) l.

Definition dummyCall : call := mkCall 0 false 0 0 None 0 false.
Definition dummyHnd : hnd := mkHnd 0 false 0 [].
Definition st0 : st := mkSt (fun _ => stm0) 0 [] (fun _ _ _ => None) (fun _ => dummyCall) (fun _ => PReg) 0
  (fun _ => dummyHnd) (fun _ => HLook) 0 [] (fun _ => false) 0.

Inductive op :=
| OStart (ch : nat) (hb : bool) (req timeout sid : N) (pick : option nat)
| OReg (i : nat)
| OSendOk (i : nat) | OSendErr (i : nat) | OSendTimeout (i : nat) | OSendShut (i : nat)
| OTake (i : nat) | OTimeout (i : nat) | OShut (i : nat)
| ORemove (i : nat) | ORelease (i : nat) | OPut (i : nat)
| OClose (ch : nat)
| ODeliver (ch : nat) (hb : bool) (rid : N) (body : bs)
| OLook (h : nat) | ORes (h : nat) | OPush (h : nat)
| OTick (s : nat) | OTime (d : N).

Definition setStm (s : st) (k : nat) (v : stm) : st :=
  mkSt (fupd (stStm s) k v) (stNs s) (stPool s) (stTab s) (stCall s) (stPc s) (stNc s) (stHnd s) (stHpc s) (stNh s) (stSent s) (stClosed s) (stNow s).
Definition setPc (s : st) (i : nat) (p : cpc) : st :=
  mkSt (stStm s) (stNs s) (stPool s) (stTab s) (stCall s) (fupd (stPc s) i p) (stNc s) (stHnd s) (stHpc s) (stNh s) (stSent s) (stClosed s) (stNow s).
Definition setTab (s : st) (t : nat -> bool -> N -> option nat) : st :=
  mkSt (stStm s) (stNs s) (stPool s) t (stCall s) (stPc s) (stNc s) (stHnd s) (stHpc s) (stNh s) (stSent s) (stClosed s) (stNow s).
Definition setPool (s : st) (p : list nat) : st :=
  mkSt (stStm s) (stNs s) p (stTab s) (stCall s) (stPc s) (stNc s) (stHnd s) (stHpc s) (stNh s) (stSent s) (stClosed s) (stNow s).
Definition setHpc (s : st) (h : nat) (p : hpc) : st :=
  mkSt (stStm s) (stNs s) (stPool s) (stTab s) (stCall s) (stPc s) (stNc s) (stHnd s) (fupd (stHpc s) h p) (stNh s) (stSent s) (stClosed s) (stNow s).

(* fields of a stream *)
Definition withTimer (x : stm) (armed : option N) (tick : bool) : stm :=
  mkStm (sCh x) (sHb x) (sId x) (sReq x) (sRes x) (sTok x) (sCan x) armed tick.
Definition withCan (x : stm) (b : bool) : stm :=
  mkStm (sCh x) (sHb x) (sId x) (sReq x) (sRes x) (sTok x) b (sArmed x) (sTick x).
Definition withRes (x : stm) (r : option resp) : stm :=
  mkStm (sCh x) (sHb x) (sId x) (sReq x) r (sTok x) (sCan x) (sArmed x) (sTick x).
Definition withTok (x : stm) (n : nat) : stm :=
  mkStm (sCh x) (sHb x) (sId x) (sReq x) (sRes x) n (sCan x) (sArmed x) (sTick x).

(* 574-586 / 593-603 after IsClosed said no: the fields written on the acquired stream.
   newHeartbeatStream writes neither req nor rc. *)
Definition fillStream (x : stm) (ch : nat) (hb : bool) (req sid : N) : stm :=
  mkStm (Some ch) hb sid (if hb then sReq x else Some req) (sRes x) (sTok x) true (sArmed x) (sTick x).
(* 410-420 *)
Definition resetStream (x : stm) : stm :=
  mkStm None (sHb x) (sId x) None None (pred (sTok x)) (sCan x) (sArmed x) (sTick x).
(* 524-557: the id put into the response: the request's if the stream has a request, else the
   message's own (the stream id) *)
Definition respFor (x : stm) (h : hnd) : resp :=
  mkResp (match sReq x with Some r => r | None => hRid h end) (hBody h).

(* 574-591, 593-608 (and the deadline, 584/602), up to the table insertion *)
Definition startCall (s : st) (ch : nat) (hb : bool) (req timeout sid : N) (pick : option nat) : option st :=
  let i := stNc s in
  let mk c p s' := mkSt (stStm s') (stNs s') (stPool s') (stTab s') (fupd (stCall s') i c) (fupd (stPc s') i p) (S i)
                   (stHnd s') (stHpc s') (stNh s') (stSent s') (stClosed s') (stNow s') in
  if stClosed s ch then Some (mk (mkCall ch hb req (stNow s + timeout) None 0 false) (PDone RShutdown) s)
  else match pick with
       | Some k =>
         if existsb (Nat.eqb k) (stPool s) then
           let x := stStm s k in
           Some (mk (mkCall ch hb req (stNow s + timeout) (Some sid) k (sTick x)) PReg
                   (setPool (setStm s k (fillStream x ch hb req sid)) (poolDel k (stPool s))))
         else None
       | None =>
         let k := stNs s in
         Some (mk (mkCall ch hb req (stNow s + timeout) (Some sid) k false) PReg
                 (mkSt (fupd (stStm s) k (fillStream stm0 ch hb req sid)) (S k) (stPool s) (stTab s) (stCall s) (stPc s)
                    (stNc s) (stHnd s) (stHpc s) (stNh s) (stSent s) (stClosed s) (stNow s)))
       end.

Definition sidOf (c : call) : N := match cSid c with Some i => i | None => 0 end.
Definition stop (x : stm) : stm := withTimer x None (sTick x).

(* one step of a call that has been started *)
Definition callStep (s : st) (i : nat) (o : op) : option st :=
  let c := stCall s i in
  let k := cStm c in
  let x := stStm s k in
  match o, stPc s i with
  (* 587-590 / 604-607, then Send arms the timer 423-427 *)
  | OReg _, PReg =>
    Some (setPc (setStm (setTab s (tupd (stTab s) (cCh c) (cHb c) (sidOf c) (Some k))) k
                        (withTimer x (Some (cDead c)) (sTick x))) i PSend)
  (* 470: handed to sendCh; Stop (428); Recv arms the timer again (495-499) *)
  | OSendOk _, PSend =>
    let s' := setPc (setStm s k (withTimer x (Some (cDead c)) (sTick x))) i PWait in
    Some (mkSt (stStm s') (stNs s') (stPool s') (stTab s') (stCall s') (stPc s') (stNc s') (stHnd s') (stHpc s') (stNh s')
               ((cCh c, sidOf c) :: stSent s') (stClosed s') (stNow s'))
  (* 441-451: the request cannot be encoded *)
  | OSendErr _, PSend => if cHb c then None else Some (setPc (setStm s k (stop x)) i (PRelease REncode))
  (* 479 *)
  | OSendTimeout _, PSend =>
    if sTick x then Some (setPc (setStm s k (withTimer x None false)) i (PRelease RSendTimeout)) else None
  (* 481 *)
  | OSendShut _, PSend =>
    if stClosed s (cCh c) then Some (setPc (setStm s k (stop x)) i (PRelease RShutdown)) else None
  (* 502-507 *)
  | OTake _, PWait =>
    match sTok x with
    | O => None
    | S n => Some (setPc (setStm s k (stop (withTok x n))) i
                     (PRemove (match sRes x with Some r => ROk r | None => RNil end)))
    end
  (* 508-511 *)
  | OTimeout _, PWait =>
    if sTick x then Some (setPc (setStm s k (withCan (withTimer x None false) false)) i (PRemove RRecvTimeout)) else None
  (* 512-515 *)
  | OShut _, PWait =>
    if stClosed s (cCh c) then Some (setPc (setStm s k (withCan (stop x) false)) i (PRemove RShutdown)) else None
  (* 488-494 with 610-626 *)
  | ORemove _, PRemove r =>
    match stTab s (cCh c) (cHb c) (sidOf c) with
    | Some _ => Some (setPc (setStm (setTab s (tupd (stTab s) (cCh c) (cHb c) (sidOf c) None)) k (withCan x true)) i (PRelease r))
    | None => Some (setPc s i (PRelease r))
    end
  (* 933-936 *)
  | ORelease _, PRelease r =>
    if sCan x then Some (setPc (setStm s k (resetStream x)) i (PPut r)) else Some (setPc s i (PDone r))
  (* 937 *)
  | OPut _, PPut r => Some (setPc (setPool s (k :: stPool s)) i (PDone r))
  | _, _ => None
  end.

(* one step of a goroutine that handles a received message *)
Definition hndStep (s : st) (h : nat) (o : op) : option st :=
  let x := stHnd s h in
  match o, stHpc s h with
  (* 718-733 *)
  | OLook _, HLook =>
    match stTab s (hCh x) (hHb x) (hRid x) with
    | Some k => Some (setHpc (setTab s (tupd (stTab s) (hCh x) (hHb x) (hRid x) None)) h (HRes k))
    | None => Some (setHpc s h HEnd)
    end
  (* 519-566 *)
  | ORes _, HRes k => Some (setHpc (setStm s k (withRes (stStm s k) (Some (respFor (stStm s k) x)))) h (HPush k))
  (* 567: blocks while the channel (capacity 1) is full *)
  | OPush _, HPush k =>
    match sTok (stStm s k) with
    | O => Some (setHpc (setStm s k (withTok (stStm s k) 1)) h HEnd)
    | S _ => None
    end
  | _, _ => None
  end.

(* None: the step is not possible in this state *)
Definition step (s : st) (o : op) : option st :=
  match o with
  | OStart ch hb req timeout sid pick => startCall s ch hb req timeout sid pick
  | OReg i | OSendOk i | OSendErr i | OSendTimeout i | OSendShut i | OTake i | OTimeout i | OShut i
  | ORemove i | ORelease i | OPut i => if (i <? stNc s)%nat then callStep s i o else None
  (* 784-794 *)
  | OClose ch => Some (mkSt (stStm s) (stNs s) (stPool s) (stTab s) (stCall s) (stPc s) (stNc s) (stHnd s) (stHpc s) (stNh s)
                            (stSent s) (fupd (stClosed s) ch true) (stNow s))
  (* 691: a message has been read from the connection *)
  | ODeliver ch hb rid body =>
    Some (mkSt (stStm s) (stNs s) (stPool s) (stTab s) (stCall s) (stPc s) (stNc s)
               (fupd (stHnd s) (stNh s) (mkHnd ch hb rid body)) (fupd (stHpc s) (stNh s) HLook) (S (stNh s)) (stSent s) (stClosed s) (stNow s))
  | OLook h | ORes h | OPush h => if (h <? stNh s)%nat then hndStep s h o else None
  (* the timer of a stream fires *)
  | OTick k => match sArmed (stStm s k) with
               | Some t => if t <=? stNow s then Some (setStm s k (withTimer (stStm s k) None true)) else None
               | None => None
               end
  | OTime d => Some (mkSt (stStm s) (stNs s) (stPool s) (stTab s) (stCall s) (stPc s) (stNc s) (stHnd s) (stHpc s) (stNh s)
                          (stSent s) (stClosed s) (stNow s + d))
  end.
Fixpoint runs (s : st) (os : list op) : option st :=
  match os with
  | [] => Some s
  | o :: r => match step s o with Some s' => runs s' r | None => None end
  end.
