(* RecycleModel.v: messages of the motan2 server taken from and returned to the pool of messages
   (protocol/motanProtocol.go 122-124, 349-376, 399-497, 640-652, 705-762, 806-832; server/motanserver.go 210-311;
   endpoint/motanEndpoint.go 406-434, 484-525, 588-612, endpoint/motanCommonEndpoint.go 422-484, 738-767;
   ha/failoverHA.go 31-58).

   A client's request is decoded into a message of the pool; the proxying server hands the very same object to a
   channel of an endpoint (each retry of failover to another one); the goroutine of the channel writes it to the
   connection later; when the server has answered its client it puts the message back if somebody has written it.
   Each step is one atomic action of one goroutine.  A write is one step: it reads the buffer and the body of the
   object at that moment.  The message an endpoint has decoded is acquired when it is used to answer.
   Simplifications: what ConvertToRequest changes in the message (the M_rid entry, an unzipped body) is taken as part of what
   arrived; messages are not compressed; requests and responses themselves, which have pools of their own, are left out;
   a channel that was shut down may not be used again. *)
From Verif Require Import Base BytesModel ProtoModel Strconv ConvModel.

(* 79-91 Message; oHold is not in the code: which handler acquired the object last, as its request (false) or response *)
Record obj := mkObj { oMsg : message; oBuf : option buffer; oCan : bool; oHold : option (nat * bool) }.
Definition clean : message := mkMsg (mkHdr x00 x00 x00 0) [] [].
Definition obj0 : obj := mkObj clean None false None.

(* what the server answers *)
Inductive answer :=
| AMsg (m : message)              (* ConvertToResMessage of a response of its own *)
| AExc (rid : N) (err : bs)       (* BuildExceptionResponse *)
| AFwd (m : message)              (* the message an endpoint has decoded *)
| ABeat (m : message).            (* BuildHeartbeat, which does not use the pool *)

(* where a handler (processV2) is *)
Inductive hpc :=
| PRun                                  (* nothing sent, or waiting for the answer *)
| PPre (g : bs) (sid : N) (ch : nat)    (* before Encode0 *)
| PTry (g : bs) (sid : N) (ch : nat)    (* at the select of Send *)
| PGot (r : nat) (m : message)          (* has the message to answer with, before Encode0 *)
| PEnc (r : nat) (m : message)          (* before the write *)
| PSent (r : nat) | PRel (r : nat) | PEnd.
(* hCall: what arrived, as a fresh message would hold it (for the statements); hTries: how often it was sent *)
Record hnd := mkHnd { hReq : nat; hCall : message; hTries : nat; hPc : hpc }.
(* a message in the queue of a channel: the object, the handler that sent it and what it is *)
Record ent := mkEnt { eObj : nat; eHnd : nat; eWant : message }.
(* bytes written: to a channel or to a client, by which handler, what they should be *)
Record wrote := mkWrote { wTo : option nat; wHnd : nat; wWant : message; wGot : bs }.

Record rst := mkRst {
  rHeap : list obj; rPool : list nat; rHnd : list hnd;
  rQueue : list (list ent);        (* sendCh of each channel *)
  rBusy : list ent;                (* written, SetCanRelease not yet called *)
  rOut : list wrote }.
Definition rinit (channels : nat) : rst := mkRst [] [] [] (repeat [] channels) [] [].

Definition setObj (s : rst) (k : nat) (o : obj) : rst := mkRst (list_set (rHeap s) k o) (rPool s) (rHnd s) (rQueue s) (rBusy s) (rOut s).
Definition setPool (s : rst) (p : list nat) : rst := mkRst (rHeap s) p (rHnd s) (rQueue s) (rBusy s) (rOut s).
Definition setHnd (s : rst) (h : nat) (x : hnd) : rst := mkRst (rHeap s) (rPool s) (list_set (rHnd s) h x) (rQueue s) (rBusy s) (rOut s).
Definition goPc (s : rst) (h : nat) (x : hnd) (p : hpc) : rst := setHnd s h (mkHnd (hReq x) (hCall x) (hTries x) p).
Definition emit (s : rst) (w : wrote) : rst := mkRst (rHeap s) (rPool s) (rHnd s) (rQueue s) (rBusy s) (rOut s ++ [w]).

(* 122-124, 824-826 AcquireMessage: the pool gives any of its objects (which one: [pick]) or a new one *)
Definition acquire (s : rst) (pick : option nat) : option (rst * nat) :=
  match pick with
  | None => Some (mkRst (rHeap s ++ [obj0]) (rPool s) (rHnd s) (rQueue s) (rBusy s) (rOut s), length (rHeap s))
  | Some k => if existsb (Nat.eqb k) (rPool s) then Some (setPool s (filter (fun x => negb (Nat.eqb x k)) (rPool s)), k) else None
  end.
(* 349-359 Reset, 828-832 ReleaseMessage; oHold is cleared *)
Definition release (s : rst) (k : nat) : rst :=
  match nth_error (rHeap s) k with
  | Some o => if oCan o then setPool (setObj s k (mkObj clean (oBuf o) false None)) (k :: rPool s) else s
  | None => s
  end.

(* 419-493: DecodeWithTime writes the header, stores the entries of the metadata and reads the body *)
Definition fill (old m : message) : message :=
  mkMsg (mHeader m) (fold_left (fun acc kv => aset bs_eqb acc (fst kv) (snd kv)) (mMeta m) (mMeta old)) (mBody m).
(* 806-817 BuildExceptionResponse, on an object of the pool *)
Definition fillExc (old : message) (rid : N) (err : bs) : message :=
  let h := mHeader old in
  let h0 := SetProxy false (SetRequest false (mkHdr (hMsgType h) (hVerStatus h) (hSerialize h) rid)) in
  let h1 := match SetVersion 1 h0 with Some x => x | None => h0 end in
  let h2 := match SetStatus 1 h1 with Some x => x | None => h1 end in
  let h3 := match SetSerialize SimpleNum h2 with Some x => x | None => h2 end in
  mkMsg h3 (aset bs_eqb (mMeta old) MException err) (mBody old).
Definition setRid (m : message) (rid : N) : message :=
  mkMsg (mkHdr (hMsgType (mHeader m)) (hVerStatus (mHeader m)) (hSerialize (mHeader m)) rid) (mMeta m) (mBody m).
(* motanProtocol.go 642-652 ConvertToReqMessage of a proxied request, then motanEndpoint.go 500 *)
Definition forward (m : message) (g : bs) (sid : N) : message :=
  setRid (mkMsg (SetProxy true (mHeader m)) (aset bs_eqb (mMeta m) MGroup g) (mBody m)) sid.

Definition answerFill (a : answer) (old : message) : message :=
  match a with AMsg m => m | AExc rid err => fillExc old rid err | AFwd m => fill old m | ABeat m => m end.

Inductive rop :=
| RArrive (m : message) (pick : option nat)   (* a request is decoded *)
| RBad (m : message) (pick : option nat)      (* DecodeWithTime fails half way, 414-419 *)
| RPrep (h : nat) (g : bs) (sid : N) (ch : nat) | REnc (h : nat) | RPush (h : nat) | RNoPush (h : nat)
| RWrite (ch : nat) | RDone (i : nat) | RShut (ch : nat)
| RAnswer (h : nat) (a : answer) (pick : option nat) | REncAnswer (h : nat) | RSend (h : nat)
| RFreeReq (h : nat) | RFreeRes (h : nat).

(* the bytes GetEncodedBytes and the body give at this moment *)
Definition bytesNow (o : obj) : bs := (match oBuf o with Some b => bytesOf b | None => bytesOf (encode0 None (oMsg o)) end) ++ mBody (oMsg o).

Definition rstep (s : rst) (o : rop) : option rst :=
  match o with
  | RArrive m pick =>
      match acquire s pick with
      | Some (s1, k) =>
          match nth_error (rHeap s1) k with
          | Some x => let s2 := setObj s1 k (mkObj (fill (oMsg x) m) (oBuf x) (oCan x) (Some (length (rHnd s1), false))) in
                      Some (mkRst (rHeap s2) (rPool s2) (rHnd s2 ++ [mkHnd k (fill clean m) 0 PRun]) (rQueue s2) (rBusy s2) (rOut s2))
          | None => None
          end
      | None => None
      end
  | RBad m pick =>
      match acquire s pick with
      | Some (s1, k) =>
          match nth_error (rHeap s1) k with
          | Some x => Some (release (setObj s1 k (mkObj (fill (oMsg x) m) (oBuf x) true None)) k)
          | None => None
          end
      | None => None
      end
  | RPrep h g sid ch => (* ConvertToReqMessage; newStream sets the id *)
      match nth_error (rHnd s) h with
      | Some x => match hPc x, nth_error (rHeap s) (hReq x) with
                  | PRun, Some y => Some (setHnd (setObj s (hReq x) (mkObj (forward (oMsg y) g sid) (oBuf y) (oCan y) (oHold y))) h
                                                 (mkHnd (hReq x) (hCall x) (S (hTries x)) (PPre g sid ch)))
                  | _, _ => None
                  end
      | None => None
      end
  | REnc h =>
      match nth_error (rHnd s) h with
      | Some x => match hPc x, nth_error (rHeap s) (hReq x) with
                  | PPre g sid ch, Some y =>
                      Some (goPc (setObj s (hReq x) (mkObj (oMsg y) (Some (encode0 (oBuf y) (oMsg y))) (oCan y) (oHold y))) h x (PTry g sid ch))
                  | _, _ => None
                  end
      | None => None
      end
  | RPush h =>
      match nth_error (rHnd s) h with
      | Some x => match hPc x with
                  | PTry g sid ch =>
                      match nth_error (rQueue s) ch with
                      | Some q => let s1 := goPc s h x PRun in
                                  Some (mkRst (rHeap s1) (rPool s1) (rHnd s1)
                                              (list_set (rQueue s1) ch (q ++ [mkEnt (hReq x) h (forward (hCall x) g sid)])) (rBusy s1) (rOut s1))
                      | None => None
                      end
                  | _ => None
                  end
      | None => None
      end
  | RNoPush h => (* the deadline passes or the channel is closed first *)
      match nth_error (rHnd s) h with
      | Some x => match hPc x with PTry _ _ _ => Some (goPc s h x PRun) | _ => None end
      | None => None
      end
  | RWrite ch =>
      match nth_error (rQueue s) ch with
      | Some (e :: q) =>
          match nth_error (rHeap s) (eObj e) with
          | Some y => Some (emit (mkRst (rHeap s) (rPool s) (rHnd s) (list_set (rQueue s) ch q) (rBusy s ++ [e]) (rOut s))
                                 (mkWrote (Some ch) (eHnd e) (eWant e) (bytesNow y)))
          | None => None
          end
      | _ => None
      end
  | RDone i =>
      match nth_error (rBusy s) i with
      | Some e => match nth_error (rHeap s) (eObj e) with
                  | Some y => let s1 := setObj s (eObj e) (mkObj (oMsg y) (oBuf y) true (oHold y)) in
                              Some (mkRst (rHeap s1) (rPool s1) (rHnd s1) (rQueue s1) (firstn i (rBusy s1) ++ skipn (S i) (rBusy s1)) (rOut s1))
                  | None => None
                  end
      | None => None
      end
  | RShut ch =>
      match nth_error (rQueue s) ch with
      | Some _ => Some (mkRst (rHeap s) (rPool s) (rHnd s) (list_set (rQueue s) ch []) (rBusy s) (rOut s))
      | None => None
      end
  | RAnswer h a pick =>
      match nth_error (rHnd s) h with
      | Some x =>
          match hPc x with
          | PRun =>
              match acquire s (match a with ABeat _ => None | _ => pick end) with
              | Some (s1, k) =>
                  match nth_error (rHeap s1) k with
                  | Some y => (* motanserver.go 274: the id of the client's request *)
                      Some (goPc (setObj s1 k (mkObj (setRid (answerFill a (oMsg y)) (hReqID (mHeader (hCall x)))) (oBuf y) (oCan y) (Some (h, true)))) h x
                                 (PGot k (setRid (answerFill a clean) (hReqID (mHeader (hCall x))))))
                  | None => None
                  end
              | None => None
              end
          | _ => None
          end
      | None => None
      end
  | REncAnswer h =>
      match nth_error (rHnd s) h with
      | Some x => match hPc x with
                  | PGot r m => match nth_error (rHeap s) r with
                                | Some y => Some (goPc (setObj s r (mkObj (oMsg y) (Some (encode0 (oBuf y) (oMsg y))) (oCan y) (oHold y))) h x (PEnc r m))
                                | None => None
                                end
                  | _ => None
                  end
      | None => None
      end
  | RSend h => (* 279-281 *)
      match nth_error (rHnd s) h with
      | Some x => match hPc x with
                  | PEnc r m => match nth_error (rHeap s) r with
                                | Some y => Some (emit (goPc (setObj s r (mkObj (oMsg y) (oBuf y) true (oHold y))) h x (PSent r))
                                                       (mkWrote None h m (bytesNow y)))
                                | None => None
                                end
                  | _ => None
                  end
      | None => None
      end
  | RFreeReq h => (* 299 *)
      match nth_error (rHnd s) h with
      | Some x => match hPc x with PSent r => Some (goPc (release s (hReq x)) h x (PRel r)) | _ => None end
      | None => None
      end
  | RFreeRes h => (* 300 *)
      match nth_error (rHnd s) h with
      | Some x => match hPc x with PRel r => Some (goPc (release s r) h x PEnd) | _ => None end
      | None => None
      end
  end.
Fixpoint rruns (s : rst) (os : list rop) : option rst :=
  match os with [] => Some s | o :: r => match rstep s o with Some s' => rruns s' r | None => None end end.
