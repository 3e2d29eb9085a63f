(* EpModel.v: the motan endpoint around its channels: request timeouts, the group put on a request, the error
   counter, the availability flag, the keepalive goroutine, initialisation and Destroy.
   /repo/endpoint/motanCommonEndpoint.go 80-367, /repo/endpoint/endpoint.go 50-56.
   (/repo/endpoint/motanEndpoint.go has the same code for motan2 only.) *)
From Verif Require Import Base Strconv GoStrings GoStrings2 UrlModel.

(* ---- motanCommonEndpoint.go 88-90, 129-147: GetRequestTimeout ---- *)
(* protocol/motanProtocol.go 49, 55; endpoint defaults, motanCommonEndpoint.go 24-40 *)
Definition MGroup := s2b "M_g".
Definition defaultRequestTimeoutMs : Z := 1000.

(* 88-90: what Initialize reads once.  GetInt returns 0 next to ok = false *)
Record timeouts := mkTimeouts { tReq : Z; tMin : Z; tMax : Z }.
Definition intOrZero (u : url) (k : bs) : Z := match fst (getInt (fresh u) k) with Some z => z | None => 0%Z end.
Definition initTimeouts (u : url) : timeouts :=
  mkTimeouts (fst (getPositiveIntValue (fresh u) TimeOutKey defaultRequestTimeoutMs))
             (intOrZero u MinTimeOutKey) (intOrZero u MaxTimeOutKey).

(* 129-147, in nanoseconds (time.Duration is an int64; products wrap).  Division of int64 truncates *)
Definition getRequestTimeout (u : url) (t : timeouts) (method desc rt : bs) : Z :=
  let timeout := fst (getMethodPositiveIntValue (fresh u) method desc TimeOutKey (tReq t)) in
  let lo := if (tMin t =? 0)%Z then Z.quot timeout 2 else tMin t in
  let hi := if (tMax t =? 0)%Z then wrapI64 (timeout * 2) else tMax t in
  let chosen :=
    match rt with
    | [] => timeout
    | _ => let req := fst (parseInt64 rt) in if ((lo <=? req) && (req <=? hi))%Z then req else timeout
    end in
  wrapI64 (chosen * 1000000).

(* ---- 205-217 fitGroup, endpoint.go 50-56 GetRequestGroup: attachments are an association list *)
Definition attach (m : list (bs * bs)) (k : bs) : bs := match aget bs_eqb m k with Some v => v | None => [] end.
Definition getRequestGroup (m : list (bs * bs)) : bs :=
  match attach m MGroup with [] => attach m GroupKey | g => g end.
Definition fitGroup (u : url) (v1 : bool) (m : list (bs * bs)) : list (bs * bs) :=
  if v1 then
    if negb (bs_eqb (attach m GroupKey) (uGroup u)) && negb (bs_eqb (uGroup u) []) then aset bs_eqb m GroupKey (uGroup u) else m
  else
    if negb (bs_eqb (getRequestGroup m) (uGroup u)) && negb (bs_eqb (uGroup u) []) then aset bs_eqb m MGroup (uGroup u) else m.

(* ---- 149-202 Call: what one call does, given what the pool and the channel do ---- *)
(* core/constants.go 137, 140 *)
(* what an exception looks like to the endpoint: BizException or not, code, and whether its text says "provider not exist" *)
Record exc := mkExc { xBiz : bool; xCode : Z; xMsgNoProvider : bool }.
Definition EProviderNotExist : Z := 404.
Definition ENoChannel : Z := 1002.
(* channels == nil / Get failed / channel.Call failed / channel.Call returned a response; then (only when not a proxy)
   deserialisation of its value fails or not *)
Inductive chanOut := NilPool | NoChannel | CallErr | Got (id : N) (e : option exc) (deserFails : bool).
(* what Call does to the error counter: recordErrAndKeepalive(exception) or resetErr() *)
Inductive note := NErr (x : exc) | NReset.
Record callRes := mkCallRes { crId : N; crExc : option exc }.
(* 343-349, 726-731 of core/motan.go: the response is built with the request's id and code 400 *)
Definition defaultErr (rid : N) : callRes := mkCallRes rid (Some (mkExc false 400 false)).
Definition epCall (proxy : bool) (rid : N) (o : chanOut) : callRes * note :=
  match o with
  | NilPool => (defaultErr rid, NErr (mkExc false 400 false))
  | NoChannel => let x := mkExc false ENoChannel false in (mkCallRes rid (Some x), NErr x)
  | CallErr => (defaultErr rid, NErr (mkExc false 400 false))
  | Got id e df =>
      let n := match e with Some x => if xBiz x then NReset else NErr x | None => NReset end in
      (if negb proxy && df then defaultErr rid else mkCallRes id e, n)
  end.

(* ---- 114-127, 219-341: availability.  Every step is one atomic action of one goroutine ---- *)
(* 252-263 after AddUint32 reached the threshold: before setAvailable(false), before setKeepaliveType, before go keepalive() *)
Inductive epc := EDown (x : exc) | EType (x : exc) | ESpawn | EEnd.
(* 280-317: before the locked section, at the select, heartbeat succeeded and before setAvailable(true), before resetErr,
   before the deferred keepaliveRunning.Store(false), finished *)
Inductive kpc := KStart | KLoop | KUp | KReset | KExit | KEnd.
(* 219-250: connecting (first try or retry goroutine), m.channels stored and before setAvailable(true), finished *)
Inductive ipc := IConn | ISet | IEnd.
Record ep := mkEp {
  eAvail : bool; eCount : N; eProfile : bool; eRunning : bool; eDestroyed : bool; eTok : nat; eChans : bool;
  eInit : ipc; eHand : list epc; eKeep : list kpc }.
(* 80-112: the state when Initialize starts connecting (available is unset, which reads as false, line 362) *)
Definition ep0 : ep := mkEp false 0 false false false 0 false IConn [] [].

Definition setA s b := mkEp b (eCount s) (eProfile s) (eRunning s) (eDestroyed s) (eTok s) (eChans s) (eInit s) (eHand s) (eKeep s).
Definition setC s c := mkEp (eAvail s) c (eProfile s) (eRunning s) (eDestroyed s) (eTok s) (eChans s) (eInit s) (eHand s) (eKeep s).
Definition setP s p := mkEp (eAvail s) (eCount s) p (eRunning s) (eDestroyed s) (eTok s) (eChans s) (eInit s) (eHand s) (eKeep s).
Definition setR s r := mkEp (eAvail s) (eCount s) (eProfile s) r (eDestroyed s) (eTok s) (eChans s) (eInit s) (eHand s) (eKeep s).
Definition setD s d := mkEp (eAvail s) (eCount s) (eProfile s) (eRunning s) d (eTok s) (eChans s) (eInit s) (eHand s) (eKeep s).
Definition setT s t := mkEp (eAvail s) (eCount s) (eProfile s) (eRunning s) (eDestroyed s) t (eChans s) (eInit s) (eHand s) (eKeep s).
Definition setI s c i := mkEp (eAvail s) (eCount s) (eProfile s) (eRunning s) (eDestroyed s) (eTok s) c i (eHand s) (eKeep s).
Definition setH s h := mkEp (eAvail s) (eCount s) (eProfile s) (eRunning s) (eDestroyed s) (eTok s) (eChans s) (eInit s) h (eKeep s).
Definition setK s k := mkEp (eAvail s) (eCount s) (eProfile s) (eRunning s) (eDestroyed s) (eTok s) (eChans s) (eInit s) (eHand s) k.

(* uint32 arithmetic *)
Definition w32 (n : N) : N := (n mod 4294967296)%N.
(* uint32(m.errorCountThreshold): truncation of an int64 *)
Definition thr32 (thr : Z) : N := Z.to_N (thr mod 4294967296)%Z.

(* 265-273 setKeepaliveType *)
Definition isProfile (x : exc) : bool := (xCode x =? EProviderNotExist)%Z && xMsgNoProvider x.

Inductive eop :=
| OErr (x : exc)      (* recordErrAndKeepalive, up to and including AddUint32 and the comparison: 253-257 *)
| OOk                 (* resetErr after a good call: 275-277 *)
| OHand (i : nat)     (* next action of the i-th goroutine that reached the threshold: 258-261 *)
| OKeep (j : nat)     (* the locked section at the start of the j-th keepalive goroutine: 281-293 *)
| OUp (j : nat) | ORst (j : nat) | OExit (j : nat)   (* its later actions: setAvailable(true) 325, resetErr 326, the deferred store 295-299 *)
| OBeat (j : nat) (ok : bool)   (* a tick of the j-th keepalive goroutine; ok: the heartbeat would be answered *)
| OToken (j : nat)    (* the j-th keepalive goroutine receives from destroyCh *)
| OConn               (* the pool is created: 239, 247 *)
| OInit               (* setAvailable(true) of the initialisation: 240, 248 *)
| OInitToken          (* the retry goroutine receives from destroyCh: 243 *)
| ODestroy.           (* 114-127, under the lock, which keepalive's locked sections exclude *)

Definition setHand (s : ep) i v := setH s (list_set (eHand s) i v).
Definition setKeep (s : ep) j v := setK s (list_set (eKeep s) j v).

Definition estep (thr : Z) (s : ep) (o : eop) : option ep :=
  match o with
  | OErr x =>
      if (0 <? thr)%Z then
        let c := w32 (eCount s + 1) in
        if (thr32 thr <=? c)%N then Some (setH (setC s c) (eHand s ++ [EDown x])) else Some (setC s c)
      else Some s
  | OOk => Some (setC s 0%N)
  | OHand i =>
      match nth_error (eHand s) i with
      | Some (EDown x) => Some (setHand (setA s false) i (EType x))
      | Some (EType x) => Some (setHand (setP s (isProfile x)) i ESpawn)
      | Some ESpawn => Some (setHand (setK s (eKeep s ++ [KStart])) i EEnd)
      | _ => None
      end
  | OKeep j =>
      match nth_error (eKeep s) j with
      | Some KStart => if eDestroyed s || eRunning s then Some (setKeep s j KEnd) else Some (setKeep (setR s true) j KLoop)
      | _ => None
      end
  | OUp j => match nth_error (eKeep s) j with Some KUp => Some (setKeep (setA s true) j KReset) | _ => None end
  | ORst j => match nth_error (eKeep s) j with Some KReset => Some (setKeep (setC s 0%N) j KExit) | _ => None end
  | OExit j => match nth_error (eKeep s) j with Some KExit => Some (setKeep (setR s false) j KEnd) | _ => None end
  | OBeat j ok =>
      match nth_error (eKeep s) j with
      | Some KLoop =>
          if eProfile s then Some s                       (* 306-307: only a metric is recorded *)
          else if negb (eChans s) then Some (setKeep s j KExit)   (* 320: m.channels is nil, the panic is recovered at 301 *)
          else if ok then Some (setKeep s j KUp) else Some s
      | _ => None
      end
  | OToken j =>
      match nth_error (eKeep s) j, eTok s with
      | Some KLoop, S t => Some (setKeep (setT s t) j KExit)
      | _, _ => None
      end
  | OConn => match eInit s with IConn => Some (setI s true ISet) | _ => None end
  | OInit => match eInit s with ISet => Some (setI (setA s true) (eChans s) IEnd) | _ => None end
  | OInitToken =>
      match eInit s, eTok s with IConn, S t => Some (setI (setT s t) (eChans s) IEnd) | _, _ => None end
  | ODestroy =>
      if eDestroyed s then Some s
      else match eTok s with
           | O => Some (setD (setT (setA s false) 1) true)
           | S _ => None                                    (* destroyCh is full: blocked *)
           end
  end.
Fixpoint eruns (thr : Z) (s : ep) (os : list eop) : option ep :=
  match os with [] => Some s | o :: r => match estep thr s o with Some s' => eruns thr s' r | None => None end end.
