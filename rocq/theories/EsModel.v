(* EsModel.v: the settings an endpoint reads from its URL, the address it dials, its first connection and retries, and
   the tickers of its two background goroutines.
   /repo/endpoint/motanCommonEndpoint.go 82-112, 219-250, 280-317 (the same in /repo/endpoint/motanEndpoint.go 84-110, 213-244, 262-307),
   on top of EpModel (availability) and PoolModel (NewChannelPool). *)
From Verif Require Import Base Strconv GoStrings GoStrings2 UrlModel EpModel PoolModel.

(* 84-98: everything Initialize reads.  Durations are nanoseconds; int() of an int64 is the identity on 64 bit machines *)
Record settings := mkSettings {
  sDial : Z; sRetry : Z; sThreshold : Z; sKeepalive : Z; sTimes : timeouts;
  sConns : Z; sMaxLen : Z; sLazy : bool; sAsync : bool; sGzip : Z }.
Definition milli : Z := 1000000.
(* motanEndpoint.go 804-814: what SetMotanEPDefaultAsynInit stored last, if it was ever called *)
Definition defaultAsync (stored : option bool) : bool := match stored with None => true | Some b => b end.
(* 84-98; defaults: motanEndpoint.go 19-25, protocol/motanProtocol.go 23 *)
Definition initialize (u : url) (stored : option bool) : settings :=
  mkSettings (getTimeDuration u (s2b "connectTimeout") milli (1000 * milli))
             (getTimeDuration u (s2b "connectRetryInterval") milli (60000 * milli))
             (fst (getIntValue (fresh u) (s2b "errorCountThreshold") 10))
             (getTimeDuration u (s2b "keepaliveInterval") milli (1000 * milli))
             (initTimeouts u)
             (fst (getPositiveIntValue (fresh u) (s2b "clientConnection") 3))
             (fst (getPositiveIntValue (fresh u) (s2b "maxContentLength") (10 * 1024 * 1024)))
             (getBoolValue u (s2b "lazyInit") false)
             (getBoolValue u (s2b "asyncInitConnection") (defaultAsync stored))
             (fst (getIntValue (fresh u) (s2b "mingzSize") 0)).
(* 99-105: the arguments of net.DialTimeout *)
Definition dialArgs (u : url) (st : settings) : bs * bs * Z :=
  let address := fst (getAddressStr (fresh u)) in
  if hasPrefix address (s2b "unix://") then (s2b "unix", skipn (length (s2b "unix://")) address, sDial st)
  else (s2b "tcp", address, sDial st).

(* the endpoint, and whether the first attempt to connect is over *)
Definition wep := (ep * bool)%type.
(* an attempt to connect, with what the successive dials give; everything else is as in EpModel *)
Inductive wop := WTry (conns : list bool) | WBase (o : eop).
(* time.NewTicker panics on a period that is not positive *)
Definition tickerPanics (period : Z) : bool := (period <=? 0)%Z.
Definition wstep (st : settings) (w : wep) (o : wop) : option wep :=
  let (s, tried) := w in
  match o with
  | WTry conns =>                          (* 221, 231-236, 245-248 *)
      match eInit s with
      | IConn =>
          match fst (newPool (sConns st) (sLazy st) conns) with
          | Some _ => match estep (sThreshold st) s OConn with Some s' => Some (s', true) | None => None end
          | None =>
              if negb tried && tickerPanics (sRetry st)
              then Some (setI s (eChans s) IEnd, true)      (* 228 panics, 226 recovers: the retry goroutine is over *)
              else Some (s, true)
          end
      | _ => None
      end
  | WBase OConn => None                    (* only WTry connects *)
  | WBase OInitToken =>                    (* 241: only the retry goroutine listens *)
      if tried then match estep (sThreshold st) s OInitToken with Some s' => Some (s', true) | None => None end else None
  | WBase (OKeep j) =>
      match estep (sThreshold st) s (OKeep j) with
      | Some s' =>
          match nth_error (eKeep s') j with
          | Some KLoop => if tickerPanics (sKeepalive st) then Some (setKeep s' j KExit, tried)   (* 302 panics, 301 recovers *)
                          else Some (s', tried)
          | _ => Some (s', tried)
          end
      | None => None
      end
  | WBase b => match estep (sThreshold st) s b with Some s' => Some (s', tried) | None => None end
  end.
Fixpoint wruns (st : settings) (w : wep) (os : list wop) : option wep :=
  match os with [] => Some w | o :: r => match wstep st w o with Some w' => wruns st w' r | None => None end end.
Definition wep0 : wep := (ep0, false).
