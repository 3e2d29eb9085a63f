(* PingModel.v: measuring round trips (core/ping.go 104-255): Ping with its receiving goroutine, as steps on what the two share.

   The connection, the clock, the tickers and the parsing of messages are parameters of the steps: a packet read is what processPacket makes
   of it.  Writing a packet (178-189) goes on until the system takes it or fails otherwise, and counts either way. *)
From Verif Require Import Base.

(* 221-255: what a packet read is: not parsable; no echo reply; the echo reply to the requests of this id, with the time since the one in it if it
   has one *)
Inductive pkt := PBad | POther | PEcho (id : Z) (rtt : option Z).
Inductive mainpc := MLoop | MWait | MDone.           (* in the loop 129-155; in wg.Wait (114), done; returned *)
Inductive recvpc := RTop | RReading | RSending (p : pkt) | RGone.   (* at 196; in ReadFrom, 202; at 216; returned *)
Record ping := mkPing {
  p_count : Z; p_id : Z;
  p_main : mainpc; p_recv : recvpc;
  p_closed : bool; p_panic : bool;
  p_ch : list pkt;                   (* the channel of 116, room for 5 *)
  p_sent : Z; p_got : Z; p_rtts : list Z;
  p_read : list pkt                  (* not in the code: all that was read *)
}.
Inductive pop :=
| PSeeDone                (* 131 *)
| PTimeout                (* 133 *)
| PTick (ok : bool)       (* 136; [ok]: the message could be made, 173-176 *)
| PTake                   (* 144 *)
| PReturn                 (* 114: the goroutine is gone *)
| PCheck                  (* 196-199 *)
| PGet (p : pkt)          (* 202: a packet, or 203-214: an error of another kind, which is passed on like a packet that cannot be parsed *)
| PLate                   (* 205-207: nothing came within a second *)
| PFail                   (* 208-211 *)
| PPush.                  (* 216 *)

Definition setMain (s : ping) (m : mainpc) : ping := mkPing (p_count s) (p_id s) m (p_recv s) (p_closed s) (p_panic s) (p_ch s) (p_sent s) (p_got s) (p_rtts s) (p_read s).
Definition setRecv (s : ping) (r : recvpc) : ping := mkPing (p_count s) (p_id s) (p_main s) r (p_closed s) (p_panic s) (p_ch s) (p_sent s) (p_got s) (p_rtts s) (p_read s).
(* close(p.done) *)
Definition closeDone (s : ping) : ping :=
  mkPing (p_count s) (p_id s) (p_main s) (p_recv s) true (p_panic s || p_closed s) (p_ch s) (p_sent s) (p_got s) (p_rtts s) (p_read s).
(* 186-187 *)
Definition addSent (s : ping) : ping :=
  mkPing (p_count s) (p_id s) (p_main s) (p_recv s) (p_closed s) (p_panic s) (p_ch s) (p_sent s + 1) (p_got s) (p_rtts s) (p_read s).
(* 233-249 *)
Definition process (s : ping) (rest : list pkt) (p : pkt) : ping :=
  match p with
  | PEcho i r => 
      if (i =? p_id s)%Z then mkPing (p_count s) (p_id s) (p_main s) (p_recv s) (p_closed s) (p_panic s) rest (p_sent s) (p_got s + 1)
                                (p_rtts s ++ match r with Some t => [t] | None => [] end) (p_read s)
      else mkPing (p_count s) (p_id s) (p_main s) (p_recv s) (p_closed s) (p_panic s) rest (p_sent s) (p_got s) (p_rtts s) (p_read s)
  | _ => mkPing (p_count s) (p_id s) (p_main s) (p_recv s) (p_closed s) (p_panic s) rest (p_sent s) (p_got s) (p_rtts s) (p_read s)
  end.
(* 104-122: listening has worked; [ok] as in PTick *)
Definition pinginit (count id : Z) (ok : bool) : ping := mkPing count id MLoop RTop false false [] (if ok then 1 else 0) 0 [] [].

Definition pingstep (s : ping) (o : pop) : option ping :=
  if p_panic s then None else
  match o with
  | PSeeDone => match p_main s with MLoop => if p_closed s then Some (setMain s MWait) else None | _ => None end
  | PTimeout => match p_main s with MLoop => Some (setMain (closeDone s) MWait) | _ => None end
  | PTick ok =>
      match p_main s with
      | MLoop => if (0 <? p_count s)%Z && (p_sent s =? p_count s)%Z then Some s else Some (if ok then addSent s else s)
      | _ => None
      end
  | PTake =>
      match p_main s, p_ch s with
      | MLoop, p :: rest =>
          let s' := process s rest p in
          match p with
          | PBad => Some (setMain (closeDone s') MWait)                                                   (* 145-149 *)
          | _ => if (0 <? p_count s)%Z && (p_count s <=? p_got s')%Z then Some (setMain (closeDone s') MWait) else Some s'   (* 150-153 *)
          end
      | _, _ => None
      end
  | PReturn => match p_main s, p_recv s with MWait, RGone => Some (setMain s MDone) | _, _ => None end
  | PCheck => match p_recv s with RTop => Some (setRecv s (if p_closed s then RGone else RReading)) | _ => None end
  | PGet p =>
      match p_recv s with
      | RReading => Some (mkPing (p_count s) (p_id s) (p_main s) (RSending p) (p_closed s) (p_panic s) (p_ch s) (p_sent s) (p_got s) (p_rtts s) (p_read s ++ [p]))
      | _ => None
      end
  | PLate => match p_recv s with RReading => Some (setRecv s RTop) | _ => None end
  | PFail => match p_recv s with RReading => Some (setRecv (closeDone s) RGone) | _ => None end
  | PPush =>
      match p_recv s with
      | RSending p =>
          if Nat.ltb (length (p_ch s)) 5 then
            Some (mkPing (p_count s) (p_id s) (p_main s) RTop (p_closed s) (p_panic s) (p_ch s ++ [p]) (p_sent s) (p_got s) (p_rtts s) (p_read s))
          else None
      | _ => None
      end
  end.
Fixpoint pingrun (s : ping) (os : list pop) : option ping :=
  match os with [] => Some s | o :: rest => match pingstep s o with Some s' => pingrun s' rest | None => None end end.
