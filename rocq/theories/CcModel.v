(* CcModel.v: many calls at once over one connection: the client's channel (endpoint/motanCommonEndpoint.go 369-735, StreamModel.v), the
   bytes on their way in both directions, and the server's connection (server/motanserver.go 164-310, ServerModel.v) with its handlers
   (ProvModel.v).  Every step is an atomic action of one goroutine or of the network, which may cut and delay the bytes as it likes
   but neither loses, changes nor reorders them (TCP).
   Simplifications: one channel, number 0; motan1 is not spoken; what is handed to the sending goroutine (sendCh, 470 and 737-760)
   goes to the wire in this order. *)
From Verif Require Import Base BytesModel Strconv ProtoModel ConvModel SimpleModel ServerModel ProvModel.
From Verif Require StreamModel.

(* the client's endpoint, the server, the client's address as the server sees it, gzip for motan1 (not used), the request of each call *)
Record world := mkWorld { w_c : gclient; w_g : gserver; w_ip : bs; w_gunzip : bs -> option bs; w_req : nat -> mrequest value }.

(* [cc_up]: written by the client and not yet arrived; [cc_down]: written by the server and not yet arrived; [cc_in]: arrived at the
   client and not yet read *)
Record cc := mkCc { cc_st : StreamModel.st; cc_up : bs; cc_srv : conn; cc_down : bs; cc_in : bs }.
Definition cc0 : cc := mkCc StreamModel.st0 [] initConn [] [].

(* motanCommonEndpoint.go 431-468: the message of a call; a heartbeat has no request *)
Definition outgoing (W : world) (st : StreamModel.st) (i : nat) : message + cerr :=
  let x := StreamModel.stCall st i in
  if StreamModel.cHb x then inl (buildHeartbeat true (StreamModel.sidOf x)) else sendRequest (w_c W) (StreamModel.sidOf x) (w_req W i).

(* the steps: of a call or of a goroutine that handles a message; n bytes arrive at the server; its connection's loop reads a message,
   which the pool accepts or refuses; handler i ends after [pt] ms; it ends and its write fails; the client is gone; n bytes arrive at
   the client; its loop reads a message, which the pool accepts or refuses *)
Inductive kop :=
| KCall (o : StreamModel.op) | KUp (n : nat) | KRead (accepted : bool) | KEnd (i : nat) (pt : Z) | KLost (i : nat) | KEof
| KDown (n : nat) | KRecv (accepted : bool).

(* a call carries its own request; only a request that can be encoded is sent (441-451), and messages come from the wire *)
Definition possible (W : world) (st : StreamModel.st) (o : StreamModel.op) : bool :=
  match o with
  | StreamModel.OStart ch hb req _ _ _ => Nat.eqb ch 0 && (hb || N.eqb req (qID (w_req W (StreamModel.stNc st))))
  | StreamModel.ODeliver _ _ _ _ => false
  | StreamModel.OSendOk i => match outgoing W st i with inl _ => true | inr _ => false end
  | StreamModel.OSendErr i => match outgoing W st i with inl _ => false | inr _ => true end
  | _ => true
  end.
Definition written (W : world) (st : StreamModel.st) (o : StreamModel.op) : bs :=
  match o with
  | StreamModel.OSendOk i => match outgoing W st i with inl m => concat (getEncodedBytes None m) | inr _ => [] end
  | _ => []
  end.
(* a step of the server; what it writes is on its way *)
Definition kserver (W : world) (s : cc) (o : cop value) : option cc :=
  match cstep (g_cfg (w_g W)) (w_gunzip W) (w_ip W) (cc_srv s) o with
  | Some v => Some (mkCc (cc_st s) (cc_up s) v (cc_down s ++ concat (map snd (skipn (length (k_out (cc_srv s))) (k_out v)))) (cc_in s))
  | None => None
  end.
(* the handlers of motan1, which is not spoken *)
Definition noV1 : v1call_in -> hret v1resp := fun _ => HNil.
Definition kstep (W : world) (s : cc) (o : kop) : option cc :=
  match o with
  | KCall o =>
      if possible W (cc_st s) o then
        match StreamModel.step (cc_st s) o with
        | Some st => Some (mkCc st (cc_up s ++ written W (cc_st s) o) (cc_srv s) (cc_down s) (cc_in s))
        | None => None
        end
      else None
  | KUp n => match kserver W s (Arrive (firstn n (cc_up s))) with
             | Some s' => Some (mkCc (cc_st s') (skipn n (cc_up s)) (cc_srv s') (cc_down s') (cc_in s'))
             | None => None
             end
  | KRead acc => kserver W s (ReadOne acc)
  | KEnd i pt => kserver W s (EndJob i pt (gHandler (w_g W)) noV1)
  | KLost i => kserver W s (EndJobLost i)
  | KEof => kserver W s PeerClose
  | KDown n => Some (mkCc (cc_st s) (cc_up s) (cc_srv s) (skipn n (cc_down s)) (cc_in s ++ firstn n (cc_down s)))
  (* 671-716; the contents handed on are the bytes of the message; what the loop does with a message is readOne *)
  | KRecv acc =>
      match readOne (c_max (w_c W)) (cc_in s) with
      | RGot (J2 m) rest =>
          if acc then
            match StreamModel.step (cc_st s) (StreamModel.ODeliver 0 (IsHeartbeat (mHeader m)) (hReqID (mHeader m))
                                                (firstn (length (cc_in s) - length rest) (cc_in s))) with
            | Some st => Some (mkCc st (cc_up s) (cc_srv s) (cc_down s) rest)
            | None => None
            end
          else Some (mkCc (cc_st s) (cc_up s) (cc_srv s) (cc_down s) rest)
      | RGot (J1 _) _ => None
      | RStop => match StreamModel.step (cc_st s) (StreamModel.OClose 0) with       (* 661-669 closeOnErr *)
                 | Some st => Some (mkCc st (cc_up s) (cc_srv s) (cc_down s) (cc_in s))
                 | None => None
                 end
      | RWait => None
      end
  end.
Fixpoint kruns (W : world) (s : cc) (os : list kop) : option cc :=
  match os with [] => Some s | o :: r => match kstep W s o with Some s' => kruns W s' r | None => None end end.
