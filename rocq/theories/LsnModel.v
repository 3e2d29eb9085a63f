(* LsnModel.v: the servers of a process, the loop that accepts connections and its end (server/motanserver.go 26-45, 69-185, 376-385).
   Every step is an atomic action of one goroutine or of a peer.
   Simplifications: a server is opened at most once and destroyed only after it was opened (the callers in server.go and agent.go do
   no other); where a server listens is MsModel.listens; what a connection's goroutine does is ServerModel.cstep; socket options are
   left out.  The listener is package net's: Accept gives the connections in the order they were established, and after Close it
   gives errors only and those not yet accepted are dropped; only the first Close succeeds. *)
From Verif Require Import Base GoStrings GoStrings2.

Inductive lis := Never | Listening | Shut.
(* at line 145; at the select in line 147, after an error; returned, or not started *)
Inductive phase := Out | AtAccept | AtSelect | Returned.
(* [v_tok]: what isDestroyed holds, a channel with room for one (71); [v_closing]: calls of Destroy between lines 134 and 136;
   [v_pend]: established and not yet accepted; [v_logged]: errors logged by the loop (152) *)
Record srv := mkSrv { v_lis : lis; v_loop : phase; v_tok : nat; v_closing : nat; v_pend : list nat; v_logged : nat }.
Definition srv0 : srv := mkSrv Never Out 0 0 [] 0.

(* a connection: its goroutine is created (159), in its loop, or gone *)
Inductive cphase := Spawned | Handling | Ended.
(* [p_count]: currentConnections, one counter for all servers (26-45); [p_conns]: the accepted connections of each server, in order *)
Record proc := mkProc { p_srv : nat -> srv; p_conns : nat -> list nat; p_phase : nat -> cphase; p_next : nat; p_count : Z }.
Definition proc0 : proc := mkProc (fun _ => srv0) (fun _ => []) (fun _ => Ended) 0 0.
Definition upd {A} (f : nat -> A) (k : nat) (x : A) : nat -> A := fun j => if Nat.eqb j k then x else f j.
Definition setSrv (s : proc) (k : nat) (v : srv) : proc := mkProc (upd (p_srv s) k v) (p_conns s) (p_phase s) (p_next s) (p_count s).

(* Open; a peer connects; Accept returns a connection or an error; the select; the two steps of Destroy; a connection's goroutine
   begins and ends *)
Inductive lop := LOpen (k : nat) | LDial (k : nat) | LAcceptOk (k : nat) | LAcceptErr (k : nat) | LSelect (k : nat)
               | LDestroy (k : nat) | LSignal (k : nat) | LStart (c : nat) | LFinish (c : nat).

Definition lstep (s : proc) (o : lop) : option proc :=
  match o with
  | LOpen k =>                                                            (* 69-111 *)
      let v := p_srv s k in
      match v_lis v with Never => Some (setSrv s k (mkSrv Listening AtAccept 0 0 [] (v_logged v))) | _ => None end
  | LDial k =>
      let v := p_srv s k in
      match v_lis v with
      | Listening => Some (mkProc (upd (p_srv s) k (mkSrv Listening (v_loop v) (v_tok v) (v_closing v) (v_pend v ++ [p_next s]) (v_logged v)))
                                  (p_conns s) (p_phase s) (S (p_next s)) (p_count s))
      | _ => None
      end
  | LAcceptOk k =>                                                        (* 145, 154-159 *)
      let v := p_srv s k in
      match v_lis v, v_loop v, v_pend v with
      | Listening, AtAccept, c :: r =>
          Some (mkProc (upd (p_srv s) k (mkSrv Listening AtAccept (v_tok v) (v_closing v) r (v_logged v)))
                       (upd (p_conns s) k (p_conns s k ++ [c])) (upd (p_phase s) c Spawned) (p_next s) (p_count s))
      | _, _, _ => None
      end
  | LAcceptErr k =>                                                       (* 145-146 *)
      let v := p_srv s k in
      match v_lis v, v_loop v with
      | Never, _ => None
      | l, AtAccept => Some (setSrv s k (mkSrv l AtSelect (v_tok v) (v_closing v) (v_pend v) (v_logged v)))
      | _, _ => None
      end
  | LSelect k =>                                                          (* 147-153 *)
      let v := p_srv s k in
      match v_loop v with
      | AtSelect => Some (setSrv s k (match v_tok v with
                                      | S n => mkSrv (v_lis v) Returned n (v_closing v) (v_pend v) (v_logged v)
                                      | 0 => mkSrv (v_lis v) AtAccept 0 (v_closing v) (v_pend v) (S (v_logged v))
                                      end))
      | _ => None
      end
  | LDestroy k =>                                                         (* 133-135, 139; a second Close gives an error *)
      let v := p_srv s k in
      match v_lis v with
      | Listening => Some (setSrv s k (mkSrv Shut (v_loop v) (v_tok v) (S (v_closing v)) [] (v_logged v)))
      | Shut => Some s
      | Never => None
      end
  | LSignal k =>                                                          (* 136: blocks while the channel is full *)
      let v := p_srv s k in
      match v_closing v, v_tok v with
      | S n, 0 => Some (setSrv s k (mkSrv (v_lis v) (v_loop v) 1 n (v_pend v) (v_logged v)))
      | _, _ => None
      end
  | LStart c =>                                                           (* 165 *)
      match p_phase s c with
      | Spawned => Some (mkProc (p_srv s) (p_conns s) (upd (p_phase s) c Handling) (p_next s) (p_count s + 1))
      | _ => None
      end
  | LFinish c =>                                                          (* 166-167, however the loop of 180-206 ends *)
      match p_phase s c with
      | Handling => Some (mkProc (p_srv s) (p_conns s) (upd (p_phase s) c Ended) (p_next s) (p_count s - 1))
      | _ => None
      end
  end.
Fixpoint lruns (s : proc) (os : list lop) : option proc :=
  match os with [] => Some s | o :: r => match lstep s o with Some s' => lruns s' r | None => None end end.

(* 376-385; only for connections that are not TCP (171-176) *)
Definition getRemoteIP (address : bs) : bs :=
  match indexOf address (s2b ":") with
  | Some 0 | None => address
  | Some n => firstn n address
  end.
