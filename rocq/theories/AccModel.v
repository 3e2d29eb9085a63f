(* AccModel.v: access logs: filter/accessLog.go, filter/clusterAccessLog.go, the parts of server/motanserver.go that run the
   handlers at the end of a call, log/log.go's asynchronous access log, log/bytes.go and log/level.go. *)
From Verif Require Import Base GoStrings GoStrings2 Strconv UrlModel.

(* ------------------------------------------------------------ records *)

(* log.go 44-60 AccessLogEntity; ints are Z, the request id is a uint64 *)
Record entity := mkEnt {
  e_filter : bs; e_role : bs; e_id : N; e_service : bs; e_method : bs; e_desc : bs; e_addr : bs; e_reqSize : Z; e_resSize : Z;
  e_biz : Z; e_total : Z; e_success : bool; e_code : bs; e_exc : bs; e_up : bs }.
(* bytes.go 27-33 *)
Definition fmtBool (b : bool) : bs := if b then s2b "true" else s2b "false".
(* log.go 396-432: the unstructured form of a record *)
Definition accLine (e : entity) : bs :=
  e_filter e ++ s2b "|" ++ e_role e ++ s2b "|" ++ fmtN (e_id e) ++ s2b "|" ++ e_service e ++ s2b "|" ++ e_method e ++ s2b "|" ++
  e_desc e ++ s2b "|" ++ e_addr e ++ s2b "|" ++ fmtZ (e_reqSize e) ++ s2b "|" ++ fmtZ (e_resSize e) ++ s2b "|" ++ fmtZ (e_biz e) ++ s2b "|" ++
  fmtZ (e_total e) ++ s2b "|" ++ fmtBool (e_success e) ++ s2b "|" ++ e_code e ++ s2b "|" ++ e_exc e ++ s2b "|" ++ e_up e.
(* zap's console encoder with a time and a message: both as they are, a tab between them, a line feed behind *)
Definition outLine (ts msg : bs) : bs := ts ++ x09 :: msg ++ [x0a].

(* ------------------------------------------------------------ one record for a call *)

(* what the record takes from the request; times in nanoseconds *)
Record call := mkCall { k_service : bs; k_method : bs; k_desc : bs; k_host : bs; k_reqSize : Z; k_recv : Z; k_sent : Z }.
(* and from the response; [a_exc]: the exception's code and its text in JSON (encoding/json is not modelled) *)
Record answer := mkAns { a_id : N; a_exc : option (Z * bs); a_resSize : Z; a_process : Z; a_up : bs }.
(* time.Sub saturates; Nanoseconds()/1e6 rounds towards zero *)
Definition millis (t1 t0 : Z) : Z := Z.quot (Z.max (-9223372036854775808) (Z.min 9223372036854775807 (t1 - t0))) 1000000.
(* accessLog.go 78-117 doAccessLog; the pooled entity's old fields are all overwritten *)
Definition fill (stale : entity) (name role addr : bs) (total : Z) (k : call) (r : answer) : entity :=
  {| e_filter := name; e_role := role; e_id := a_id r; e_service := k_service k; e_method := k_method k; e_addr := addr; e_desc := k_desc k;
     e_reqSize := k_reqSize k; e_resSize := a_resSize r; e_biz := a_process r; e_total := total;
     e_code := match a_exc r with Some (c, _) => fmtZ c | None => s2b "200" end;
     e_success := match a_exc r with Some _ => false | None => true end;
     e_exc := match a_exc r with Some (_, j) => j | None => [] end;
     e_up := a_up r |}.

(* who calls the filter: a served provider, or an endpoint with its address *)
Inductive acaller := AProvider | AEndpoint (host : bs) (port : Z).
(* what a record is asked for: the arguments of doAccessLog *)
Record ask := mkAsk { q_name : bs; q_role : bs; q_addr : bs; q_total : Z; q_call : call; q_ans : answer }.
(* accessLog.go 36-64 Filter: [t0], [t1] the clock before and after the inner call, which answered [r].  The result: the
   records asked for at once, and whether one is asked for when the response finishes.  A nil response would panic. *)
Definition accFilter (who : acaller) (t0 t1 : Z) (k : call) (r : answer) : list ask * bool :=
  match who with
  | AProvider => ([], true)
  | AEndpoint h p => ([mkAsk (s2b "accessLog") (s2b "client-agent") (h ++ s2b ":" ++ fmtZ p) (millis t1 t0) k r], false)
  end.
(* 54-57: the handler run at the end; [k] by then has the time the response was sent *)
Definition accFinish (k : call) (r : answer) : ask :=
  mkAsk (s2b "accessLog") (s2b "server-agent") (k_host k) (millis (k_sent k) (k_recv k)) k r.
(* clusterAccessLog.go 29-34 Filter *)
Definition accCluster (t0 t1 : Z) (k : call) (r : answer) : list ask :=
  [mkAsk (s2b "clusterAccessLog") (s2b "client-agent") [] (millis t1 t0) k r].

(* ------------------------------------------------------------ the end of a served call *)

(* what the peer is sent: the service's response, an error made by the server, or nothing *)
Inductive sent := SAnswer (r : answer) | SError | SNothing.
(* motanserver.go 209-312 processV2, for a message that is no heartbeat: [dec]: ConvertToRequest worked; [h]: what the handler
   answered, the access log filter being in its chain; [conv]: ConvertToResMessage worked; writing may fail, which is ignored
   here as in the code. *)
Definition serveV2 (dec : bool) (k : call) (h : option answer) (conv : bool) : list ask * sent :=
  if negb dec then ([], SError)
  else match h with
       | None => ([], SError)
       | Some r => ([accFinish k r], if conv then SAnswer r else SError)
       end.
(* 314-369 processV1: an answer that cannot be encoded ends the call before the handlers *)
Definition serveV1 (dec : bool) (k : call) (h : option answer) (enc : bool) : list ask * sent :=
  if negb dec then ([], SError)
  else match h with
       | None => ([], SNothing)
       | Some r => if enc then ([accFinish k r], SAnswer r) else ([], SNothing)
       end.

(* ------------------------------------------------------------ the asynchronous log *)

(* Pooled entities are cells of a heap; whoever fills one, the queue, a consumer or the pool owns it.  [g_hold]: cells
   being filled or about to be logged, with what they were filled for; [g_queue]: the channels' contents, oldest first,
   each with its channel; consumers: [g_top] about to read d.outputChan, [g_wait] receiving from a channel, [g_held] writing
   a record. *)
Record ast := mkAst {
  g_heap : nat -> entity; g_next : nat; g_pool : list nat; g_hold : list (nat * ask); g_async : bool; g_cur : option nat; g_chans : nat;
  g_queue : list (nat * nat); g_top : nat; g_wait : list nat; g_held : list nat; g_disc : Z; g_avail : bool; g_struct : bool }.
(* what can be seen: a record was queued (or, synchronously, is being written), was discarded, was written as bytes, was
   hidden by SetAccessLogAvailable(false), was lost to a panic; the sampler reported a number *)
Inductive aev := GQueued (q : ask) | GDisc (q : ask) | GOut (e : entity) (b : bs) | GHid (e : entity) | GFail (e : entity) | GSample (n : Z).

Fixpoint remove1 (x : nat) (l : list nat) : list nat :=
  match l with [] => [] | y :: r => if Nat.eqb y x then r else y :: remove1 x r end.
Fixpoint takeHold (a : nat) (l : list (nat * ask)) : option (ask * list (nat * ask)) :=
  match l with
  | [] => None
  | (b, q) :: r => if Nat.eqb b a then Some (q, r) else match takeHold a r with Some (x, r') => Some (x, (b, q) :: r') | None => None end
  end.
Fixpoint takeQ (k : nat) (l : list (nat * nat)) : option (nat * list (nat * nat)) :=
  match l with
  | [] => None
  | (j, a) :: r => if Nat.eqb j k then Some (a, r) else match takeQ k r with Some (x, r') => Some (x, (j, a) :: r') | None => None end
  end.
Definition hset (h : nat -> entity) (a : nat) (e : entity) : nat -> entity := fun b => if Nat.eqb b a then e else h b.

Inductive aop :=
| ANew (a : nat) (q : ask)              (* accessLog.go 99-114: AcquireAccessLogEntity and the assignments *)
| ASend (a : nat) (ts : bs) (ok : bool) (* log.go 357-368 AccessLog; synchronously also doAccessLog *)
| ATop                                  (* 449: a consumer reads d.outputChan *)
| ATake (k : nat)                       (* 449: the receive *)
| AWrite (a : nat) (ts : bs) (ok : bool)(* 370-436 doAccessLog; [ok] = false: a panic, recovered *)
| AAsync (b : bool)                     (* 444-462 SetAsync (d.async and d.outputChan are set in one step here) *)
| AAvail (b : bool)                     (* 480-486 *)
| AStruct (b : bool)                    (* 464-466 *)
| ASample                               (* 457-459 *)
| AGc (a : nat).                        (* sync.Pool may forget an entity *)

Section Log.
(* [render]: the structured form (zap's json fields); [cap]: the flag log_buffer_size *)
Variable render : bs -> entity -> bs.
Variable cap : nat.
Variable zero : entity.

Definition emit (s : ast) (a : nat) (ts : bs) (ok : bool) : list aev :=
  let e := g_heap s a in
  if negb ok then [GFail e]
  else if g_avail s then [GOut e (if g_struct s then render ts e else outLine ts (accLine e))] else [GHid e].
(* 370-436: a panic skips ReleaseAccessLogEntity *)
Definition release (s : ast) (a : nat) (ok : bool) : list nat := if ok then a :: g_pool s else g_pool s.

Definition chanLen (s : ast) (k : nat) : nat := length (filter (fun x => Nat.eqb (fst x) k) (g_queue s)).
(* a send that does not block: room in the buffer, or a receiver already waiting *)
Definition canSend (s : ast) (k : nat) : bool :=
  orb (Nat.ltb (chanLen s k) cap) (Nat.ltb (chanLen s k) (length (filter (Nat.eqb k) (g_wait s)))).

Definition accStep (s : ast) (o : aop) : option (ast * list aev) :=
  match o with
  | ANew a q =>
      let e := fill (g_heap s a) (q_name q) (q_role q) (q_addr q) (q_total q) (q_call q) (q_ans q) in
      if existsb (Nat.eqb a) (g_pool s)
      then Some (mkAst (hset (g_heap s) a e) (g_next s) (remove1 a (g_pool s)) (g_hold s ++ [(a, q)]) (g_async s) (g_cur s) (g_chans s) (g_queue s)
                  (g_top s) (g_wait s) (g_held s) (g_disc s) (g_avail s) (g_struct s), [])
      else if Nat.eqb a (g_next s)
      then Some (mkAst (hset (g_heap s) a (fill zero (q_name q) (q_role q) (q_addr q) (q_total q) (q_call q) (q_ans q))) (S (g_next s)) (g_pool s) (g_hold s ++ [(a, q)])
                  (g_async s) (g_cur s) (g_chans s) (g_queue s) (g_top s) (g_wait s) (g_held s) (g_disc s) (g_avail s) (g_struct s), [])
      else None
  | ASend a ts ok =>
      match takeHold a (g_hold s) with
      | None => None
      | Some (q, hold) =>
          if g_async s then
            match g_cur s with
            | Some k =>
                if canSend s k
                then Some (mkAst (g_heap s) (g_next s) (g_pool s) hold (g_async s) (g_cur s) (g_chans s) (g_queue s ++ [(k, a)]) (g_top s) (g_wait s) (g_held s)
                            (g_disc s) (g_avail s) (g_struct s), [GQueued q])
                else Some (mkAst (g_heap s) (g_next s) (g_pool s) hold (g_async s) (g_cur s) (g_chans s) (g_queue s) (g_top s) (g_wait s) (g_held s)
                            (wrapI64 (g_disc s + 1)) (g_avail s) (g_struct s), [GDisc q])
            | None => None
            end
          else Some (mkAst (g_heap s) (g_next s) (release s a ok) hold (g_async s) (g_cur s) (g_chans s) (g_queue s) (g_top s) (g_wait s) (g_held s)
                       (g_disc s) (g_avail s) (g_struct s), GQueued q :: emit s a ts ok)
      end
  | ATop =>
      match g_top s, g_cur s with
      | S n, Some k => Some (mkAst (g_heap s) (g_next s) (g_pool s) (g_hold s) (g_async s) (g_cur s) (g_chans s) (g_queue s) n (g_wait s ++ [k]) (g_held s)
                               (g_disc s) (g_avail s) (g_struct s), [])
      | _, _ => None
      end
  | ATake k =>
      if existsb (Nat.eqb k) (g_wait s) then
        match takeQ k (g_queue s) with
        | Some (a, r) => Some (mkAst (g_heap s) (g_next s) (g_pool s) (g_hold s) (g_async s) (g_cur s) (g_chans s) r (g_top s) (remove1 k (g_wait s)) (g_held s ++ [a])
                                 (g_disc s) (g_avail s) (g_struct s), [])
        | None => None
        end
      else None
  | AWrite a ts ok =>
      if existsb (Nat.eqb a) (g_held s)
      then Some (mkAst (g_heap s) (g_next s) (release s a ok) (g_hold s) (g_async s) (g_cur s) (g_chans s) (g_queue s) (S (g_top s)) (g_wait s) (remove1 a (g_held s))
                  (g_disc s) (g_avail s) (g_struct s), emit s a ts ok)
      else None
  | AAsync true => Some (mkAst (g_heap s) (g_next s) (g_pool s) (g_hold s) true (Some (g_chans s)) (S (g_chans s)) (g_queue s) (S (g_top s)) (g_wait s) (g_held s)
                           (g_disc s) (g_avail s) (g_struct s), [])
  | AAsync false => Some (mkAst (g_heap s) (g_next s) (g_pool s) (g_hold s) false (g_cur s) (g_chans s) (g_queue s) (g_top s) (g_wait s) (g_held s)
                            (g_disc s) (g_avail s) (g_struct s), [])
  | AAvail b => Some (mkAst (g_heap s) (g_next s) (g_pool s) (g_hold s) (g_async s) (g_cur s) (g_chans s) (g_queue s) (g_top s) (g_wait s) (g_held s) (g_disc s) b (g_struct s), [])
  | AStruct b => Some (mkAst (g_heap s) (g_next s) (g_pool s) (g_hold s) (g_async s) (g_cur s) (g_chans s) (g_queue s) (g_top s) (g_wait s) (g_held s) (g_disc s) (g_avail s) b, [])
  | ASample => Some (mkAst (g_heap s) (g_next s) (g_pool s) (g_hold s) (g_async s) (g_cur s) (g_chans s) (g_queue s) (g_top s) (g_wait s) (g_held s) 0 (g_avail s) (g_struct s),
                     [GSample (g_disc s)])
  | AGc a => Some (mkAst (g_heap s) (g_next s) (remove1 a (g_pool s)) (g_hold s) (g_async s) (g_cur s) (g_chans s) (g_queue s) (g_top s) (g_wait s) (g_held s)
                     (g_disc s) (g_avail s) (g_struct s), [])
  end.
Fixpoint accRun (s : ast) (l : list aop) : option (ast * list aev) :=
  match l with
  | [] => Some (s, [])
  | o :: r => match accStep s o with
              | Some (s1, e1) => match accRun s1 r with Some (s2, e2) => Some (s2, e1 ++ e2) | None => None end
              | None => None
              end
  end.
(* a new logger, before LogInit's SetAsync *)
Definition accInit : ast := mkAst (fun _ => zero) 0 [] [] false None 0 [] 0 [] [] 0 true false.
End Log.

(* ------------------------------------------------------------ levels *)

(* level.go 9-20 *)
Definition levelNames : list (Z * bs) :=
  [(-2, s2b "trace"); (-1, s2b "debug"); (0, s2b "info"); (1, s2b "warn"); (2, s2b "error"); (3, s2b "dpanic"); (4, s2b "panic"); (5, s2b "fatal")]%Z.
(* 24-45 String *)
Definition levelString (l : Z) : bs :=
  match find (fun x => (fst x =? l)%Z) levelNames with Some x => snd x | None => s2b "Level(" ++ fmtZ l ++ s2b ")" end.
(* strings.ToLower, on ASCII letters only: other letters, some of which become ASCII (U+0130 becomes i), are not modelled *)
Definition lowerB (b : byte) : byte :=
  let n := Byte.to_N b in if andb (65 <=? n)%N (n <=? 90)%N then match Byte.of_N (n + 32) with Some c => c | None => b end else b.
(* 47-72 Set: the new value, or an error *)
Definition levelSet (s : bs) : option Z :=
  let w := map lowerB s in
  match w with
  | [] => Some 0%Z
  | _ => match find (fun x => bs_eqb (snd x) w) levelNames with Some x => Some (fst x) | None => None end
  end.
