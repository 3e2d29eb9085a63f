(* TrcModel.v: mesh request traces: core/debug.go (the holder of traces) and, of manageHandler.go, the /debug/mesh/trace
   handler, its policy and the times it prints.  A trace context is the number under which it was created, with the
   request id; the spans of one trace are a list of its own.  The json of the answer is not modelled. *)
From Verif Require Import Base GoStrings UrlModel.

(* ------------------------------------------------------------ the holder *)

(* debug.go:42-47 traceHolder: the traces, by number and request id, and the counter next to them *)
Record holder := mkHolder { h_tcs : list (nat * N); h_size : nat }.
(* where a call of NewTraceContext is: after once.Do (87-89), after reading the global holder, after the first, unlocked test *)
Inductive pc := TInit (rid : N) | THas (rid : N) (h : nat) | TTested (rid : N) (h : nat).
(* where a call of GetTraceContexts is: after reading the holder (107), after replacing it (108) *)
Inductive dpc := DRead (h : option nat) | DSet (h : option nat).
(* holders are never reused: [g_heap] has all of them, [g_cur] is the global variable.  [g_made]: the traces created so far, [g_dumps]: the
   results of GetTraceContexts, in the order of their returns; [g_refused]: how many calls got no trace *)
Record gst := mkG { g_heap : list holder; g_cur : option nat; g_once : bool; g_thr : list (nat * pc); g_dmp : list (nat * dpc);
                    g_made : list (nat * N); g_dumps : list (list (nat * N)); g_refused : nat }.
Definition ginit : gst := mkG [] None false [] [] [] [] 0.
Inductive op :=
| OInit (t : nat) (rid : N) | ORead (t : nat) | OTest (t : nat) | OLock (t : nat)
| ODRead (d : nat) | ODSet (d : nat) | ODRet (d : nat).
Definition emptyHolder : holder := mkHolder [] 0.
Definition tcsOf (g : gst) (h : option nat) : list (nat * N) :=
  match h with None => [] | Some i => match nth_error (g_heap g) i with Some x => h_tcs x | None => [] end end.
(* 49-64 newTrace under the lock; [max]: MaxTraceSize when the holder was made *)
Definition locked (max : nat) (g : gst) (rid : N) (h : nat) : gst :=
  match nth_error (g_heap g) h with
  | None => g
  | Some x => if h_size x <=? max
              then let tc := (length (g_made g), rid) in
                   mkG (list_set (g_heap g) h (mkHolder (h_tcs x ++ [tc]) (S (h_size x)))) (g_cur g) (g_once g) (g_thr g) (g_dmp g) (g_made g ++ [tc]) (g_dumps g) (g_refused g)
              else mkG (g_heap g) (g_cur g) (g_once g) (g_thr g) (g_dmp g) (g_made g) (g_dumps g) (S (g_refused g))
  end.
Definition setThr (g : gst) (t : nat) (p : option pc) : gst :=
  mkG (g_heap g) (g_cur g) (g_once g) (match p with Some p => aset Nat.eqb (g_thr g) t p | None => adel Nat.eqb (g_thr g) t end) (g_dmp g) (g_made g) (g_dumps g) (g_refused g).
Definition setDmp (g : gst) (d : nat) (p : option dpc) : gst :=
  mkG (g_heap g) (g_cur g) (g_once g) (g_thr g) (match p with Some p => aset Nat.eqb (g_dmp g) d p | None => adel Nat.eqb (g_dmp g) d end) (g_made g) (g_dumps g) (g_refused g).
Definition gstep (max : nat) (g : gst) (o : op) : option gst :=
  match o with
  | OInit t rid => match aget Nat.eqb (g_thr g) t with
                   | Some _ => None
                   | None => let g' := if g_once g then g
                                       else mkG (g_heap g ++ [emptyHolder]) (Some (length (g_heap g))) true (g_thr g) (g_dmp g) (g_made g) (g_dumps g) (g_refused g) in
                             Some (setThr g' t (Some (TInit rid)))
                   end
  | ORead t => match aget Nat.eqb (g_thr g) t, g_cur g with Some (TInit rid), Some h => Some (setThr g t (Some (THas rid h))) | _, _ => None end
  | OTest t => match aget Nat.eqb (g_thr g) t with
               | Some (THas rid h) =>
                   match nth_error (g_heap g) h with
                   | None => None
                   | Some x => if h_size x <=? max then Some (setThr g t (Some (TTested rid h)))
                               else Some (setThr (mkG (g_heap g) (g_cur g) (g_once g) (g_thr g) (g_dmp g) (g_made g) (g_dumps g) (S (g_refused g))) t None)
                   end
               | _ => None
               end
  | OLock t => match aget Nat.eqb (g_thr g) t with Some (TTested rid h) => Some (setThr (locked max g rid h) t None) | _ => None end
  | ODRead d => match aget Nat.eqb (g_dmp g) d with Some _ => None | None => Some (setDmp g d (Some (DRead (g_cur g)))) end
  | ODSet d => match aget Nat.eqb (g_dmp g) d with
               | Some (DRead h) => Some (setDmp (mkG (g_heap g ++ [emptyHolder]) (Some (length (g_heap g))) (g_once g) (g_thr g) (g_dmp g) (g_made g) (g_dumps g) (g_refused g)) d (Some (DSet h)))
               | _ => None
               end
  | ODRet d => match aget Nat.eqb (g_dmp g) d with
               | Some (DSet h) => Some (setDmp (mkG (g_heap g) (g_cur g) (g_once g) (g_thr g) (g_dmp g) (g_made g) (g_dumps g ++ [tcsOf g h]) (g_refused g)) d None)
               | _ => None
               end
  end.
Fixpoint gruns (max : nat) (g : gst) (os : list op) : option gst :=
  match os with [] => Some g | o :: r => match gstep max g o with Some g' => gruns max g' r | None => None end end.

(* ------------------------------------------------------------ times *)

(* debug.go:75-80 Span: address, time in nanoseconds; durations are computed from these *)
Record span := mkSpan { sp_addr : bs; sp_time : Z }.
(* manageHandler.go:572-594 processReqSpan: the durations, given the last time without an address and those of addresses *)
Fixpoint reqDurations (last : Z) (m : list (bs * Z)) (l : list span) : list Z :=
  match l with
  | [] => []
  | s :: r =>
      if bs_empty (sp_addr s) then (if (0 <? last)%Z then wrapI64 (sp_time s - last) else 0%Z) :: reqDurations (sp_time s) m r
      else (match aget bs_eqb m (sp_addr s) with
            | Some t => wrapI64 (sp_time s - t)
            | None => if (0 <? last)%Z then wrapI64 (sp_time s - last) else 0%Z
            end) :: reqDurations last (aset bs_eqb m (sp_addr s) (sp_time s)) r
  end.
(* 596-606 processResSpan *)
Fixpoint resDurations (last : Z) (l : list span) : list Z :=
  match l with
  | [] => []
  | s :: r => (if (0 <? last)%Z then wrapI64 (sp_time s - last) else 0%Z) :: resDurations (sp_time s) r
  end.
(* 558-570 formatTc: requestTime, responseTime, remoteTime, totalTime *)
Definition lastTime (l : list span) : Z := sp_time (last l (mkSpan [] 0)).
Definition firstTime (l : list span) : Z := match l with s :: _ => sp_time s | [] => 0%Z end.
Definition sums (req res : list span) : option (Z * Z * Z * Z) :=
  match req, res with
  | [], _ | _, [] => None
  | _, _ => Some (wrapI64 (lastTime req - firstTime req), wrapI64 (lastTime res - firstTime res),
                  wrapI64 (firstTime res - lastTime req), wrapI64 (lastTime res - firstTime req))
  end.

(* ------------------------------------------------------------ the policy *)

(* 608-613, 537-546 CustomTrace *)
Record custom := mkCustom { ct_path : bs; ct_group : bs; ct_addr : bs; ct_ratio : Z }.
(* 615-640 Trace: whether a trace is asked for; [get] is LoadOrEmpty on the attachments, [rnd] the random number below 100 *)
Definition wanted (c : custom) (get : bs -> bs) (rnd : Z) : bool :=
  if negb (bs_empty (ct_addr c)) && negb (hasPrefix (get (s2b "host")) (ct_addr c)) then false
  else if negb (bs_empty (ct_group c)) && negb (bs_eqb (get (s2b "M_g")) (ct_group c)) then false
  else if negb (bs_empty (ct_path c)) && negb (bs_eqb (get (s2b "M_p")) (ct_path c)) then false
  else if ((0 <? ct_ratio c) && (ct_ratio c <? 100) && (ct_ratio c <=? rnd))%Z then false
  else true.
(* 547-550 MeshTrace: the global policy; a request of the handler is a number; None: the policy the program was started with *)
Inductive mop := MBegin (i : nat) | MEnd (i : nat).
Record mst := mkM { m_policy : option nat; m_saved : list (nat * option nat) }.
Definition mstep (s : mst) (o : mop) : mst :=
  match o with
  | MBegin i => mkM (Some i) (aset Nat.eqb (m_saved s) i (m_policy s))
  | MEnd i => mkM (match aget Nat.eqb (m_saved s) i with Some p => p | None => m_policy s end) (m_saved s)
  end.
Definition mruns (os : list mop) (s : mst) : mst := fold_left mstep os s.
