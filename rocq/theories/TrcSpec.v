(* TrcSpec.v: what is said about mesh traces, without the model's helpers. *)
From Verif Require Import Base GoStrings UrlModel TrcModel.

(* a call of NewTraceContext, and a call of GetTraceContexts, run from start to end *)
Definition callTrace (t : nat) (rid : N) : list op := [OInit t rid; ORead t; OTest t; OLock t].
Definition callTraceFull (t : nat) (rid : N) : list op := [OInit t rid; ORead t; OTest t].
Definition callDump (d : nat) : list op := [ODRead d; ODSet d; ODRet d].
(* one dump at a time *)
Fixpoint oneDump (active : option nat) (os : list op) : Prop :=
  match os with
  | [] => True
  | ODRead d :: r => active = None /\ oneDump (Some d) r
  | ODRet d :: r => active = Some d /\ oneDump None r
  | _ :: r => oneDump active r
  end.
(* the traces in the holder that is in use *)
Definition held (g : gst) : list (nat * N) := tcsOf g (g_cur g).

(* the span a span follows: one without address the last without address; one with an address the last with the same
   address or, for the first of its address, the last without address; [before] has the earlier spans, latest first *)
Fixpoint latest (a : bs) (before : list span) : option span :=
  match before with [] => None | s :: r => if bs_eqb (sp_addr s) a then Some s else latest a r end.
Definition follows (s : span) (before : list span) : option span :=
  match latest (sp_addr s) before with
  | Some p => Some p
  | None => latest [] before
  end.
Fixpoint durations (before l : list span) : list Z :=
  match l with
  | [] => []
  | s :: r => match follows s before with Some p => wrapI64 (sp_time s - sp_time p) | None => 0%Z end :: durations (s :: before) r
  end.
Definition sum (l : list Z) : Z := fold_right Z.add 0%Z l.
Definition someday (s : span) : Prop := (0 < sp_time s < 9223372036854775808)%Z.

(* runs of the trace handler one after the other or one within the other *)
Inductive nested : list mop -> Prop :=
| n_nil : nested []
| n_run i l r : nested l -> nested r -> ~ In (MBegin i) l -> nested (MBegin i :: l ++ MEnd i :: r).
(* whole calls one after the other *)
Inductive call := CTrace (t : nat) (rid : N) | CDump (d : nat).
Definition quiet (g : gst) : Prop := g_thr g = [] /\ g_dmp g = [].
Inductive calls (max : nat) : gst -> list call -> gst -> Prop :=
| c_nil g : calls max g [] g
| c_trace g g1 g2 t rid cs : gruns max g (callTrace t rid) = Some g1 \/ gruns max g (callTraceFull t rid) = Some g1 -> quiet g1 ->
    calls max g1 cs g2 -> calls max g (CTrace t rid :: cs) g2
| c_dump g g1 g2 d cs : gruns max g (callDump d) = Some g1 -> quiet g1 -> calls max g1 cs g2 -> calls max g (CDump d :: cs) g2.
Definition tracesAsked (cs : list call) : nat := length (filter (fun c => match c with CTrace _ _ => true | CDump _ => false end) cs).
