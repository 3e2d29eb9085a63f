(* OtModel.v: filter/tracing.go, the OpenTracing filter.  The tracer is a parameter: how a span's context is made, written
   into attachments and read back.  Panics are outcomes. *)
From Verif Require Import Base.

Definition attm := list (bs * bs).
Inductive role := Client | Server.                      (* tracing.go:137-146: an EndPoint or a Provider is called *)
(* a response: its exception's type, if any *)
Record oresp := mkOresp { o_exc : option nat; o_body : bs }.
Inductive pval := PNilDeref | PUser (v : bs).           (* the value of a panic *)
(* what the rest of the chain does: answers (None: a nil response) or panics *)
Inductive nres := NRet (r : option oresp) | NPanic (v : pval).
(* CallData: 16-24 *)
Record cdata := mkCdata { d_role : role; d_resp : option oresp; d_err : option pval }.
Inductive tag := TagError (kind : option nat).          (* error=true with the exception's type, or with the panic's value *)

Section Tracer.
Variable ctx : Type.                                    (* ot.SpanContext *)
Variable extract : attm -> option ctx.                  (* Extract; None: no context or an error *)
Variable inject : ctx -> attm -> attm.                  (* Inject through AttachmentWriter *)
Variable mkctx : option ctx -> nat -> ctx.              (* StartSpan: the context of span [n] under a parent *)

Inductive ev :=
| EStart (span : nat) (parent : option ctx) (r : role) (name : bs)
| ERecord (span : nat) (d : cdata)
| EFinish (span : nat)
| ENext (att : attm).                                   (* the rest of the chain starts, with these attachments *)

(* 27-49 DefaultTraceRecordingFunc: the tags about errors, or a nil dereference *)
Definition defaultRec (d : cdata) : list tag + pval :=
  match d_resp d with
  | None => inr PNilDeref
  | Some r => inl (match o_exc r with Some k => [TagError (Some k)] | None => match d_err d with Some _ => [TagError None] | None => [] end end)
  end.

(* 148-190 filterForClient and filterForProvider: both start a child of the extracted context, or a root span *)
Definition traceCall (rec : cdata -> list tag + pval) (r : role) (name : bs) (span : nat) (att : attm)
                     (next : attm -> list ev * nres) : list ev * nres * attm :=
  let parent := extract att in
  let c := mkctx parent span in
  let att' := inject c att in
  let '(inner, res) := next att' in
  (* 192-198 handleIfPanic: record, then panic again with the same value, unless recording panics *)
  let onPanic v := match rec (mkCdata r None (Some v)) with inl _ => v | inr w => w end in
  let pre := [EStart span parent r name; ENext att'] ++ inner in
  match res with
  | NPanic v => (pre ++ [ERecord span (mkCdata r None (Some v)); EFinish span], NPanic (onPanic v), att')
  | NRet o =>
      match rec (mkCdata r o None) with
      | inl _ => (pre ++ [ERecord span (mkCdata r o None); EFinish span], NRet o, att')
      | inr v => (pre ++ [ERecord span (mkCdata r o None); ERecord span (mkCdata r None (Some v)); EFinish span], NPanic (onPanic v), att')
      end
  end.

(* a request going through a list of nested filters: the client's, the server's, the client's of the next hop, ... with
   the attachments passed on as they are; [last] is what the innermost service does *)
Fixpoint nested (rec : cdata -> list tag + pval) (hops : list (role * bs * nat)) (last : attm -> list ev * nres) (att : attm) : list ev * nres :=
  match hops with
  | [] => last att
  | (r, name, n) :: rest => let '(e, res, _) := traceCall rec r name n att (nested rec rest last) in (e, res)
  end.
(* ha/failoverHA.go:30-52: attempts one after the other with the same request, whose attachments keep what was injected *)
Fixpoint attempts (rec : cdata -> list tag + pval) (name : bs) (spans : list nat) (att : attm) (next : attm -> list ev * nres) : list ev :=
  match spans with
  | [] => []
  | n :: rest => let '(e, _, att') := traceCall rec Client name n att next in e ++ attempts rec name rest att' next
  end.
End Tracer.
Arguments EStart {ctx} span parent r name.
Arguments ERecord {ctx} span d.
Arguments EFinish {ctx} span.
Arguments ENext {ctx} att.
Arguments traceCall {ctx} extract inject mkctx rec r name span att next.
Arguments nested {ctx} extract inject mkctx rec hops last att.
Arguments attempts {ctx} extract inject mkctx rec name spans att next.
