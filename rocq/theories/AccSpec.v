(* AccSpec.v: what C89 says about access logs. *)
From Verif Require Import Base GoStrings GoStrings2 Strconv UrlModel AccModel.

(* the record that should be logged for a call *)
Definition record_of (q : ask) : entity :=
  let k := q_call q in let r := q_ans q in
  mkEnt (q_name q) (q_role q) (a_id r) (k_service k) (k_method k) (k_desc k) (q_addr q) (k_reqSize k) (a_resSize r) (a_process r) (q_total q)
    (match a_exc r with None => true | Some _ => false end)
    (match a_exc r with None => s2b "200" | Some (c, _) => fmtZ c end)
    (match a_exc r with None => [] | Some (_, j) => j end) (a_up r).

(* what happened to records, in the order of the events *)
Definition queued (ev : list aev) : list ask := flat_map (fun e => match e with GQueued q => [q] | _ => [] end) ev.
Definition discarded (ev : list aev) : list ask := flat_map (fun e => match e with GDisc q => [q] | _ => [] end) ev.
Definition done (ev : list aev) : list entity := flat_map (fun e => match e with GOut x _ | GHid x | GFail x => [x] | _ => [] end) ev.
Definition sampled (ev : list aev) : Z := fold_right Z.add 0%Z (flat_map (fun e => match e with GSample n => [n] | _ => [] end) ev).
(* records queued and not yet written *)
Definition pending (s : ast) : list entity := map (g_heap s) (g_held s ++ map snd (g_queue s)).

(* the columns of a line *)
Definition columns (e : entity) : list bs :=
  [e_filter e; e_role e; fmtN (e_id e); e_service e; e_method e; e_desc e; e_addr e; fmtZ (e_reqSize e); fmtZ (e_resSize e); fmtZ (e_biz e);
   fmtZ (e_total e); (if e_success e then s2b "true" else s2b "false"); e_code e; e_exc e; e_up e].
Definition texts (e : entity) : list bs := [e_filter e; e_role e; e_service e; e_method e; e_desc e; e_addr e; e_code e; e_exc e; e_up e].
(* no text of the record contains a bar *)
Definition no_bar (e : entity) : Prop := forall x, In x (texts e) -> ~ In x7c x.
Definition int64 (z : Z) : Prop := (-9223372036854775808 <= z <= 9223372036854775807)%Z.
Definition ranged (e : entity) : Prop := int64 (e_reqSize e) /\ int64 (e_resSize e) /\ int64 (e_biz e) /\ int64 (e_total e).

(* operations that do not call SetAsync again; the consumer's own steps *)
Definition no_async (o : aop) : Prop := match o with AAsync _ => False | _ => True end.
Definition consumer_step (o : aop) : Prop := match o with ATop | ATake _ | AWrite _ _ true => True | _ => False end.

(* the same letter, in capitals or not *)
Definition same_letter (a b : byte) : Prop := a = b \/ In (a, b) (combine (s2b "ABCDEFGHIJKLMNOPQRSTUVWXYZ") (s2b "abcdefghijklmnopqrstuvwxyz")).
Definition level_names : list (Z * bs) :=
  [(-2, s2b "trace"); (-1, s2b "debug"); (0, s2b "info"); (1, s2b "warn"); (2, s2b "error"); (3, s2b "dpanic"); (4, s2b "panic"); (5, s2b "fatal")]%Z.
(* records in one buffer; goroutines waiting for it *)
Definition in_buffer (s : ast) (k : nat) : nat := length (filter (fun x => Nat.eqb (fst x) k) (g_queue s)).
Definition waiting_at (s : ast) (k : nat) : nat := length (filter (Nat.eqb k) (g_wait s)).
