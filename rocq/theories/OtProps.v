(* OtProps.v *)
From Verif Require Import Base OtModel OtSpec OtProofs.

(* one call: one span, started under the context found in the request, its context given to the rest of the chain, which
   is called once; the outcome is recorded; the span is finished last, whatever happens; a recorder that does not panic
   changes neither the response nor the panic *)
Theorem C95_call : forall ctx (extract : attm -> option ctx) inject mkctx rec r name n att next evs res att',
  traceCall extract inject mkctx rec r name n att next = (evs, res, att') ->
  exists mid inner nr, next (inject (mkctx (extract att) n) att) = (inner, nr)
    /\ evs = EStart n (extract att) r name :: ENext (inject (mkctx (extract att) n) att) :: inner ++ mid ++ [EFinish n]
    /\ Forall (recordOf n) mid /\ 1 <= length mid <= 2 /\ att' = inject (mkctx (extract att) n) att
    /\ nth_error mid 0 = Some (ERecord n (match nr with NRet o => mkCdata r o None | NPanic v => mkCdata r None (Some v) end))
    /\ (calm rec -> length mid = 1 /\ res = nr).
Proof. exact call_shape. Qed.
Print Assumptions C95_call.

(* any number of nested hops: the spans form one chain of parents, and are finished in the reverse order *)
Theorem C95_chain : forall ctx (extract : attm -> option ctx) inject mkctx rec hops last att,
  carries_ctx extract inject -> (forall a, startsOf (fst (last a)) = [] /\ finishesOf (fst (last a)) = []) ->
  let evs := fst (nested extract inject mkctx rec hops last att) in
  map fst (startsOf evs) = map snd hops /\ chainFrom mkctx (extract att) (startsOf evs) /\ finishesOf evs = rev (map snd hops).
Proof. exact nested_ok. Qed.
Print Assumptions C95_chain.
Theorem C95_transparent : forall ctx (extract : attm -> option ctx) inject mkctx rec hops last att, calm rec ->
  exists a, snd (nested extract inject mkctx rec hops last att) = snd (last a).
Proof. exact nested_transparent. Qed.
Print Assumptions C95_transparent.
Theorem C95_default : forall ctx (extract : attm -> option ctx) inject mkctx r name n att next inner o,
  next (inject (mkctx (extract att) n) att) = (inner, NRet (Some o)) ->
  exists evs att', traceCall extract inject mkctx defaultRec r name n att next = (evs, NRet (Some o), att').
Proof. exact default_ok. Qed.
Print Assumptions C95_default.

(* Findings: with the recorder that is there by default a panic of the service is replaced by a nil dereference, and a nil
   response becomes a panic *)
Theorem C95_panic_masked_refuted : forall ctx (extract : attm -> option ctx) inject mkctx r name n att next inner v,
  next (inject (mkctx (extract att) n) att) = (inner, NPanic v) ->
  snd (fst (traceCall extract inject mkctx defaultRec r name n att next)) = NPanic PNilDeref.
Proof. exact default_masks. Qed.
Print Assumptions C95_panic_masked_refuted.
Theorem C95_nil_response_refuted : forall ctx (extract : attm -> option ctx) inject mkctx r name n att next inner,
  next (inject (mkctx (extract att) n) att) = (inner, NRet None) ->
  snd (fst (traceCall extract inject mkctx defaultRec r name n att next)) = NPanic PNilDeref.
Proof. exact default_nil. Qed.
Print Assumptions C95_nil_response_refuted.
(* a second attempt with the same request is a child of the failed first attempt, not of the caller's span *)
Theorem C95_retry_nested_refuted : forall ctx (extract : attm -> option ctx) inject mkctx rec name n1 n2 att next,
  carries_ctx extract inject -> (forall a, startsOf (fst (next a)) = []) ->
  startsOf (attempts extract inject mkctx rec name [n1; n2] att next) = [(n1, extract att); (n2, Some (mkctx (extract att) n1))].
Proof. exact retry_nests. Qed.
Print Assumptions C95_retry_nested_refuted.

(* a tracer that keeps the contract: the context is a path of span numbers, written as one attachment *)
Definition exExtract (a : attm) : option bs := aget bs_eqb a (s2b "ctx").
Definition exInject (c : bs) (a : attm) : attm := aset bs_eqb a (s2b "ctx") c.
Definition exMk (p : option bs) (n : nat) : bs := (match p with Some c => c | None => [] end) ++ [n2b (N.of_nat n)].
Example ex_carries : carries_ctx exExtract exInject.
Proof. intros c a. unfold exExtract, exInject. rewrite (aget_aset bs_eqb bs_eqb_spec), bs_eqb_refl. reflexivity. Qed.
Example ex_hops : startsOf (fst (nested exExtract exInject exMk defaultRec [(Client, s2b "a.f", 1); (Server, s2b "a.f", 2); (Client, s2b "b.g", 3)]
    (fun _ => ([], NRet (Some (mkOresp None (s2b "ok"))))) [])) = [(1, None); (2, Some [x01]); (3, Some [x01; x02])].
Proof. vm_compute. reflexivity. Qed.
