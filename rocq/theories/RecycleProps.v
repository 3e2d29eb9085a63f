(* RecycleProps.v: C75, messages of the pool are not mixed up between calls. *)
From Verif Require Import Base BytesModel ProtoModel ProtoSpec ConvModel RecycleModel RecycleSpec RecycleProofs.

(* In every interleaving of any number of calls through a proxying server in which no request is sent twice, all that is
   written to a backend is the request of the call it belongs to and all that is written to a client is the answer to its
   request, as if no message were ever used again. *)
Theorem C75_no_mixup n os s : rruns (rinit n) os = Some s -> single s -> forall w, In w (rOut s) -> right w /\ whose s w.
Proof. exact (no_mixup n os s). Qed.
Print Assumptions C75_no_mixup.

(* what arrived is what is kept of it *)
Theorem C75_kept m : NoDup (map fst (mMeta m)) -> fill clean m = m.
Proof. exact (fill_id m). Qed.
Print Assumptions C75_kept.

(* What is sent on is the client's request, marked as proxied, with the group it goes to and the id it is sent under; an error is
   answered by a response with that error under the id of the request. *)
Theorem C75_forward m g sid : mBody (forward m g sid) = mBody m /\
  (forall k, aget bs_eqb (mMeta (forward m g sid)) k = if bs_eqb k (s2b "M_g") then Some g else aget bs_eqb (mMeta m) k) /\
  view (mHeader (forward m g sid)) =
    let v := view (mHeader m) in mkView (v_hb v) (v_gz v) (v_ow v) true (v_rq v) (v_ver v) (v_st v) (v_ser v) sid.
Proof. exact (forward_view m g sid). Qed.
Print Assumptions C75_forward.
Theorem C75_exception rid err : mMeta (answerFill (AExc rid err) clean) = [(s2b "M_e", err)] /\ mBody (answerFill (AExc rid err) clean) = [] /\
  view (mHeader (answerFill (AExc rid err) clean)) = mkView false false false false false 1 1 6 rid.
Proof. split; [reflexivity|]. split; reflexivity. Qed.
Print Assumptions C75_exception.

Definition ex_h (rid : N) : header := mkHdr x00 x08 x08 rid.
Definition ex_m (rid : N) (body : bs) : message := mkMsg (ex_h rid) [(s2b "M_p", s2b "svc"); (s2b "M_m", s2b "hello")] body.
Definition ex_ops : list rop :=
  [ RArrive (ex_m 7 (s2b "first")) None; RPrep 0 (s2b "g") 1 0; REnc 0; RPush 0; RArrive (ex_m 7 (s2b "second")) None;
    RWrite 0; RDone 0; RAnswer 0 (AFwd (ex_m 1 (s2b "answer"))) None; REncAnswer 0; RSend 0; RFreeReq 0;
    RPrep 1 (s2b "g") 2 0; REnc 1; RPush 1; RFreeRes 0; RArrive (ex_m 9 (s2b "third")) (Some 0); RWrite 0;
    RAnswer 2 (AExc 9 (s2b "refused")) (Some 2); REncAnswer 2; RSend 2; RBad (ex_m 3 (s2b "x")) None; RDone 0;
    RAnswer 1 (AMsg (ex_m 4 (s2b "own"))) (Some 3); REncAnswer 1; RSend 1; RFreeReq 1 ].
(* objects 0, 2 and 3 are used for more than one message, and five frames are written *)
Example C75_example : exists s, rruns (rinit 1) ex_ops = Some s /\ single s /\ length (rOut s) = 5 /\ length (rHeap s) = 4 /\
  forall w, In w (rOut s) -> small (wWant w).
Proof.
  eexists. split; [vm_compute; reflexivity|]. split; [|split; [reflexivity|split; [reflexivity|]]].
  - intros x [<-|[<-|[<-|[]]]]; cbn; lia.
  - intros w [<-|[<-|[<-|[<-|[<-|[]]]]]]; split; reflexivity.
Qed.

(* with a retry this fails: the first attempt stays in the queue of its channel when its time is over; the second is written
   to another backend, which lets the server put the message back when it has answered; the next request of another
   client gets the same message, and the first channel writes it under the name of the first call *)
Definition retry_ops : list rop :=
  [ RArrive (ex_m 7 (s2b "mine")) None; RPrep 0 (s2b "g") 1 0; REnc 0; RPush 0;
    RPrep 0 (s2b "g") 2 1; REnc 0; RPush 0; RWrite 1; RDone 0;
    RAnswer 0 (AMsg (ex_m 4 (s2b "ok"))) None; REncAnswer 0; RSend 0; RFreeReq 0; RFreeRes 0;
    RArrive (ex_m 8 (s2b "secret")) (Some 0); RPrep 1 (s2b "other") 3 1; REnc 1; RWrite 0 ].
Theorem C75_retry_refuted : exists os s w, rruns (rinit 2) os = Some s /\ In w (rOut s) /\ wTo w = Some 0 /\ wHnd w = 0 /\
  small (wWant w) /\ ~ right w /\ exists m, oMsg (nth 0 (rHeap s) obj0) = m /\ mBody m = s2b "secret" /\ wGot w = frame m.
Proof.
  exists retry_ops. eexists. eexists (mkWrote (Some 0) 0 _ _). split; [vm_compute; reflexivity|].
  split; [right; right; left; reflexivity|]. split; [reflexivity|]. split; [reflexivity|]. split; [split; reflexivity|]. split.
  - intro R. specialize (R ltac:(split; reflexivity)). vm_compute in R. discriminate R.
  - eexists. split; [reflexivity|]. split; vm_compute; reflexivity.
Qed.
Print Assumptions C75_retry_refuted.
