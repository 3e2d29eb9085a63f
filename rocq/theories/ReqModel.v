(* ReqModel.v: requests as objects with shared memory: the pool of requests, cloning, arguments and finish handlers as slices,
   attachments as maps behind pointers.  Models core/motan.go. *)
From Verif Require Export Base.

(* core/motan.go:389-417 (RPCContext): the fields that are plain values; pointers (ExtFactory, Result, Reply, Tc) are identities;
   the four times are one value.  OriginalMessage and FinishHandlers are kept in [qreq] below *)
Record rctx := mkCtx { cExt : option N; cOneway : bool; cProxy : bool; cGzip : Z; cBody : Z; cSerNum : Z; cSerialized : bool; cAsync : bool;
  cResult : option N; cReply : option N; cTimes : N; cTc : option N; cV1 : bool; cRemote : bs }.
Definition ctx0 : rctx := mkCtx None false false 0 0 0 false false None None 0 None false [].
(* core/motan.go:419-437 (RPCContext.Reset), the plain fields: AsyncCall and the times are left alone *)
Definition ctxReset (c : rctx) : rctx := mkCtx None false false 0 0 0 false (cAsync c) None None (cTimes c) None false [].

(* a slice: the array it views and its length; all slices here start at the beginning of their array *)
Definition slice := (nat * nat)%type.
(* core/motan.go:477-487 (MotanRequest) with its context.  [qMsg] is the original message: an identity for header and body, and the
   map of its metadata (protocol/motanProtocol.go Message; other kinds of original message are not modelled) *)
Record qreq := mkQ { qId : N; qSvc : bs; qMth : bs; qDesc : bs; qArgs : slice; qAtt : option nat; qCtx : rctx; qMsg : option (N * nat); qFin : slice }.
(* memory: arrays of arguments (None is nil), arrays of handlers, maps, requests, and the pool *)
Record qst := mkQst { sArr : list (list (option N)); sFin : list (list (option N)); sMap : list (list (bs * bs)); sReq : list qreq; sPool : list nat }.
Definition q0 : qst := mkQst [] [] [] [] [].

(* Go's append: in place while the array has room, else a new array with room for [g] more *)
Definition goAppend (h : list (list (option N))) (sl : slice) (v : N) (g : nat) : list (list (option N)) * slice :=
  let a := nth (fst sl) h [] in
  if (snd sl <? length a)%nat then (list_set h (fst sl) (list_set a (snd sl) (Some v)), (fst sl, S (snd sl)))
  else (h ++ [firstn (snd sl) a ++ Some v :: repeat None g], (length h, S (snd sl))).

Inductive qop :=
| QAcquire (p : option nat)                                  (* AcquireMotanRequest: a new one, or the p-th of the pool *)
| QHead (r : nat) (i : N) (svc mth desc : bs)                (* assignments to RequestID, ServiceName, Method, MethodDesc *)
| QMessage (r : nat) (m : N) (meta : list (bs * bs))         (* ConvertToRequest: OriginalMessage and Attachment are set from a message *)
| QStore (r : nat) (k v : bs)                                (* SetAttachment *)
| QAppend (r : nat) (v : N) (g : nat)                        (* Arguments = append(Arguments, v) *)
| QArgs (r : nat) (vs : list N)                              (* SetArguments with a new slice *)
| QHandler (r : nat) (v : N) (g : nat)                       (* AddFinishHandler *)
| QCtx (r : nat) (c : rctx)                                  (* assignments to the plain fields of the context *)
| QClone (r : nat)                                           (* Clone *)
| QRelease (r : nat).                                        (* ReleaseMotanRequest *)

Definition setReq (s : qst) (r : nat) (q : qreq) : qst := mkQst (sArr s) (sFin s) (sMap s) (list_set (sReq s) r q) (sPool s).
(* core/map.go:70-81 (RawMap, Copy): a new map with the same content *)
Definition copyMap (s : qst) (m : option nat) : list (list (bs * bs)) * option nat :=
  match m with None => (sMap s, None) | Some k => (sMap s ++ [nth k (sMap s) []], Some (length (sMap s))) end.

Definition qstep (s : qst) (o : qop) : qst :=
  match o with
  | QAcquire None =>                                         (* core/motan.go:21-26 (requestPool.New), :489-491 *)
      mkQst (sArr s ++ [[]]) (sFin s ++ [[]]) (sMap s)
            (sReq s ++ [mkQ 0 [] [] [] (length (sArr s), O) None ctx0 None (length (sFin s), O)]) (sPool s)
  | QAcquire (Some p) => mkQst (sArr s) (sFin s) (sMap s) (sReq s) (firstn p (sPool s) ++ skipn (S p) (sPool s))
  | QHead r i svc mth desc =>
      match nth_error (sReq s) r with
      | Some q => setReq s r (mkQ i svc mth desc (qArgs q) (qAtt q) (qCtx q) (qMsg q) (qFin q)) | None => s end
  | QMessage r m meta =>                                     (* protocol/motanProtocol.go:604-625: the attachments are the message's metadata, not a copy *)
      match nth_error (sReq s) r with
      | Some q => mkQst (sArr s) (sFin s) (sMap s ++ [meta])
                        (list_set (sReq s) r (mkQ (qId q) (qSvc q) (qMth q) (qDesc q) (qArgs q) (Some (length (sMap s))) (qCtx q) (Some (m, length (sMap s))) (qFin q))) (sPool s)
      | None => s end
  | QStore r k v =>                                          (* core/motan.go:520-523, 553-568 (GetAttachments); core/map.go:25-29 *)
      match nth_error (sReq s) r with
      | Some q => match qAtt q with
                  | Some m => mkQst (sArr s) (sFin s) (list_set (sMap s) m (aset bs_eqb (nth m (sMap s) []) k v)) (sReq s) (sPool s)
                  | None => mkQst (sArr s) (sFin s) (sMap s ++ [[(k, v)]])
                                  (list_set (sReq s) r (mkQ (qId q) (qSvc q) (qMth q) (qDesc q) (qArgs q) (Some (length (sMap s))) (qCtx q) (qMsg q) (qFin q))) (sPool s)
                  end
      | None => s end
  | QAppend r v g =>                                         (* protocol/motanProtocol.go:634 *)
      match nth_error (sReq s) r with
      | Some q => let (h, sl) := goAppend (sArr s) (qArgs q) v g in
                  mkQst h (sFin s) (sMap s) (list_set (sReq s) r (mkQ (qId q) (qSvc q) (qMth q) (qDesc q) sl (qAtt q) (qCtx q) (qMsg q) (qFin q))) (sPool s)
      | None => s end
  | QArgs r vs =>                                            (* core/motan.go:549-551 *)
      match nth_error (sReq s) r with
      | Some q => mkQst (sArr s ++ [map Some vs]) (sFin s) (sMap s)
                        (list_set (sReq s) r (mkQ (qId q) (qSvc q) (qMth q) (qDesc q) (length (sArr s), length vs) (qAtt q) (qCtx q) (qMsg q) (qFin q))) (sPool s)
      | None => s end
  | QHandler r v g =>                                        (* core/motan.go:439-441 *)
      match nth_error (sReq s) r with
      | Some q => let (h, sl) := goAppend (sFin s) (qFin q) v g in
                  mkQst (sArr s) h (sMap s) (list_set (sReq s) r (mkQ (qId q) (qSvc q) (qMth q) (qDesc q) (qArgs q) (qAtt q) (qCtx q) (qMsg q) sl)) (sPool s)
      | None => s end
  | QCtx r c =>
      match nth_error (sReq s) r with
      | Some q => setReq s r (mkQ (qId q) (qSvc q) (qMth q) (qDesc q) (qArgs q) (qAtt q) c (qMsg q) (qFin q)) | None => s end
  | QClone r =>                                              (* core/motan.go:577-613; protocol/motanProtocol.go:361-371 (Message.Clone) *)
      match nth_error (sReq s) r with
      | Some q =>
          let (maps, att) := copyMap s (qAtt q) in
          let s1 := mkQst (sArr s) (sFin s) maps (sReq s) (sPool s) in
          let (maps', msg) := match qMsg q with None => (maps, None) | Some (m, k) => let (mm, k') := copyMap s1 (Some k) in (mm, option_map (pair m) k') end in
          let c := qCtx q in
          mkQst (sArr s) (sFin s) maps'
                (sReq s ++ [mkQ (qId q) (qSvc q) (qMth q) (qDesc q) (qArgs q) att
                   (mkCtx (cExt c) (cOneway c) (cProxy c) (cGzip c) 0 (cSerNum c) (cSerialized c) false (cResult c) (cReply c) (cTimes c) (cTc c) false []) msg (qFin q)]) (sPool s)
      | None => s end
  | QRelease r =>                                            (* core/motan.go:493-509 *)
      match nth_error (sReq s) r with
      | Some q => mkQst (sArr s) (sFin s) (sMap s)
                        (list_set (sReq s) r (mkQ 0 [] [] [] (fst (qArgs q), O) None (ctxReset (qCtx q)) None (fst (qFin q), O))) (sPool s ++ [r])
      | None => s end
  end.
Definition qrun (os : list qop) : qst := fold_left qstep os q0.
(* the object an acquisition gives *)
Definition acquired (s : qst) (p : option nat) : nat := match p with None => length (sReq s) | Some i => nth i (sPool s) O end.
(* protocol/motanProtocol.go:641-653 (ConvertToReqMessage, proxied): the metadata that is sent, [grp] is the key of the group *)
Definition sentMeta (s : qst) (r : nat) (grp : bs) : option (list (bs * bs)) :=
  match nth_error (sReq s) r with
  | Some q => match qMsg q with
              | Some (_, k) => Some (aset bs_eqb (nth k (sMap s) []) grp
                  (match qAtt q with Some m => match aget bs_eqb (nth m (sMap s) []) grp with Some v => v | None => [] end | None => [] end))
              | None => None end
  | None => None
  end.
