(* ReqSpec.v: what a holder of a request sees, and which requests descend from the same one *)
From Verif Require Import Base.
From Verif Require Export ReqModel.

(* everything the methods of a request and of its context show *)
Record qview := mkView { vId : N; vSvc : bs; vMth : bs; vDesc : bs; vArgs : list (option N); vAtt : option (list (bs * bs)); vCtx : rctx;
  vMsg : option (N * list (bs * bs)); vHandlers : list (option N) }.
Definition see (s : qst) (r : nat) : option qview :=
  match nth_error (sReq s) r with
  | Some q => Some (mkView (qId q) (qSvc q) (qMth q) (qDesc q) (firstn (snd (qArgs q)) (nth (fst (qArgs q)) (sArr s) []))
      (option_map (fun m => nth m (sMap s) []) (qAtt q)) (qCtx q) (option_map (fun p => (fst p, nth (snd p) (sMap s) [])) (qMsg q))
      (firstn (snd (qFin q)) (nth (fst (qFin q)) (sFin s) [])))
  | None => None
  end.
(* the request an operation works on *)
Definition works_on (o : qop) : option nat :=
  match o with
  | QAcquire _ => None
  | QHead r _ _ _ _ | QMessage r _ _ | QStore r _ _ | QAppend r _ _ | QArgs r _ | QHandler r _ _ | QCtx r _ | QRelease r => Some r
  | QClone r => None
  end.
(* requests in the order they came into being; for each the first one it descends from by cloning *)
Definition family_step (fs : list nat) (o : qop) : list nat :=
  match o with
  | QAcquire None => fs ++ [length fs]
  | QClone r => match nth_error fs r with Some f => fs ++ [f] | None => fs end
  | _ => fs
  end.
Definition families (os : list qop) : list nat := fold_left family_step os [].
Definition related (os : list qop) (a b : nat) : Prop := nth_error (families os) a <> None /\ nth_error (families os) a = nth_error (families os) b.
(* who is in use: acquired or cloned and not yet released *)
Definition use_step (p : list nat * nat * list nat) (o : qop) : list nat * nat * list nat :=   (* in use, number of requests, in the pool *)
  let '(us, n, pl) := p in
  match o with
  | QAcquire None => (n :: us, S n, pl)
  | QAcquire (Some i) => (nth i pl O :: us, n, firstn i pl ++ skipn (S i) pl)
  | QClone r => if (r <? n)%nat then (n :: us, S n, pl) else p
  | QRelease r => (remove Nat.eq_dec r us, n, pl ++ [r])
  | _ => p
  end.
Definition uses (os : list qop) : list nat * nat * list nat := fold_left use_step os ([], O, []).
Definition in_use (os : list qop) (r : nat) : Prop := In r (fst (fst (uses os))).
(* every operation works on a request in use; the pool gives what it has *)
Definition careful_op (os : list qop) (o : qop) : Prop :=
  match o with
  | QAcquire None => True
  | QAcquire (Some i) => (i < length (snd (uses os)))%nat
  | QClone r | QHead r _ _ _ _ | QMessage r _ _ | QStore r _ _ | QAppend r _ _ | QArgs r _ | QHandler r _ _ | QCtx r _ | QRelease r => in_use os r
  end.
Inductive careful : list qop -> Prop :=
| careful_nil : careful []
| careful_snoc os o : careful os -> careful_op os o -> careful (os ++ [o]).
Definition never_async (o : qop) : Prop := match o with QCtx _ c => cAsync c = false | _ => True end.
Definition blank (c : rctx) : qview := mkView 0 [] [] [] [] None c None [].
(* the fields of the context a clone does not take over *)
Definition clone_ctx (c : rctx) : rctx :=
  mkCtx (cExt c) (cOneway c) (cProxy c) (cGzip c) 0 (cSerNum c) (cSerialized c) false (cResult c) (cReply c) (cTimes c) (cTc c) false [].
