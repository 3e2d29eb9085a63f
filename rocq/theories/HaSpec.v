(* HaSpec.v: vocabulary of C19 and C20. *)
From Verif Require Import Base Strconv UrlModel UrlSpec HaModel.

(* the answer ends the call: a value or a business exception *)
Definition answer_is_final (r : resp) : Prop :=
  rExc r = None \/ exists e, rExc r = Some e /\ eType e = BizException.
(* an attempt that calls for another one: an endpoint was called and gave nothing final *)
Definition failed_attempt (a : option (option resp)) : Prop :=
  a = Some None \/ exists r, a = Some (Some r) /\ ~ answer_is_final r.

(* the outcomes of a failover call that may make [n] attempts, meeting [env]: [k] endpoints called, response [r] *)
Inductive failover_outcome (id : N) (n : nat) (env : nat -> option (option resp)) : nat -> resp -> Prop :=
| answered k r : k < n -> (forall j, j < k -> failed_attempt (env j)) ->
    env k = Some (Some r) -> answer_is_final r -> failover_outcome id n env (S k) r
| nobody_left k r : k < n -> (forall j, j < k -> failed_attempt (env j)) ->
    env k = None -> rId r = id -> (exists e, rExc r = Some e /\ eCode e = ENoEndpoints /\ eType e = ServiceException) ->
    failover_outcome id n env k r
| exhausted k r : n = S k -> (forall j, j < n -> failed_attempt (env j)) ->
    env k = Some (Some r) -> failover_outcome id n env n r
| exhausted_nil k r : n = S k -> (forall j, j < n -> failed_attempt (env j)) ->
    env k = Some None -> rId r = id -> (exists e, rExc r = Some e /\ eCode e = 500%Z /\ eType e = ServiceException) ->
    failover_outcome id n env n r.

(* the number of retries configured for a method: the method specific value, else the general one, else none; never negative *)
Definition retries_for (u : url) (method desc : bs) : Z := Z.max 0 (method_int_or u method desc (s2b "retries") 0).

Definition is_backup (l : logitem) : bool := match l with LBackup _ => true | _ => false end.
Definition is_request (l : logitem) : bool := match l with LReq _ => true | _ => false end.
Definition is_reset (l : logitem) : bool := match l with LReset => true | _ => false end.
Definition of_call (c : nat) (l : logitem) : bool :=
  match l with LReset => false | LReq d | LBackup d => Nat.eqb c d end.
(* a stretch of the log in which the counters are not reset *)
Definition one_round (seg : list logitem) : Prop := countb is_reset seg = 0.

Definition is_timeout (id : N) (r : resp) : Prop :=
  rId r = id /\ exists e, rExc r = Some e /\ eCode e = 400%Z /\ eType e = ServiceException /\ eMsg e = s2b "call backup request fail: timeout".
