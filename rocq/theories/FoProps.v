(* FoProps.v: C119, a call through a cluster with failover gets a server's result. *)
From Verif Require Import Base BytesModel BytesSpec Strconv ProtoModel ProtoSpec ConvModel ConvSpec SimpleModel SimpleSpec UrlModel UrlSpec
  ServerModel ServerSpec ProvModel ProvSpec ProvProofs ProvProps FoModel FoSpec FoProofs.
From Verif Require HaModel HaSpec.
Open Scope nat_scope.

(* Over links that pass messages an attempt is the round trip of C81: the strategy changes nothing of what one server answers. *)
Theorem C119_attempt : forall c l reply q, lk_wire l = Passes ->
  roundTrip c (lk_srv l) (lk_ip l) (lk_pt l) (lk_sid l) reply q <> Lost ->
  told (callEndpoint c l reply q) = roundTrip c (lk_srv l) (lk_ip l) (lk_pt l) (lk_sid l) reply q.
Proof. exact attempt_told. Qed.
Print Assumptions C119_attempt.

(* Whatever the servers, the wires and the load balance do: the caller is told what one attempt gave, the first that was not
   unsuccessful or the last one allowed, or that there is no endpoint; every attempt before it was unsuccessful. *)
Theorem C119_result : forall c sel u reply q noEp,
  let o := fst (failoverTrip c sel u reply q noEp) in let n := snd (failoverTrip c sel u reply q noEp) in
  (exists k l, n = S k /\ k <= retries u q /\ sel k = Some l /\ o = told (callEndpoint c l reply q) /\
     (forall j, j < k -> exists l', sel j = Some l' /\ unsuccessful (callEndpoint c l' reply q)) /\
     (unsuccessful (callEndpoint c l reply q) -> k = retries u q)) \/
  (n <= retries u q /\ sel n = None /\ o = Error noEp /\
     forall j, j < n -> exists l', sel j = Some l' /\ unsuccessful (callEndpoint c l' reply q)).
Proof. exact result. Qed.
Print Assumptions C119_result.

(* As long as one of the endpoints tried has a server that answers and where the method succeeds, the caller gets the value the method
   computes there, whatever failed before: servers not reached, answers lost, services not exported there, methods that panic or do not exist. *)
Theorem C119_first_working : forall c sel u reply q noEp k l v,
  ordinary q -> args_ok (qArgs q) -> k <= retries u q -> sel k = Some l ->
  (forall j, j < k -> exists l', sel j = Some l' /\ fails_there c reply q l') -> lk_wire l = Passes -> serves c reply q l (Gives v) ->
  failoverTrip c sel u reply q noEp = (Value v (assigned reply v), S k).
Proof. exact first_working. Qed.
Print Assumptions C119_first_working.

(* When every attempt fails the caller is told the exception of the last one, unchanged. *)
Theorem C119_last_error : forall c sel u reply q noEp l e,
  ordinary q -> args_ok (qArgs q) -> sel (retries u q) = Some l ->
  (forall j, j < retries u q -> exists l', sel j = Some l' /\ fails_there c reply q l') -> lk_wire l = Passes -> serves c reply q l (Fails e) ->
  failoverTrip c sel u reply q noEp = (Error (eMsg e), S (retries u q)).
Proof. exact all_fail. Qed.
Print Assumptions C119_last_error.

(* If the servers before were not reached at all, one server handles the call, once. *)
Theorem C119_once : forall c sel u reply q noEp k l v,
  ordinary q -> args_ok (qArgs q) -> k <= retries u q -> sel k = Some l ->
  (forall j, j < k -> exists l', sel j = Some l' /\ lk_wire l' = NotReached) -> lk_wire l = Passes -> serves c reply q l (Gives v) ->
  failoverTrip c sel u reply q noEp = (Value v (assigned reply v), S k) /\ handled c sel q (S k) = 1.
Proof. exact once. Qed.
Print Assumptions C119_once.

(* A request that cannot be serialized is tried as often as any other, though no attempt can succeed and no server is reached. *)
Theorem C119_unsendable : forall c sel u reply q noEp,
  cSerialized (qCtx q) = false -> Forall good (qArgs q) -> (N.of_nat (length (concat (map wire (qArgs q)))) < 2 ^ 32)%N ->
  forallb supported (qArgs q) = false -> (forall j, j <= retries u q -> sel j <> None) ->
  failoverTrip c sel u reply q noEp = (Error (s2b "convert motan request fail!"), S (retries u q)) /\ forall n, handled c sel q n = 0.
Proof. exact unsendable. Qed.
Print Assumptions C119_unsendable.

(* A value comes from a server that was reached and whose answer came back: no loss is mistaken for a result. *)
Theorem C119_value : forall c l reply q v s, callEndpoint c l reply q = Gave v s ->
  lk_wire l = Passes /\ roundTrip c (lk_srv l) (lk_ip l) (lk_pt l) (lk_sid l) reply q = Value v s.
Proof. exact value_from. Qed.
Print Assumptions C119_value.

(* The business exception that ends a call is one the server sent: nothing the client side makes up ends it. *)
Theorem C119_business : forall c l reply q e, callEndpoint c l reply q = Failed e -> eType e = 2%Z ->
  lk_wire l = Passes /\ exists r m' rest s, serverSide c l q = Some r /\ decodeMsg (c_max c) (concat (getEncodedBytes None r)) = DecOk m' rest /\
    convertToResponse (c_ext c) true m' = inl s /\ rpExc s = Some e.
Proof. exact business_from. Qed.
Print Assumptions C119_business.

(* What an attempt whose request or answer is lost gives: the channel's error. *)
Theorem C119_lost : forall c l reply q m, sendRequest c (lk_sid l) q = inl m -> lk_wire l <> Passes ->
  callEndpoint c l reply q = Failed (mkExc 400 (s2b "channel call error:" ++ lk_err l) 1).
Proof. exact lost. Qed.
Print Assumptions C119_lost.

(* What an attempt at a server gives that does not export the service: an exception that leads to the next attempt. *)
Theorem C119_not_exported : forall c reply q l, ordinary q -> args_ok (qArgs q) -> not_exported c q l -> lk_wire l = Passes ->
  callEndpoint c l reply q = Failed (mkExc 404 (s2b "provider not exist serviceKey=" ++ qService q) 1) /\ fails_there c reply q l.
Proof. intros c reply q l Ho Ha H W. split; [exact (not_exported_answer c reply q l Ho Ha H W)|right; right; right; exact H]. Qed.
Print Assumptions C119_not_exported.

(* ------------------------------------------------------------ a concrete cluster *)

Definition f_url : url := mkUrl (s2b "motan2") (s2b "h") 80 (s2b "svc") (s2b "grp") (Some [(s2b "retries", s2b "3")]).
Definition f_old : gserver := mkG p_cfg [(s2b "svc", mkPv 2 (s2b "svc") [])] (fun _ => mkService [] 0) (fun _ => HNil) (fun s => s) (fun _ => s2b "EOF").
Definition f_link (g : gserver) (w : wire_state) : link := mkLink g (s2b "1.2.3.4") 3 77 w (s2b "closed").
Definition f_req (meth : bs) (args : list value) : mrequest value := buildRequest f_url (s2b "app") meth args.
Definition f_sel (i : nat) : option link :=
  match i with
  | 0 => Some (f_link p_server NotReached) | 1 => Some (f_link p_server AnswerLost) | 2 => Some (f_link f_old Passes) | _ => Some (f_link p_server Passes)
  end.
Definition f_trip (sel : nat -> option link) (meth : bs) (args : list value) : outcome * nat :=
  failoverTrip p_client sel f_url TPInt64 (f_req meth args) (s2b "No refers").

Lemma f_plain_old : plain_server p_client f_old.
Proof.
  split; [reflexivity|]. split; [reflexivity|]. split; [|split; [reflexivity|intros b z H; discriminate H]].
  intros n s H. cbn in H. destruct (N.eqb n 6); [injection H as <-; cbn; lia|discriminate H].
Qed.

Example C119_example :
  let q := f_req (s2b "add") [VInt 40; VI64 2] in
  ordinary q /\ args_ok (qArgs q) /\ retries f_url q = 3 /\
  (forall j, j < 3 -> exists l', f_sel j = Some l' /\ fails_there p_client TPInt64 q l') /\
  serves p_client TPInt64 q (f_link p_server Passes) (Gives (VI64 42)) /\
  f_trip f_sel (s2b "add") [VInt 40; VI64 2] = (Value (VI64 42) (Some (VI64 42)), 4) /\
  handled p_client f_sel q 4 = 3.
Proof.
  cbv zeta. split; [apply built_ordinary; vm_compute; intuition congruence|].
  split; [split; [repeat constructor; cbn; lia|]; split; reflexivity|]. split; [vm_compute; reflexivity|]. split; [|split; [|split; vm_compute; reflexivity]].
  - intros [|[|[|j]]] Hj; try lia; (eexists; split; [reflexivity|]); [left; reflexivity|right; left; reflexivity|right; right; left].
    eexists. split; [exact f_plain_old|]. split; [reflexivity|]. split.
    { intros m H. vm_compute in H. injection H as <-. split; [vm_compute; intuition congruence|].
      intros r H. vm_compute in H. injection H as <-. vm_compute; intuition congruence. }
    eexists. split; [reflexivity|]. split; [intros n m v vs []|]. split; [reflexivity|]. intros e E. vm_compute in E. injection E as <-. (split; [reflexivity|]); vm_compute; intuition congruence.
  - split; [exact p_plain|]. split; [reflexivity|]. split.
    { intros m H. vm_compute in H. injection H as <-. split; [vm_compute; intuition congruence|].
      intros r H. vm_compute in H. injection H as <-. vm_compute; intuition congruence. }
    eexists. split; [reflexivity|]. split.
    { intros n m v vs Hin H. cbn in Hin.
      destruct Hin as [E|[E|[E|[E|[E|[]]]]]]; injection E as <- <-; vm_compute in H; try discriminate H; injection H as <- <-; vm_compute; intuition congruence. }
    split; [vm_compute; reflexivity|]. intros e E. discriminate E.
Qed.

Example C119_errors_example :
  f_trip (fun i => if i <? 2 then f_sel 0 else None) (s2b "add") [VI64 1; VI64 1] = (Error (s2b "No refers"), 2) /\
  f_trip (fun _ => f_sel 2) (s2b "add") [VI64 1; VI64 1] = (Error (s2b "method add is not found in provider."), 4) /\
  f_trip (fun _ => f_sel 0) (s2b "add") [VI64 1; VI64 1] = (Error (s2b "channel call error:closed"), 4) /\
  f_trip f_sel (s2b "add") [VF32 0; VUnsupported] = (Error (s2b "convert motan request fail!"), 4).
Proof. repeat split; vm_compute; reflexivity. Qed.

(* a value, an exception that arrives as a business exception (the type is what the json library reads), and a lost answer *)
Definition f_ext : ext := mkExt (fun _ => None) (fun _ => None) (fun e => x7b :: eMsg e) (fun s => match s with _ :: t => Some (Some (mkExc 500 t 2)) | [] => None end).
Definition f_bizclient : gclient := mkC f_ext 1000 0 (fun _ => s2b "EOF") (fun _ => s2b "bad").
Example C119_attempt_example :
  callEndpoint p_client (f_link p_server Passes) TPInt64 (f_req (s2b "add") [VInt 40; VI64 2]) = Gave (VI64 42) (Some (VI64 42)) /\
  callEndpoint p_client (f_link p_server AnswerLost) TPInt64 (f_req (s2b "add") [VInt 40; VI64 2]) = Failed (mkExc 400 (s2b "channel call error:closed") 1) /\
  callEndpoint f_bizclient (f_link f_old Passes) TPInt64 (f_req (s2b "add") []) = Failed (mkExc 500 (s2b "method add is not found in provider.") 2).
Proof. repeat split; vm_compute; reflexivity. Qed.

(* a server restarted without the service; the exception's code is the one its json carries *)
Definition n_ext : ext := mkExt (fun _ => None) (fun _ => None) (fun e => x7b :: eMsg e) (fun s => match s with _ :: t => Some (Some (mkExc 404 t 1)) | [] => None end).
Definition n_cfg : scfg value := mkScfg false true n_ext (fun _ => s2b "unsupported") (fun n => if N.eqb n 6 then Some simpleSer else None) (fun _ => None) 1000.
Definition n_server (t : ptable) : gserver := mkG n_cfg t (fun _ => p_service) (fun _ => HNil) (fun s => s) (fun _ => s2b "EOF").
Definition n_client : gclient := mkC n_ext 1000 0 (fun _ => s2b "EOF") (fun _ => s2b "bad").
Example C119_not_exported_example :
  let q := f_req (s2b "add") [VInt 40; VI64 2] in
  not_exported n_client q (f_link (n_server []) Passes) /\
  failoverTrip n_client (fun i => Some (f_link (n_server (if i =? 0 then [] else [(s2b "svc", mkPv 1 (s2b "svc") [])])) Passes)) f_url TPInt64 q [] =
    (Value (VI64 42) (Some (VI64 42)), 2).
Proof.
  cbv zeta. split; [|vm_compute; reflexivity].
  split. { split; [reflexivity|]. split; [reflexivity|]. split; [|split; [reflexivity|intros b z H; discriminate H]].
           intros n s H. cbn in H. destruct (N.eqb n 6); [injection H as <-; cbn; lia|discriminate H]. }
  split; [reflexivity|]. split.
  { intros m H. vm_compute in H. injection H as <-. split; [vm_compute; intuition congruence|].
    intros r H. vm_compute in H. injection H as <-. vm_compute; intuition congruence. }
  split; [reflexivity|]. split; [reflexivity|]. vm_compute; intuition congruence.
Qed.

(* ------------------------------------------------------------ findings *)

(* A call is not made at most once: when answers are lost, or the method panics, it is handled once per attempt, on every endpoint
   tried, and there is no way to mark a method as one that must not be repeated but to configure no retries. *)
Theorem C119_at_most_once_refuted : forall c sel u reply q noEp, ordinary q -> args_ok (qArgs q) ->
  (forall j, j <= retries u q -> exists l' r, sel j = Some l' /\ serves c reply q l' r /\
     (lk_wire l' = AnswerLost \/ lk_wire l' = Passes /\ exists e, r = Fails e)) ->
  snd (failoverTrip c sel u reply q noEp) = S (retries u q) /\ handled c sel q (S (retries u q)) = S (retries u q).
Proof. exact again. Qed.
Print Assumptions C119_at_most_once_refuted.
Example C119_at_most_once_example :
  f_trip (fun _ => f_sel 3) (s2b "boom") [VStr []] = (Error (s2b "provider call panic"), 4) /\
  handled p_client (fun _ => f_sel 3) (f_req (s2b "boom") [VStr []]) 4 = 4.
Proof. split; vm_compute; reflexivity. Qed.
