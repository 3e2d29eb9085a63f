(* ProvProps.v: C81, a call through client, wire, server and provider computes the method's result. *)
From Verif Require Import Base BytesModel BytesSpec Strconv GoStrings ProtoModel ProtoSpec ConvModel ConvSpec SimpleModel SimpleSpec UrlModel
  ServerModel ServerSpec ProvModel ProvSpec ServerProofs ProvProofs.

(* The call that fits: as many arguments as parameters, each of the parameter's type once it has arrived.  The caller
   gets the first result the method computes for these arguments, and its reply variable the value that fits it. *)
Theorem C81_computes : forall c g ip pt sid reply u app meth args name m p v vs,
  plain_server c g -> one_line (uPath u) -> one_line meth -> args_ok args -> (sid < 2 ^ 64)%N ->
  sizes_fit c g ip pt sid (buildRequest u app meth args) ->
  aget bs_eqb (g_table g) (uPath u) = Some p -> results_ok (g_impl g (v_id p)) args ->
  firstUpper (g_uni g) meth = Some name -> aget bs_eqb (v_methods (g_impl g (v_id p))) name = Some m ->
  length args = length (g_params m) -> Forall2 has_type (g_params m) (zipWith arrives (g_params m) args) ->
  g_run m (zipWith arrives (g_params m) args) = Returns (v :: vs) -> supportedIn v = true ->
  clientCall c g ip pt sid u app meth args reply = Value (asDecodedFor reply v) (assigned reply (asDecodedFor reply v)).
Proof.
  intros c g ip pt sid reply u app meth args name m p v vs Hps Hu Hm Ha Hsid Hfit Hp Hr Hn Hg Hl Ht Hrun Hs.
  unfold clientCall. set (q := buildRequest u app meth args) in *.
  pose proof (every_call c g ip pt sid reply q p Hps (built_ordinary u app meth args Hu Hm) Ha Hsid Hfit Hp Hr) as E. cbv zeta in E.
  assert (R : spec_method (g_impl g (v_id p)) (firstUpper (g_uni g) (qMethod q)) (qMethod q) (qArgs q) reply (g_etext g (DBuf ErrEOF))
                (s_errText (g_cfg g) CErrSerialize) = Gives (asDecodedFor reply v)).
  { unfold spec_method. change (qMethod q) with meth. change (qArgs q) with args. rewrite Hn, Hg. cbv zeta.
    rewrite Hl. assert (K : (length (g_params m) =? 0) && (0 <? length (g_params m)) = false) by (destruct (length (g_params m)); reflexivity).
    rewrite K. rewrite andb_comm, K. rewrite Nat.ltb_irrefl.
    assert (F : forallb (fun b => b) (zipWith has_typeb (g_params m) (zipWith arrives (g_params m) args)) = true).
    { revert Ht. generalize (zipWith arrives (g_params m) args). generalize (g_params m). clear. intros ps xs H.
      induction H as [|a b ps xs H _ IH]; [reflexivity|]. cbn [zipWith forallb]. rewrite (proj2 (has_typeb_spec a b) H). exact IH. }
    rewrite F, Hrun. cbn [back]. rewrite Hs. reflexivity. }
  rewrite R in E. apply E. intros e H. discriminate H.
Qed.
Print Assumptions C81_computes.

(* Every call: whatever the method's name and the number and types of the arguments, the caller sees what the
   specification of calling the method says, a value or an error. *)
Theorem C81_every_call : forall c g ip pt sid reply q p,
  plain_server c g -> ordinary q -> args_ok (qArgs q) -> (sid < 2 ^ 64)%N -> sizes_fit c g ip pt sid q ->
  aget bs_eqb (g_table g) (qService q) = Some p -> results_ok (g_impl g (v_id p)) (qArgs q) ->
  let r := spec_method (g_impl g (v_id p)) (firstUpper (g_uni g) (qMethod q)) (qMethod q) (qArgs q) reply (g_etext g (DBuf ErrEOF))
             (s_errText (g_cfg g) CErrSerialize) in
  (forall e, r = Fails e -> json_lossless (c_ext c) e) ->
  roundTrip c g ip pt sid reply q = seen reply r.
Proof. exact every_call. Qed.
Print Assumptions C81_every_call.

Theorem C81_client_request_ordinary : forall u app meth args, one_line (uPath u) -> one_line meth ->
  ordinary (buildRequest u app meth args) /\ qService (buildRequest u app meth args) = uPath u /\
  qMethod (buildRequest u app meth args) = meth /\ qArgs (buildRequest u app meth args) = args /\
  aget bs_eqb (qAttach (buildRequest u app meth args)) (s2b "M_g") = Some (uGroup u) /\
  aget bs_eqb (qAttach (buildRequest u app meth args)) (s2b "M_p") = Some (uPath u) /\
  aget bs_eqb (qAttach (buildRequest u app meth args)) (s2b "M_v") = Some (getParam u (s2b "version") []) /\
  aget bs_eqb (qAttach (buildRequest u app meth args)) (s2b "M_mdu") = Some (getParam u (s2b "module") []) /\
  (getParam u (s2b "application") [] <> [] -> aget bs_eqb (qAttach (buildRequest u app meth args)) (s2b "M_s") = Some (getParam u (s2b "application") [])) /\
  (getParam u (s2b "application") [] = [] -> aget bs_eqb (qAttach (buildRequest u app meth args)) (s2b "M_s") = Some app).
Proof.
  intros u app meth args H1 H2. split; [exact (built_ordinary u app meth args H1 H2)|]. do 7 (split; [reflexivity|]).
  assert (E : aget bs_eqb (qAttach (buildRequest u app meth args)) (s2b "M_s") = Some (if bs_empty (getParam u (s2b "application") []) then app else getParam u (s2b "application") [])) by reflexivity.
  rewrite E. split; intros H; [destruct (getParam u (s2b "application") []); [contradiction|reflexivity]|rewrite H; reflexivity].
Qed.
Print Assumptions C81_client_request_ordinary.

(* A service nobody exported is reported as such. *)
Theorem C81_not_exported : forall c g ip pt sid reply q,
  plain_server c g -> ordinary q -> args_ok (qArgs q) -> (sid < 2 ^ 64)%N -> sizes_fit c g ip pt sid q ->
  aget bs_eqb (g_table g) (qService q) = None ->
  json_lossless (c_ext c) (mkExc 404 (s2b "provider not exist serviceKey=" ++ qService q) 1) ->
  roundTrip c g ip pt sid reply q = Error (s2b "provider not exist serviceKey=" ++ qService q).
Proof. exact not_served. Qed.
Print Assumptions C81_not_exported.

(* Arguments the serialization does not support are refused before anything is sent. *)
Theorem C81_refused_arguments : forall c g ip pt sid reply q,
  cSerialized (qCtx q) = false -> Forall good (qArgs q) -> (N.of_nat (length (concat (map wire (qArgs q)))) < 2 ^ 32)%N ->
  forallb supported (qArgs q) = false -> roundTrip c g ip pt sid reply q = Error (s2b "convert motan request fail!").
Proof. exact refused_args. Qed.
Print Assumptions C81_refused_arguments.

(* The types of C81_computes are Go's: a value may be passed for a parameter of its own type or of type interface{}. *)
Theorem C81_types : forall p v, has_type p v <-> exists t, go_type v t /\ (p = PIface \/ p = t).
Proof.
  intros p v. unfold has_type. split; intros (t & T & P); exists t; (split; [|exact P]).
  - destruct v; cbn in T; try discriminate T; injection T as <-; constructor.
  - destruct T; reflexivity.
Qed.
Print Assumptions C81_types.

(* What is stored through the reply pointer of C81_computes: the value itself if the pointer is of its type; otherwise, and for an
   empty container, nothing. *)
Theorem C81_stored : forall t v, (takes t v -> assigned t v = Some v) /\ (~ takes t v -> assigned t v = None).
Proof.
  intros t v. split.
  - intro T. destruct T as [| [|] N | | [|] N | | | | | | | | | [|] N | [|] N]; try reflexivity; contradiction.
  - intro N. destruct t, v as [| | [|]| | [|] | | | | | | | | | [|] | [|] |]; try reflexivity; exfalso; apply N; constructor; discriminate.
Qed.
Print Assumptions C81_stored.
Example C81_stored_example : takes TPInt (VI64 42) /\ ~ takes TPInt32 (VI64 42) /\ go_type (VStrMap [(s2b "a", s2b "b")]) PStrMap.
Proof. split; [constructor|]. split; [intro H; inversion H|constructor]. Qed.

(* The method found for an ASCII name is the one whose name has the first letter in upper case. *)
Theorem C81_method_name : forall uni c r, forallb (fun x => (b2n x <? 128)%N) (c :: r) = true ->
  exists c', firstUpper uni (c :: r) = Some (c' :: r) /\
    ((b2n c < 97)%N \/ (122 < b2n c)%N -> c' = c) /\ ((97 <= b2n c <= 122)%N -> b2n c' = (b2n c - 32)%N).
Proof.
  intros uni c r H. exists (upperByte c). split; [exact (firstUpper_ascii uni c r H)|]. unfold upperByte, isLower. split.
  - intros [K|K].
    + replace (97 <=? b2n c)%N with false by (symmetry; apply N.leb_gt; exact K). reflexivity.
    + replace (b2n c <=? 122)%N with false by (symmetry; apply N.leb_gt; exact K). rewrite andb_false_r. reflexivity.
  - intros [K1 K2]. rewrite (proj2 (N.leb_le _ _) K1), (proj2 (N.leb_le _ _) K2). cbn [andb]. apply b2n_n2b_small. lia.
Qed.
Print Assumptions C81_method_name.

(* ------------------------------------------------------------ a concrete server *)

Definition p_ext : ext := mkExt (fun _ => None) (fun _ => None) (fun e => x7b :: eMsg e)
  (fun s => match s with _ :: t => Some (Some (mkExc 500 t 1)) | [] => None end).
(* Add(a int64, b int64) int64; Echo(x interface{}) interface{}; Len(n int) int64; Now() string; Boom(s string) *)
Definition p_service : service := mkService
  [(s2b "Add", mkMethod [PI64; PI64] (fun l => match l with [VI64 a; VI64 b] => Returns [VI64 ((a + b) mod 1000)] | _ => Panics end));
   (s2b "Echo", mkMethod [PIface] (fun l => match l with [VStr s] => Returns [VStr s] | _ => Returns [VNull] end));
   (s2b "Len", mkMethod [PInt] (fun l => Returns [VI64 1]));
   (s2b "Now", mkMethod [] (fun _ => Returns [VStr (s2b "noon")]));
   (s2b "Boom", mkMethod [PString] (fun _ => Panics))] 0.
Definition p_cfg : scfg value := mkScfg false true p_ext (fun _ => s2b "unsupported") (fun n => if N.eqb n 6 then Some simpleSer else None) (fun _ => None) 1000.
Definition p_server : gserver := mkG p_cfg [(s2b "svc", mkPv 1 (s2b "svc") [])] (fun _ => p_service) (fun _ => HNil) (fun s => s) (fun _ => s2b "EOF").
Definition p_client : gclient := mkC p_ext 1000 0 (fun _ => s2b "EOF") (fun _ => s2b "bad").
Definition p_url : url := mkUrl (s2b "motan2") (s2b "h") 80 (s2b "svc") (s2b "grp") None.
Definition p_call (meth : bs) (args : list value) : outcome := clientCall p_client p_server (s2b "1.2.3.4") 3 77 p_url (s2b "app") meth args TPInt64.

Lemma p_plain : plain_server p_client p_server.
Proof.
  split; [reflexivity|]. split; [reflexivity|]. split; [|split; [reflexivity|intros b z H; discriminate H]].
  intros n s H. cbn in H. destruct (N.eqb n 6); [injection H as <-; cbn; lia|discriminate H].
Qed.

Example C81_example :
  let args := [VInt 40; VI64 2] in
  plain_server p_client p_server /\ args_ok args /\ results_ok p_service args /\
  sizes_fit p_client p_server (s2b "1.2.3.4") 3 77 (buildRequest p_url (s2b "app") (s2b "add") args) /\
  Forall2 has_type [PI64; PI64] (zipWith arrives [PI64; PI64] args) /\
  p_call (s2b "add") args = Value (VI64 42) (Some (VI64 42)).
Proof.
  cbv zeta. split; [exact p_plain|]. split; [split; [repeat constructor; cbn; lia|]; split; reflexivity|].
  split.
  { intros n m v vs Hin H. cbn in Hin.
    destruct Hin as [E|[E|[E|[E|[E|[]]]]]]; injection E as <- <-; vm_compute in H; try discriminate H; injection H as <- <-; vm_compute; intuition congruence. }
  split.
  { intros m H. vm_compute in H. injection H as <-. split; [vm_compute; intuition congruence|].
    intros r H. vm_compute in H. injection H as <-. vm_compute; intuition congruence. }
  split; [|vm_compute; reflexivity].
  repeat constructor; exists PI64; auto.
Qed.

(* ------------------------------------------------------------ findings *)

(* Surplus arguments are dropped without a word when the method has at least one parameter ... *)
Theorem C81_extra_arguments_refuted : forall s name meth m args extra reply eof un,
  aget bs_eqb (v_methods s) name = Some m -> g_params m <> [] -> length args = length (g_params m) ->
  spec_method s (Some name) meth (args ++ extra) reply eof un = spec_method s (Some name) meth args reply eof un.
Proof.
  intros s name meth m args extra reply eof un Hm Hp Hl. unfold spec_method. rewrite Hm. cbv zeta. rewrite app_length.
  assert (Hz : length (g_params m) <> 0) by (destruct (g_params m); [contradiction|discriminate]).
  replace (length (g_params m) =? 0) with false by (symmetry; apply Nat.eqb_neq; exact Hz). cbn [andb].
  replace (length args + length extra =? 0) with false by (symmetry; apply Nat.eqb_neq; lia).
  replace (length args =? 0) with false by (symmetry; apply Nat.eqb_neq; lia).
  replace (length args + length extra <? length (g_params m)) with false by (symmetry; apply Nat.ltb_ge; lia).
  replace (length args <? length (g_params m)) with false by (symmetry; apply Nat.ltb_ge; lia).
  replace (zipWith arrives (g_params m) (args ++ extra)) with (zipWith arrives (g_params m) args); [reflexivity|].
  rewrite <- (zipWith_firstn arrives (g_params m) (args ++ extra)). rewrite <- Hl, firstn_app, Nat.sub_diag, firstn_O, app_nil_r, firstn_all. reflexivity.
Qed.
Print Assumptions C81_extra_arguments_refuted.
Example C81_extra_arguments_example : p_call (s2b "add") [VInt 40; VI64 2; VStr (s2b "lost")] = Value (VI64 42) (Some (VI64 42)).
Proof. vm_compute. reflexivity. Qed.

(* ... but make a method without parameters fail. *)
Theorem C81_argument_for_none_refuted :
  p_call (s2b "now") [] = Value (VStr (s2b "noon")) None /\ p_call (s2b "now") [VI64 1] = Error (s2b "provider call panic").
Proof. split; vm_compute; reflexivity. Qed.
Print Assumptions C81_argument_for_none_refuted.

(* A method with an int parameter can never be called: integers arrive as int64. *)
Theorem C81_int_parameter_refuted : forall s name meth m args reply eof un v,
  aget bs_eqb (v_methods s) name = Some m -> In PInt (g_params m) ->
  spec_method s (Some name) meth args reply eof un <> Gives v.
Proof.
  intros s name meth m args reply eof un v Hm Hi. unfold spec_method. rewrite Hm. cbv zeta.
  destruct (_ && _); [discriminate|]. destruct (_ && _); [discriminate|].
  destruct (Nat.ltb_spec (length args) (length (g_params m))) as [|Hge]; [discriminate|].
  assert (F : forallb (fun b => b) (zipWith has_typeb (g_params m) (zipWith arrives (g_params m) args)) = false); [|rewrite F; discriminate].
  revert args Hge Hi. generalize (g_params m). clear. induction l as [|p ps IH]; intros args Hge Hi; [destruct Hi|].
  destruct args as [|a args]; [cbn in Hge; lia|]. cbn [zipWith forallb]. destruct Hi as [->|Hi].
  - assert (E : has_typeb PInt (arrives PInt a) = false) by (destruct a; reflexivity). rewrite E. reflexivity.
  - rewrite IH; [apply andb_false_r|cbn in Hge; lia|exact Hi].
Qed.
Print Assumptions C81_int_parameter_refuted.
Example C81_int_parameter_example : p_call (s2b "len") [VInt 3] = Error (s2b "provider call panic").
Proof. vm_compute. reflexivity. Qed.

(* nil cannot be passed, even to an interface{} parameter, and a nil result is reported as an error. *)
Theorem C81_nil_refuted :
  p_call (s2b "echo") [VStr (s2b "x")] = Value (VStr (s2b "x")) None /\
  p_call (s2b "echo") [VNull] = Error (s2b "provider call panic") /\
  p_call (s2b "echo") [VI64 1] = Error (s2b "convert to response fail. err:unsupported").
Proof. repeat split; vm_compute; reflexivity. Qed.
Print Assumptions C81_nil_refuted.

(* The reply variable is left alone when the result has another type, and the caller is not told. *)
Theorem C81_reply_type_refuted : exists args v, p_call (s2b "now") args = Value v None /\ v = VStr (s2b "noon").
Proof. exists [], (VStr (s2b "noon")). split; vm_compute; reflexivity. Qed.
Print Assumptions C81_reply_type_refuted.

Example C81_errors_example :
  p_call (s2b "boom") [VStr []] = Error (s2b "provider call panic") /\
  p_call (s2b "none") [] = Error (s2b "method none is not found in provider.") /\
  p_call (s2b "add") [VI64 1] = Error (s2b "deserialize arguments fail.EOF") /\
  p_call [] [] = Error (s2b "provider call panic") /\
  p_call (s2b "add") [VUnsupported] = Error (s2b "convert motan request fail!").
Proof. repeat split; vm_compute; reflexivity. Qed.
