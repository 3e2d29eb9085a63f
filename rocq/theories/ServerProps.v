(* ServerProps.v: C31 answers of the server, C32 dispatch to providers, C33 exporting. *)
From Verif Require Import Base BytesModel BytesSpec Strconv GoStrings GoStrings2 ProtoModel ProtoSpec ConvModel ConvSpec V1Model V1Spec
  UrlModel UrlSpec ServerModel ServerSpec ServerProofs.

(* ------------------------------------------------------------ C31: one message *)

(* Whatever the handler returns, what is written carries the request's id and is a motan2 response. *)
Theorem C31_own_id : forall A (c : scfg A) ip pt h m r,
  numbers_ok c -> (forall q p, h q = HRes p -> response_ok p) ->
  processV2 c ip pt h m = Write r ->
  hReqID (mHeader r) = hReqID (mHeader m) /\ isRequest (mHeader r) = false /\ GetVersion (mHeader r) = 1%N.
Proof. intros A c ip pt h m r Hn Hh H. destruct (@processV2_id A c ip pt h m r Hn Hh H) as (H1 & H2 & H3 & _). auto. Qed.
Print Assumptions C31_own_id.

(* Every request is answered, unless the handler panics or it is a heartbeat and heartbeats are switched off. *)
Theorem C31_always_answered : forall A (c : scfg A) ip pt h m,
  (IsHeartbeat (mHeader m) = true -> s_heartbeat c = true) -> (forall q, h q <> HPanic) ->
  exists r, processV2 c ip pt h m = Write r.
Proof. exact @processV2_answers. Qed.
Print Assumptions C31_always_answered.

(* Heartbeats are answered by a heartbeat with the same id, or close the connection when switched off. *)
Theorem C31_heartbeat : forall A (c : scfg A) ip pt h m, IsHeartbeat (mHeader m) = true ->
  (s_heartbeat c = true -> exists r, processV2 c ip pt h m = Write r /\
     view (mHeader r) = mkView true false false true false 1 0 6 (hReqID (mHeader m)) /\ mMeta r = [] /\ mBody r = []) /\
  (s_heartbeat c = false -> processV2 c ip pt h m = CloseConn).
Proof. exact @processV2_heartbeat. Qed.
Print Assumptions C31_heartbeat.

(* A nil response is answered by an exception. *)
Theorem C31_nil_is_exception : forall A (c : scfg A) ip pt h m, IsHeartbeat (mHeader m) = false -> (forall q, h q = HNil) ->
  exists r msg, processV2 c ip pt h m = Write r /\ exc_answer (s_ext c) r msg.
Proof. exact @processV2_nil. Qed.
Print Assumptions C31_nil_is_exception.

(* The client reads what the handler returned (value bytes, exception, attachments) under the id it used, or, exactly
   when the response cannot be sent, an exception. *)
Theorem C31_client_reads : forall A (c : scfg A) ip pt h m q p max,
  numbers_ok c -> gzip_lossless (s_ext c) -> (forall e, pExc p = Some e -> json_lossless (s_ext c) e) ->
  IsHeartbeat (mHeader m) = false -> (hReqID (mHeader m) < 2 ^ 64)%N ->
  convertToRequest (s_ext c) (match s_ser c (GetSerialize (mHeader m)) with Some _ => true | None => false end)
    (mkMsg (SetProxy (s_proxy c) (mHeader m)) (aset bs_eqb (mMeta m) (s2b "host") ip) (mBody m)) = inl q ->
  h q = HRes p -> NoDup (akeys (pAttach p)) -> (0 <= cSerNum (pCtx p) <= 31)%Z -> (s_proxy c = true -> cOriginal (pCtx p) = None) ->
  (forall r, processV2 c ip pt h m = Write r -> sizes_ok max r) ->
  exists r m' s, processV2 c ip pt h m = Write r /\ decodeMsg max (concat (getEncodedBytes None r)) = DecOk m' [] /\
    (convertToResponse (s_ext c) true m' = inl s /\
    rpID s = hReqID (mHeader m) /\ rpExc s = pExc p /\
    (pExc p = None -> match pValue p with
                      | None => rpBody s = None
                      | Some v => exists b, res_bytes (s_asBytes c) (s_ser c (GetSerialize (mHeader m))) (pCtx p) v b /\
                                            rpBody s = match b with [] => None | _ => Some b end
                      end) /\
    (forall k v, In (k, v) (pAttach p) -> encodable (k, v) = true -> (k <> s2b "M_e" \/ pExc p = None) -> k <> s2b "M_pt" ->
       aget bs_eqb (rpAttach s) k = Some v) \/
    unsendable (s_asBytes c) (s_ser c (GetSerialize (mHeader m))) p /\ exists msg, exc_answer (s_ext c) r msg).
Proof. exact @processV2_value. Qed.
Print Assumptions C31_client_reads.

(* motan1: whatever is written is a frame with the request's id, if handlers keep the id. *)
Theorem C31_motan1_own_id : forall A (c : scfg A) gunzip ip h m b max,
  (81 <= max)%N -> (max < 2 ^ 32)%N -> (vRid m < 2 ^ 64)%N ->
  (forall q r, h q = HRes r -> v1_response_ok max (i_id q) r \/ encodeV1Resp r = None) ->
  processV1 c gunzip ip h m = Write b -> motan1_answer max (vRid m) b.
Proof. exact @processV1_id. Qed.
Print Assumptions C31_motan1_own_id.

(* motan1: the handler is given the message's id, names and attachments; group, version and source under their motan2 names, taken
   from the motan1 names where they are missing; and the address of the peer. *)
Theorem C31_motan1_given : forall A (c : scfg A) gunzip ip m q, decodeV1Request gunzip m = VOk q -> isV1HeartbeatReq q = false ->
  exists i, (forall h, processV1 c gunzip ip h m = processV1 c gunzip ip (fun _ => h i) m) /\ i_id i = vRid m /\ i_service i = rService q /\
    i_method i = rMethod q /\ i_desc i = rDesc q /\ i_orig i = m /\ forall k, att_value (i_attach i) k = motan1_seen (rAttach q) ip k.
Proof. exact @processV1_given. Qed.
Print Assumptions C31_motan1_given.

(* ------------------------------------------------------------ C31: a connection *)

(* At most one answer per message read, each with that message's id, whatever the order in which handlers finish. *)
Theorem C31_connection : forall A (c : scfg A) gunzip ip peermax ops s,
  numbers_ok c -> (81 <= peermax)%N -> (peermax < 2 ^ 32)%N -> Forall (op_ok c ip peermax) ops ->
  cruns c gunzip ip initConn ops = Some s ->
  NoDup (map fst (k_out s)) /\
  (forall i b, In (i, b) (k_out s) -> exists j, nth_error (k_jobs s) i = Some (j, Finished) /\ is_answer peermax j b).
Proof. intros A c gunzip ip peermax ops s Hn H1 H2 Hf H. destruct (@cruns_answers A c gunzip ip peermax Hn H1 H2 ops s Hf H) as (I1 & I2 & _). auto. Qed.
Print Assumptions C31_connection.

(* The messages processed are those the peer sent, in order, however the bytes were cut up. *)
Theorem C31_reads_what_was_sent : forall A (c : scfg A) gunzip ip items ops s pending,
  Forall (item_ok (s_max c)) items -> cruns c gunzip ip initConn ops = Some s ->
  arrived ops ++ pending = concat (map item_bytes items) ->
  exists n, map fst (k_jobs s) = map item_job (firstn n items) /\ k_in s ++ pending = concat (map item_bytes (skipn n items)) /\ n <= length items.
Proof. intros A c gunzip ip items ops s pending Hi Hs Ha. destruct (@cruns_order A c gunzip ip items Hi ops s Hs pending Ha) as (n & H1 & H2 & H3); exists n; auto. Qed.
Print Assumptions C31_reads_what_was_sent.

(* A conforming peer is only disconnected by its own close or by a failing write. *)
Theorem C31_not_disconnected : forall A (c : scfg A) gunzip ip items ops s,
  Forall (item_ok (s_max c)) items -> cruns c gunzip ip initConn ops = Some s ->
  (exists pending, arrived ops ++ pending = concat (map item_bytes items)) -> s_heartbeat c = true ->
  Forall (fun o => match o with PeerClose | EndJobLost _ => False | _ => True end) ops -> k_closed s = false.
Proof.
  intros A c gunzip ip items ops s Hi Hs Ha Hb Hf. eapply cruns_open; eauto. eapply Forall_impl; [|exact Hf].
  intros o H. destruct o; cbn in *; auto.
Qed.
Print Assumptions C31_not_disconnected.

(* A message that has arrived is read whatever is still being processed, and a finished one is answered at once. *)
Theorem C31_no_waiting : forall A (c : scfg A) gunzip ip s,
  (forall x rest, k_closed s = false -> item_ok (s_max c) x -> k_in s = item_bytes x ++ rest ->
     cstep c gunzip ip s (ReadOne true) = Some (mkConn rest (k_eof s) (k_jobs s ++ [(item_job x, Running)]) (k_out s) false)) /\
  (forall i pt h2 h1 m, nth_error (k_jobs s) i = Some (J2 m, Running) -> k_closed s = false ->
     (IsHeartbeat (mHeader m) = true -> s_heartbeat c = true) -> (forall q, h2 q <> HPanic) ->
     exists s' b, cstep c gunzip ip s (EndJob i pt h2 h1) = Some s' /\ k_out s' = k_out s ++ [(i, b)] /\ k_closed s' = false) /\
  (forall o s', cstep c gunzip ip s o = Some s' -> exists t, k_out s' = k_out s ++ t).
Proof.
  intros A c gunzip ip s. split; [|split].
  - intros x rest. apply cstep_reads.
  - intros i pt h2 h1 m. apply cstep_answered.
  - intros o s'. apply cstep_keeps.
Qed.
Print Assumptions C31_no_waiting.

(* When a write fails the connection is closed: whatever happens then, nothing more is written to it. *)
Theorem C31_lost : forall A (c : scfg A) gunzip ip s i s1 ops s2,
  cstep c gunzip ip s (EndJobLost i) = Some s1 -> cruns c gunzip ip s1 ops = Some s2 -> k_closed s2 = true /\ k_out s2 = k_out s.
Proof. exact @lost_closed. Qed.
Print Assumptions C31_lost.

(* a concrete server used in the examples: no proxy, one serialization that sends bytes as they are *)
Definition demo_ext : ext := mkExt (fun _ => None) (fun _ => None) (fun _ => s2b "{}") (fun _ => None).
Definition demo_ser : serialization bs := mkSer bs 6 Some (fun l => Some (concat l)).
Definition demo : scfg bs := mkScfg false true demo_ext (fun _ => s2b "e") (fun n => if N.eqb n 6 then Some demo_ser else None) Some 1000.
Definition demo_ctx := mkCtx false false 0 false 0 None.
Definition demo_req : message := mkMsg (BuildHeader true false 6 77 0) [(MPath, s2b "svc"); (MMethod, s2b "hi")] (s2b "body").
Definition demo_handler (q : rrequest) : hret (mresponse bs) := HRes (mkRes bs 5 (Some (s2b "ok")) None [] demo_ctx).

Example C31_example :
  let bytes := frame demo_req in
  let ops := [Arrive (firstn 10 bytes); Arrive (skipn 10 bytes); ReadOne true; EndJob 0 3 demo_handler (fun _ => HNil)] in
  numbers_ok demo /\ item_ok 1000 (S2 demo_req) /\
  exists s, cruns demo (fun _ => None) [] initConn ops = Some s /\ length (k_out s) = 1 /\
    Forall (fun ob => motan2_answer 1000 77 (snd ob)) (k_out s).
Proof.
  cbv zeta. split. { intros n s H. cbn in H. destruct (N.eqb n 6); [injection H as <-; cbn; lia|discriminate H]. }
  split. { repeat split; try (vm_compute; reflexivity); try (vm_compute; discriminate). vm_compute.
           constructor; [intros [H|[]]; discriminate H|constructor; [intros []|constructor]]. }
  eexists. split; [vm_compute; reflexivity|]. split; [reflexivity|]. constructor; [|constructor].
  eexists. split; [vm_compute; reflexivity|]. split; reflexivity.
Qed.

(* Finding: a motan1 request that cannot be decoded is not answered, although the code means to answer an exception:
   the nil request is dereferenced first. *)
Theorem C31_motan1_bad_request_refuted : forall A (c : scfg A) ip h,
  let m := mkV1 (v1_frame [xf1; xf1; x00; x00] x01 x00 7 [x00; x01]) x01 x00 7 2 in
  readV1 1000 (v1_frame [xf1; xf1; x00; x00] x01 x00 7 [x00; x01]) = ROkV1 m [] /\
  processV1 c (fun _ => None) ip h m = Silent.
Proof. intros. cbv zeta. split; [vm_compute; reflexivity|]. vm_compute. reflexivity. Qed.
Print Assumptions C31_motan1_bad_request_refuted.

(* Finding: a motan1 request whose handler returns nil, or a response without motan1 message and exception, is not
   answered either. *)
Theorem C31_motan1_no_result_refuted : forall A (c : scfg A) gunzip ip m h,
  (forall q, h q = HNil \/ exists id, h q = HRes (mkV1resp id None None)) ->
  (forall q, decodeV1Request gunzip m = VOk q -> isV1HeartbeatReq q = false) -> processV1 c gunzip ip h m = Silent.
Proof.
  intros A c gunzip ip m h Hh Hb. unfold processV1. destruct (decodeV1Request gunzip m) as [q| | |]; try reflexivity.
  rewrite (Hb q eq_refl). cbv zeta. set (qi := mkV1in _ _ _ _ _ _). destruct (Hh qi) as [->|[id ->]]; reflexivity.
Qed.
Print Assumptions C31_motan1_no_result_refuted.

(* Finding: when the pool refuses a message, the refusal is ignored: the message is dropped on an open connection. *)
Theorem C31_overload_refuted : exists ops s, cruns demo (fun _ => None) [] initConn ops = Some s /\
  k_jobs s = [(J2 demo_req, Finished)] /\ k_out s = [] /\ k_closed s = false.
Proof. exists [Arrive (frame demo_req); ReadOne false]. eexists. split; [vm_compute; reflexivity|]. repeat split. Qed.
Print Assumptions C31_overload_refuted.

(* ------------------------------------------------------------ C32: dispatch *)

(* The provider found for a service is the one last added and not removed since. *)
Theorem C32_table : forall l, objects_ok l -> forall service p,
  aget bs_eqb (hruns l) service = Some p <-> serves l service p.
Proof. exact table_serves. Qed.
Print Assumptions C32_table.

(* That provider, and no other, is called, once; its answer is returned; a panic or a nil answer becomes an exception
   with the request's id. *)
Theorem C32_calls_the_provider : forall R l (q : dreq) (run : callee -> hret R) p,
  objects_ok l -> ~ wants_framework q -> serves l (d_service q) p ->
  snd (handlerCall (hruns l) q run) = [Prov p] /\
  fst (handlerCall (hruns l) q run) = match run (Prov p) with
                                      | HRes r => FromProvider r
                                      | _ => ExcAnswer (d_id q) (mkExc 500 (s2b "provider call panic") 1)
                                      end.
Proof. intros R l q run p Ho Hf Hs. apply (@dispatch_found R); [exact Hf|]. apply table_serves; assumption. Qed.
Print Assumptions C32_calls_the_provider.

Theorem C32_not_exist : forall R l (q : dreq) (run : callee -> hret R),
  objects_ok l -> ~ wants_framework q -> (forall p, ~ serves l (d_service q) p) ->
  handlerCall (hruns l) q run = (ExcAnswer (d_id q) (mkExc 404 (s2b "provider not exist serviceKey=" ++ d_service q) 1), []).
Proof.
  intros R l q run Ho Hf Hs. apply (@dispatch_none R); [exact Hf|]. destruct (aget bs_eqb (hruns l) (d_service q)) as [p|] eqn:E; [|reflexivity].
  destruct (Hs p). apply table_serves; assumption.
Qed.
Print Assumptions C32_not_exist.

(* Framework requests never reach the registered providers. *)
Theorem C32_framework : forall R l (q : dreq) (run : callee -> hret R), wants_framework q ->
  (d_service q = s2b "com.weibo.api.motan.runtime.meta.MetaService" -> snd (handlerCall (hruns l) q run) = [Framework (d_service q)]) /\
  (d_service q <> s2b "com.weibo.api.motan.runtime.meta.MetaService" ->
     handlerCall (hruns l) q run = (ExcAnswer (d_id q) (mkExc 501 (s2b "service not support") 1), [])).
Proof.
  intros R l q run Hf. destruct (@dispatch_framework R [MetaServiceName] (hruns l) (d_service q) q run Hf) as [H1 H2].
  split; intro H; [apply H1; left; auto|apply H2; intros [K|[]]; auto].
Qed.
Print Assumptions C32_framework.

(* The agent's handler does the same per group and service, if group names have no underscore. *)
Theorem C32_agent_table : forall l, plain_groups l -> forall g service p, ~ In x5f g ->
  aget bs_eqb (hrunsA l) (serviceKey g service) = Some p <-> servesA l g service p.
Proof. exact tableA_serves. Qed.
Print Assumptions C32_agent_table.

Theorem C32_agent_calls : forall R fw l (q : dreq) (run : callee -> hret R) p,
  plain_groups l -> ~ In x5f (asked_group q) -> ~ wants_framework q -> servesA l (asked_group q) (d_service q) p ->
  snd (handlerCallA fw (hrunsA l) q run) = [Prov p] /\
  fst (handlerCallA fw (hrunsA l) q run) = match run (Prov p) with
                                           | HRes r => FromProvider r
                                           | _ => ExcAnswer (d_id q) (mkExc 500 (s2b "provider call panic") 1)
                                           end.
Proof. intros R fw l q run p Hp Hg Hf Hs. unfold handlerCallA. rewrite requestGroup_asked. apply (@dispatch_found R); [exact Hf|]. apply tableA_serves; assumption. Qed.
Print Assumptions C32_agent_calls.

Theorem C32_agent_not_exist : forall R fw l (q : dreq) (run : callee -> hret R),
  plain_groups l -> ~ In x5f (asked_group q) -> ~ wants_framework q -> (forall p, ~ servesA l (asked_group q) (d_service q) p) ->
  exists key, handlerCallA fw (hrunsA l) q run = (ExcAnswer (d_id q) (mkExc 404 (s2b "provider not exist serviceKey=" ++ key) 1), []).
Proof.
  intros R fw l q run Hp Hg Hf Hs. unfold handlerCallA. rewrite requestGroup_asked. eexists. apply (@dispatch_none R); [exact Hf|].
  destruct (aget bs_eqb (hrunsA l) _) as [p|] eqn:E; [|reflexivity]. destruct (Hs p). apply tableA_serves; assumption.
Qed.
Print Assumptions C32_agent_not_exist.

(* Finding: with underscores in group names, a request for one service is given to the provider of another. *)
Theorem C32_agent_key_clash_refuted : exists l (q : dreq) p,
  hrunsA l = [(serviceKey (v_group p) (v_path p), p)] /\ asked_group q = s2b "a" /\ d_service q = s2b "b_c" /\
  v_group p = s2b "a_b" /\ v_path p = s2b "c" /\
  forall R (run : callee -> hret R), snd (handlerCallA [] (hrunsA l) q run) = [Prov p].
Proof.
  exists [AddP (mkPv 1 (s2b "c") (s2b "a_b"))], (mkDreq 1 (s2b "b_c") [(MGroup, s2b "a")]), (mkPv 1 (s2b "c") (s2b "a_b")).
  repeat split.
Qed.
Print Assumptions C32_agent_key_clash_refuted.

(* Finding: in the agent a removed provider takes a newer one for the same service with it. *)
Theorem C32_agent_stale_remove_refuted : exists old new_, v_id old <> v_id new_ /\
  hrunsA [AddP old; AddP new_; RmP old] = [] /\ hruns [AddP old; AddP new_; RmP old] = [(v_path new_, new_)].
Proof. exists (mkPv 1 (s2b "s") (s2b "g")), (mkPv 2 (s2b "s") (s2b "g")). split; [discriminate|]. split; reflexivity. Qed.
Print Assumptions C32_agent_stale_remove_refuted.

Example C32_example :
  let p1 := mkPv 1 (s2b "svc") (s2b "g") in let p2 := mkPv 2 (s2b "svc") (s2b "g") in let p3 := mkPv 3 (s2b "other") (s2b "g") in
  let l := [AddP p1; AddP p3; AddP p2; RmP p1] in
  objects_ok l /\ serves l (s2b "svc") p2 /\ plain_groups l /\ ~ wants_framework (mkDreq 1 (s2b "svc") []).
Proof.
  cbv zeta. split; [|split; [|split]].
  - intros o1 o2 p q H1 H2 K1 K2 E. cbn in H1, H2.
    repeat (destruct H1 as [H1|H1]; [|]); try contradiction; repeat (destruct H2 as [H2|H2]; [|]); try contradiction;
    subst o1 o2; destruct K1 as [K1|K1]; destruct K2 as [K2|K2]; try discriminate K1; try discriminate K2;
    injection K1 as <-; injection K2 as <-; try reflexivity; discriminate E.
  - split; [reflexivity|]. exists [AddP (mkPv 1 (s2b "svc") (s2b "g")); AddP (mkPv 3 (s2b "other") (s2b "g"))], [RmP (mkPv 1 (s2b "svc") (s2b "g"))].
    split; [reflexivity|]. split; intros q [H|[]]; [discriminate H|]. injection H as <-. discriminate.
  - intros o p H K. cbn in H. repeat (destruct H as [H|H]; [|]); try contradiction; subst o; destruct K as [K|K]; try discriminate K;
    injection K as <-; intros [Hx|[]]; discriminate Hx.
  - intros (v & H & _). discriminate H.
Qed.

(* ------------------------------------------------------------ C33: exporting *)

(* Export: a second one is refused; otherwise exactly the configured and known registries are told, with the url of
   the provider marked as a service. *)
Theorem C33_export : forall p ops X, let e := xruns (initExp p) ops in
  (e_exported e = true -> export X e = (e, XAlready)) /\
  (e_exported e = false ->
     (e_prov e = None -> export X e = (e, XNoProvider)) /\
     forall u, e_prov e = Some u ->
       match configured X (exportUrl X u) with
       | Some rs => snd (export X e) = XOk /\ e_exported (fst (export X e)) = true /\ e_avail (fst (export X e)) = true /\
                    e_log (fst (export X e)) = e_log e ++ map (fun r => Reg r (exportUrl X u)) rs
       | None => snd (export X e) = XNoRegistry /\ e_exported (fst (export X e)) = false /\ e_log (fst (export X e)) = e_log e
       end).
Proof.
  intros p ops X. cbv zeta. set (e := xruns _ _). unfold export. split; intro E; rewrite E; [reflexivity|].
  split; [intros ->; reflexivity|]. intros u ->. rewrite chosen_configured. destruct (configured X (exportUrl X u)); cbn; auto.
Qed.
Print Assumptions C33_export.

(* the url given to the registries: the provider's, a service node, with the server's meta information if asked for *)
Theorem C33_url : forall X u,
  param (exportUrl X u) (s2b "nodeType") = Some (s2b "service") /\
  (forall k, k <> s2b "nodeType" -> getBoolValue u (s2b "registerMeta") false = false -> param (exportUrl X u) k = param u k) /\
  (forall k, k <> s2b "nodeType" -> ~ In k (map fst (x_meta X)) -> param (exportUrl X u) k = param u k) /\
  (forall k v, k <> s2b "nodeType" -> getBoolValue u (s2b "registerMeta") false = true -> NoDup (map fst (x_meta X)) -> In (k, v) (x_meta X) ->
     param (exportUrl X u) k = Some v).
Proof.
  intros X u.
  assert (NT : forall v k, k <> s2b "nodeType" -> param (putParam v (s2b "nodeType", s2b "service")) k = param v k).
  { intros v k Hk. rewrite param_putParam. cbn [fst]. destruct (bs_eqb k (s2b "nodeType")) eqn:E; [apply bs_eqb_spec in E; contradiction|reflexivity]. }
  assert (OUT : forall l v k, ~ In k (map fst l) -> param (fold_left putParam l v) k = param v k).
  { induction l as [|[a b] l IH]; intros v k Hk; [reflexivity|]. cbn [fold_left]. rewrite IH by (intro K; apply Hk; right; exact K).
    rewrite param_putParam. cbn [fst]. destruct (bs_eqb k a) eqn:E; [apply bs_eqb_spec in E; subst; exfalso; apply Hk; left; reflexivity|reflexivity]. }
  unfold exportUrl. cbv zeta. change URLRegisterMeta with (s2b "registerMeta"). change NodeTypeKey with (s2b "nodeType"). change NodeTypeService with (s2b "service").
  split; [rewrite param_putParam; reflexivity|]. split; [|split].
  - intros k Hk Hb. rewrite Hb. apply NT, Hk.
  - intros k Hk Hin. rewrite NT by exact Hk. destruct (getBoolValue u (s2b "registerMeta") false); [apply OUT, Hin|reflexivity].
  - intros k v Hk Hb Hnd Hin. rewrite Hb, NT by exact Hk. clear Hb. revert u. induction (x_meta X) as [|[a b] l IH]; intro u; [destruct Hin|].
    cbn [fold_left]. inversion Hnd as [|? ? Ha Hnd']; subst. destruct Hin as [Hin|Hin].
    + injection Hin as -> ->. rewrite OUT by exact Ha. rewrite param_putParam. cbn [fst]. rewrite (proj2 (bs_eqb_spec k k) eq_refl). reflexivity.
    + apply IH; assumption.
Qed.
Print Assumptions C33_url.

(* Any history of calls consists of completed rounds, each telling the configured registries to register a url, then
   the same registries to unregister the same url and the server to drop the provider, and possibly one open round. *)
Theorem C33_rounds : forall p ops, let e := xruns (initExp p) ops in exists eps cur,
  Forall episode_ok eps /\
  e_log e = concat (map (fun x => opening x ++ closing x) eps) ++ match cur with Some x => opening x | None => [] end /\
  match cur with
  | Some x => e_exported e = true /\ episode_ok x /\ e_log (unexport e) = e_log e ++ closing x /\ e_exported (unexport e) = false
  | None => e_exported e = false /\ unexport e = e
  end.
Proof.
  intros p ops. cbv zeta. destruct (xruns_inv p ops) as (eps & cur & H1 & H2 & H3). exists eps, cur. split; [exact H1|]. split; [exact H2|].
  unfold unexport. destruct cur as [x|]; [|rewrite H3; auto]. destruct H3 as (E1 & E2 & E3 & E4). rewrite E1, E3. cbn. rewrite E4. auto.
Qed.
Print Assumptions C33_rounds.

(* So each registry has been told to unregister as often as to register, but for the current export. *)
Theorem C33_balanced : forall p ops r, let e := xruns (initExp p) ops in
  (e_exported e = false -> regs_of r (e_log e) = unregs_of r (e_log e)) /\
  (e_exported e = true -> regs_of r (e_log e) = unregs_of r (e_log e) + countb (Nat.eqb r) (e_regs e)) /\
  unexport (unexport e) = unexport e.
Proof.
  intros p ops r. cbv zeta. destruct (xruns_inv p ops) as (eps & cur & H). pose proof (xinv_balance r H) as B. destruct H as (_ & _ & H3).
  split; [|split].
  - intro E. rewrite B. destruct cur as [x|]; [destruct H3 as (H3 & _); rewrite E in H3; discriminate H3|lia].
  - intro E. rewrite B. destruct cur as [x|]; [destruct H3 as (_ & _ & _ & ->); reflexivity|rewrite E in H3; discriminate H3].
  - unfold unexport at 2 3. destruct cur as [x|]; [destruct H3 as (E1 & _ & E3 & _); rewrite E1, E3; reflexivity|].
    rewrite H3. unfold unexport. rewrite H3. reflexivity.
Qed.
Print Assumptions C33_balanced.

(* A new exporter is not available; exporting makes it available, as the two switches set it, and nothing else changes it. *)
Theorem C33_available p o : e_avail (initExp p) = false /\
  forall e, e_avail (xstep e o) = match o with
                                  | OAvailable => true
                                  | OUnavailable => false
                                  | OUnexport => e_avail e
                                  | OExport X => match snd (export X e) with XOk => true | _ => e_avail e end
                                  end.
Proof.
  split; [reflexivity|]. intros [pv ur rg ex av lg]. destruct o; cbn [xstep]; try reflexivity.
  - unfold export. cbn [e_exported e_prov]. destruct ex; [reflexivity|]. destruct pv as [u|]; [|reflexivity]. destruct (chosenRegs X u); reflexivity.
  - unfold unexport. cbn [e_exported e_url]. destruct ex; [|reflexivity]. destruct ur; reflexivity.
Qed.
Print Assumptions C33_available.

(* Finding: an unknown registry name does not make Export fail. *)
Theorem C33_unknown_registry_refuted : exists X u, configured X u = Some [] /\ (exists n, param u (s2b "registry") = Some n /\ n <> []) /\
  snd (export X (initExp (Some u))) = XOk.
Proof.
  exists (mkXenv [] (fun _ => None)), (mkUrl [] [] 0 [] [] (Some [(s2b "registry", s2b "zk")])).
  split; [vm_compute; reflexivity|]. split; [eexists; split; [reflexivity|discriminate]|vm_compute; reflexivity].
Qed.
Print Assumptions C33_unknown_registry_refuted.

(* Finding: after Unexport the exporter still says it is available. *)
Theorem C33_available_after_unexport_refuted : exists X u, let e := unexport (fst (export X (initExp (Some u)))) in
  e_exported e = false /\ e_avail e = true.
Proof.
  exists (mkXenv [] (fun _ => Some (Some 1))), (mkUrl [] [] 0 [] [] (Some [(s2b "registry", s2b "zk")])). vm_compute. auto.
Qed.
Print Assumptions C33_available_after_unexport_refuted.

Example C33_example :
  let X := mkXenv [] (fun n => if bs_eqb n (s2b "zk") then Some (Some 1) else if bs_eqb n (s2b "d") then Some (Some 2) else None) in
  let u := mkUrl (s2b "motan2") (s2b "h") 80 (s2b "svc") (s2b "g") (Some [(s2b "registry", s2b "zk, d,x")]) in
  let e := xruns (initExp (Some u)) [OExport X; OExport X; OUnexport; OUnexport; OExport X] in
  configured X u = Some [1; 2] /\ length (e_log e) = 7 /\ e_exported e = true.
Proof. vm_compute. auto. Qed.
