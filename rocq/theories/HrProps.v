(* HrProps.v: property C116, an http request sent as an RPC reaches the upstream as it was and its answer comes back as it was. *)
From Verif Require Import Base BytesModel BytesSpec Strconv GoStrings GoStrings2 ProtoModel ProtoSpec ConvModel ConvSpec SimpleModel SimpleSpec UrlModel
  ServerModel ServerSpec ProvModel ProvSpec HttpModel HttpSpec HrModel HrSpec HrProofs.
From Verif Require WebModel HprovModel.

(* One http request is made of the upstream: with the client's raw header and body, the path as the location rules rewrite it, the
   headers that describe the call, and the agent's address as X-Forwarded-For if the client sent none.  The client is answered with
   the upstream's raw header and body, or with what went wrong. *)
Theorem C116_forwarded : forall a g ip pt sid service path header body p path',
  serves a g -> (sid < 2 ^ 64)%N -> one_line service -> one_line path ->
  one_line (getParam (ha_cluster a) (s2b "application") []) -> one_line (uGroup (ha_ep a)) ->
  hr_fits a g ip pt sid service path header body -> aget bs_eqb (hs_table g) service = Some p ->
  upstream_path (hs_world g) (hs_prov g (v_id p)) path header = Some path' ->
  exists calls, motan_headers calls service path (getParam (ha_cluster a) (s2b "application") []) (uGroup (ha_ep a)) /\
    let s := upstream_request (hs_world g) (hs_prov g (v_id p)) path' header body ip calls in
    let r := upstream_result (hs_world g) (hs_prov g (v_id p)) s in
    carried (ha_ext a) r -> httpOverRpc a g ip pt sid service path header body = ([s], web_answer r).
Proof.
  intros a g ip pt sid service path header body p path' H1 H2 H3 H4 H5 H6 H7 H8 H9.
  destruct (over_rpc a g ip pt sid service path header body p H1 H2 H3 H4 H5 H6 H7 H8) as (calls & C1 & C2). rewrite H9 in C2. exists calls. split; [exact C1|exact C2].
Qed.
Print Assumptions C116_forwarded.

(* A path no location rule matches is answered with an error and no request is made of the upstream. *)
Theorem C116_no_location : forall a g ip pt sid service path header body p,
  serves a g -> (sid < 2 ^ 64)%N -> one_line service -> one_line path ->
  one_line (getParam (ha_cluster a) (s2b "application") []) -> one_line (uGroup (ha_ep a)) ->
  hr_fits a g ip pt sid service path header body -> aget bs_eqb (hs_table g) service = Some p ->
  upstream_path (hs_world g) (hs_prov g (v_id p)) path header = None ->
  json_lossless (ha_ext a) (mkExc 404 (s2b "service not found") 2) ->
  httpOverRpc a g ip pt sid service path header body = ([], WebModel.WGateway (s2b "err_msg: service not found")).
Proof.
  intros a g ip pt sid service path header body p H1 H2 H3 H4 H5 H6 H7 H8 H9.
  destruct (over_rpc a g ip pt sid service path header body p H1 H2 H3 H4 H5 H6 H7 H8) as (calls & C1 & C2). rewrite H9 in C2. exact C2.
Qed.
Print Assumptions C116_no_location.

(* A service the server does not export is answered with an error that names it, and no request is made of any upstream. *)
Theorem C116_unknown_service : forall a g ip pt sid service path header body,
  serves a g -> (sid < 2 ^ 64)%N -> one_line service -> one_line path ->
  hr_fits a g ip pt sid service path header body -> aget bs_eqb (hs_table g) service = None ->
  json_lossless (ha_ext a) (mkExc 404 (s2b "provider not exist serviceKey=" ++ service) 1) ->
  httpOverRpc a g ip pt sid service path header body = ([], WebModel.WGateway (s2b "err_msg: provider not exist serviceKey=" ++ service)).
Proof. exact over_rpc_unknown. Qed.
Print Assumptions C116_unknown_service.

(* ------------------------------------------------------------ a concrete agent and server *)

Definition x_ext : ConvModel.ext := mkExt (fun _ => None) (fun _ => None) (fun e => (if Z.eqb (eCode e) 404 then x34 else if Z.eqb (eCode e) 503 then x35 else x36) :: eMsg e)
  (fun s => match s with x34 :: t => Some (Some (mkExc 404 t 2)) | x35 :: t => Some (Some (mkExc 503 t 2)) | _ :: t => Some (Some (mkExc 500 t 2)) | [] => None end).
(* the upstream answers /echo with the body it was sent, /down not at all, and anything else with status 500 *)
Definition x_world : hworld := mkHw (fun f _ => f) (fun m => m) (fun _ _ => None)
  (fun s => match s with
            | HprovModel.STransparent _ _ _ p _ b =>
                if bs_eqb p (s2b "/echo") then HprovModel.WResp 200 [(s2b "Server", s2b "u")] b None
                else if bs_eqb p (s2b "/down") then HprovModel.WErr (s2b "dial timeout") else HprovModel.WResp 500 [] (s2b "oops") None
            | _ => HprovModel.WErr []
            end)
  (fun _ => false) (fun st h => fmtZ st ++ concat (map snd h)) (fun _ => []) (fun _ _ => []).
Definition x_prov (exc rewrite : bool) : HprovModel.hprov := HprovModel.mkHprov (mkUrl [] [] 0 [] [] None) [] []
  (mkMatcher [mkCloc (s2b "svc") (s2b "/lost") None []] [] [] false) exc rewrite [] (s2b "http") [] (s2b "GET").
Definition x_cfg : scfg value := mkScfg false true x_ext (fun _ => s2b "unsupported") (fun n => if N.eqb n 6 then Some simpleSer else None) (fun _ => None) 1000.
Definition x_server (exc rewrite : bool) : hserver :=
  mkHs x_cfg [(s2b "svc", mkPv 1 (s2b "svc") [])] (fun _ => x_prov exc rewrite) (fun _ => 0%Z) (fun _ => HprovModel.DErr []) (fun _ => HNil) (fun _ => s2b "EOF") x_world.
Definition x_agent : hagent := mkHa x_ext 1000 (mkUrl (s2b "http") [] 0 [] [] (Some [(s2b "application", s2b "web")])) (mkUrl (s2b "motan2") (s2b "h") 80 (s2b "svc") (s2b "grp") None) 0 (fun _ => s2b "EOF") (s2b "timeout").
Definition x_call (exc rewrite : bool) (path body : bs) := httpOverRpc x_agent (x_server exc rewrite) (s2b "10.0.0.1") 3 77 (s2b "svc") path (s2b "GET /echo") body.

Example C116_example :
  serves x_agent (x_server true false) /\ hr_fits x_agent (x_server true false) (s2b "10.0.0.1") 3 77 (s2b "svc") (s2b "/echo") (s2b "GET /echo") (s2b "hello") /\
  snd (x_call true false (s2b "/echo") (s2b "hello")) = WebModel.WReply (Some (s2b "200u")) (s2b "hello") /\
  length (fst (x_call true false (s2b "/echo") (s2b "hello"))) = 1 /\
  snd (x_call true false (s2b "/down") []) = WebModel.WGateway (s2b "err_msg: dial timeout") /\
  snd (x_call true false (s2b "/bad") []) = WebModel.WGateway (s2b "err_msg: oops") /\
  snd (x_call false false (s2b "/bad") []) = WebModel.WReply (Some (s2b "500")) (s2b "oops") /\
  x_call true true (s2b "/other") [] = ([], WebModel.WGateway (s2b "err_msg: service not found")) /\
  carried x_ext (UExc 503 (s2b "dial timeout")) /\ json_lossless x_ext (mkExc 404 (s2b "service not found") 2).
Proof.
  split; [split; [reflexivity|]; split; [reflexivity|]; split; [reflexivity|intros b z H; discriminate H]|].
  split. { split; [vm_compute; reflexivity|]. intros m H. vm_compute in H. injection H as <-. split; [vm_compute; intuition congruence|].
           intros r H. vm_compute in H. injection H as <-. vm_compute; intuition congruence. }
  repeat (split; [vm_compute; reflexivity|]).
  split; (split; [reflexivity|]; split; [discriminate|]; intro H; vm_compute in H; intuition discriminate).
Qed.

(* The path does not always get there: a decoded path with a newline (%0a in the request line) is dropped from the message, and the
   upstream is asked for the empty path. *)
Theorem C116_newline_refuted : exists a g ip pt sid service path header body p,
  serves a g /\ aget bs_eqb (hs_table g) service = Some p /\ hr_fits a g ip pt sid service path header body /\
  upstream_path (hs_world g) (hs_prov g (v_id p)) path header = Some path /\ path = s2b "/a" ++ [x0a] ++ s2b "b" /\
  exists calls rest, httpOverRpc a g ip pt sid service path header body =
    ([upstream_request (hs_world g) (hs_prov g (v_id p)) [] header body ip calls], rest).
Proof.
  exists x_agent, (x_server true false), (s2b "10.0.0.1"), 3%Z, 77%N, (s2b "svc"), (s2b "/a" ++ [x0a] ++ s2b "b"), (s2b "GET /a%0ab"), (s2b "x"), (mkPv 1 (s2b "svc") []).
  split; [split; [reflexivity|]; split; [reflexivity|]; split; [reflexivity|intros b z H; discriminate H]|].
  split; [reflexivity|]. split.
  { split; [vm_compute; reflexivity|]. intros m H. vm_compute in H. injection H as <-. split; [vm_compute; intuition congruence|].
    intros r H. vm_compute in H. injection H as <-. vm_compute; intuition congruence. }
  split; [reflexivity|]. split; [reflexivity|].
  eexists. eexists. vm_compute. reflexivity.
Qed.
Print Assumptions C116_newline_refuted.

(* a service that is not exported *)
Definition y_ext : ConvModel.ext := mkExt (fun _ => None) (fun _ => None) eMsg (fun s => Some (Some (mkExc 404 s 1))).
Definition y_server : hserver :=
  mkHs (mkScfg false true y_ext (fun _ => s2b "unsupported") (fun n => if N.eqb n 6 then Some simpleSer else None) (fun _ => None) 1000)
    [(s2b "svc", mkPv 1 (s2b "svc") [])] (fun _ => x_prov true false) (fun _ => 0%Z) (fun _ => HprovModel.DErr []) (fun _ => HNil) (fun _ => s2b "EOF") x_world.
Definition y_agent : hagent := mkHa y_ext 1000 (ha_cluster x_agent) (ha_ep x_agent) 0 (fun _ => s2b "EOF") (s2b "timeout").
Example C116_unknown_example : serves y_agent y_server /\
  hr_fits y_agent y_server (s2b "10.0.0.1") 3 77 (s2b "gone") (s2b "/echo") (s2b "GET /echo") (s2b "hello") /\
  json_lossless y_ext (mkExc 404 (s2b "provider not exist serviceKey=" ++ s2b "gone") 1) /\
  httpOverRpc y_agent y_server (s2b "10.0.0.1") 3 77 (s2b "gone") (s2b "/echo") (s2b "GET /echo") (s2b "hello") =
    ([], WebModel.WGateway (s2b "err_msg: provider not exist serviceKey=gone")).
Proof.
  split; [split; [reflexivity|]; split; [reflexivity|]; split; [reflexivity|intros b z H; discriminate H]|].
  split. { split; [vm_compute; reflexivity|]. intros m H. vm_compute in H. injection H as <-. split; [vm_compute; intuition congruence|].
           intros r H. vm_compute in H. injection H as <-. vm_compute; intuition congruence. }
  split; [|vm_compute; reflexivity].
  split; [reflexivity|]; split; [discriminate|]; intro H; vm_compute in H; intuition discriminate.
Qed.
