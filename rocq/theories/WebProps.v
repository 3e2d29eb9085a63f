(* WebProps.v: C76, what the http proxy does with a request. *)
From Verif Require Import Base WebModel WebSpec WebProofs.

(* a request for a configured domain with a location for the path becomes an rpc call of that service *)
Theorem C76_served cfg r n f svc : ordinary r -> names (wHost r) n -> domain cfg n = Some f -> f (wPath r) = Some svc ->
  proxyHandle cfg r = ACall n svc (wHost r).
Proof. exact (served cfg r n f svc). Qed.
Print Assumptions C76_served.
(* a request nobody serves is sent on to its host, or refused if that is the proxy itself *)
Theorem C76_unserved cfg r n a : ordinary r -> names (wHost r) n -> unserved cfg n (wPath r) -> address (wHost r) a ->
  (In a (pxDeny cfg) -> proxyHandle cfg r = AReject) /\ (~ In a (pxDeny cfg) -> proxyHandle cfg r = AForward (wHost r)).
Proof. exact (not_served cfg r n a). Qed.
Print Assumptions C76_unserved.
(* a request for another domain is treated as one for the default domain, if there is one *)
Theorem C76_default cfg r n : ordinary r -> names (wHost r) n -> domain cfg n = None -> pxDefault cfg <> [] -> plain (pxDefault cfg) ->
  proxyHandle cfg r = proxyHandle cfg (mkWreq (wPath r) (pxDefault cfg) false).
Proof. exact (default_domain cfg r n). Qed.
Print Assumptions C76_default.
(* whatever the host header, nothing is sent on to one of the addresses known to be the proxy's own *)
Theorem C76_never_own cfg r h a : (exists p, wPath r = x2f :: p) -> (pxDefault cfg = [] \/ plain (pxDefault cfg)) ->
  proxyHandle cfg r = AForward h -> address h a -> ~ In a (pxDeny cfg).
Proof. exact (never_own cfg r h a). Qed.
Print Assumptions C76_never_own.
(* ... but the same address in another spelling is not known *)
Theorem C76_own_refuted : exists cfg r h, In (s2b "localhost:9983") (pxDeny cfg) /\ proxyHandle cfg r = AForward h /\ h = s2b "LOCALHOST:9983".
Proof.
  exists (mkPx [] [s2b "127.0.0.1:9983"; s2b "localhost:9983"] []), (mkWreq (s2b "/a") (s2b "LOCALHOST:9983") false). eexists.
  split; [right; left; reflexivity|]. split; vm_compute; reflexivity.
Qed.
Print Assumptions C76_own_refuted.

(* the answer of the rpc call: what was replied; an error with the text of the exception; by plain http when there are no endpoints *)
Theorem C76_reply h b rest : rpcProxyResult (CReply (PBytes h :: PBytes b :: rest)) = WReply (Some h) b.
Proof. reflexivity. Qed.
Theorem C76_exception code msg : rpcProxyResult (CExc code msg) = WForward /\ code = ENoEndpoints \/
  rpcProxyResult (CExc code msg) = WGateway (s2b "err_msg: " ++ msg) /\ code <> ENoEndpoints.
Proof. unfold rpcProxyResult. destruct (Z.eqb_spec code ENoEndpoints); [left|right]; tauto. Qed.
(* every request is answered, also when the reply is not what was expected *)
Theorem C76_answered c : answered (rpcProxyResult c) <> WPanic /\ answered (formResult c) <> WPanic.
Proof. exact (always_answered c). Qed.
Print Assumptions C76_answered.

(* no reply at all is answered with an error of the gateway *)
Theorem C76_no_reply : answered (formResult CNil) = WGateway (s2b "err_msg: http proxy panic").
Proof. reflexivity. Qed.
Print Assumptions C76_no_reply.
(* a call by form is answered with the value of the response, with the exception's message, or with why the value cannot be read; a
   value that is no bytes is answered with an error of the gateway *)
Theorem C76_form_result : (forall code msg, answered (formResult (CExc code msg)) = WGateway msg) /\
  (forall err, answered (formResult (CBad err)) = WGateway (s2b "get response body failed: " ++ err)) /\
  (forall b l, answered (formResult (CReply (PBytes b :: l))) = WReply None b) /\
  (forall l, (forall b r, l <> PBytes b :: r) -> answered (formResult (CReply l)) = WGateway (s2b "err_msg: http proxy panic")).
Proof.
  split; [reflexivity|]. split; [reflexivity|]. split; [reflexivity|]. intros l H. destruct l as [|x r]; [reflexivity|].
  destruct x as [|b|]; try reflexivity. destruct (H b r eq_refl).
Qed.
Print Assumptions C76_form_result.
(* calls by form *)
Theorem C76_form form headers : form (s2b "service") <> [] -> form (s2b "method") <> [] -> form (s2b "arg_type") = s2b "string" ->
  (forall k v, In k [s2b "M_g"; s2b "M_p"; s2b "M_m"; s2b "M_pp"] -> ~ In (k, v) headers) ->
  exists q, formRpc form headers = inr q /\ rqService q = form (s2b "service") /\ rqMethod q = form (s2b "method") /\ rqArg q = form (s2b "arg") /\
    aget bs_eqb (rqAtt q) (s2b "M_g") = Some (form (s2b "group")) /\ aget bs_eqb (rqAtt q) (s2b "M_p") = Some (form (s2b "service")) /\
    aget bs_eqb (rqAtt q) (s2b "M_m") = Some (form (s2b "method")) /\ aget bs_eqb (rqAtt q) (s2b "M_pp") = Some (s2b "motan2").
Proof. exact (form_request form headers). Qed.
Print Assumptions C76_form.
Theorem C76_form_headers form headers q k v : formRpc form headers = inr q -> NoDup (map fst headers) -> In (k, v) headers -> v <> [] -> aget bs_eqb (rqAtt q) k = Some v.
Proof.
  unfold formRpc. cbv zeta. destruct (_ || _); [discriminate|]. destruct (negb _); [discriminate|]. intro H. injection H as <-. cbn [rqAtt].
  apply form_headers.
Qed.
Print Assumptions C76_form_headers.
(* ... and is refused, saying why, exactly when there is no service or method, or the argument is no string *)
Theorem C76_form_refused form headers e : formRpc form headers = inl e <->
  (form (s2b "service") = [] \/ form (s2b "method") = []) /\ e = s2b "service:" ++ form (s2b "service") ++ s2b " or method:" ++ form (s2b "method") ++ s2b " musn't be empty" \/
  form (s2b "service") <> [] /\ form (s2b "method") <> [] /\ form (s2b "arg_type") <> s2b "string" /\ e = s2b "arg_type " ++ form (s2b "arg_type") ++ s2b " not support now".
Proof.
  unfold formRpc. cbv zeta. destruct (bs_eqb (form (s2b "service")) []) eqn:A.
  { apply bs_eqb_spec in A. cbn [orb]. split; [intro H; injection H as <-; auto|]. intros [[_ ->]|[H _]]; [reflexivity|contradiction]. }
  destruct (bs_eqb (form (s2b "method")) []) eqn:B.
  { apply bs_eqb_spec in B. cbn [orb]. split; [intro H; injection H as <-; auto|]. intros [[_ ->]|[_ [H _]]]; [reflexivity|contradiction]. }
  apply bs_eqb_neq in A. apply bs_eqb_neq in B. cbn [orb]. destruct (bs_eqb (form (s2b "arg_type")) (s2b "string")) eqn:C; cbn [negb].
  - apply bs_eqb_spec in C. split; [discriminate|]. intros [[[H|H] _]|(_ & _ & H & _)]; contradiction.
  - apply bs_eqb_neq in C. split; [intro H; injection H as <-; auto|]. intros [[[H|H] _]|(_ & _ & _ & ->)]; [contradiction|contradiction|reflexivity].
Qed.
Print Assumptions C76_form_refused.
(* so a header can replace the group that the form names *)
Theorem C76_form_group_refuted : exists form headers q, formRpc form headers = inr q /\ form (s2b "group") = s2b "a" /\ aget bs_eqb (rqAtt q) (s2b "M_g") = Some (s2b "b").
Proof.
  exists (fun k => if bs_eqb k (s2b "arg_type") then s2b "string" else s2b "a"), [(s2b "M_g", s2b "b")]. eexists. split; [vm_compute; reflexivity|].
  split; vm_compute; reflexivity.
Qed.
Print Assumptions C76_form_group_refuted.

(* an http call through the agent: by rpc, once, when the domain has a service for the path; by http, once and to the domain, when it has
   none or the service has no endpoints; otherwise not *)
Theorem C76_agent domain method can rpc bad http calls hx r : agentHttpCall domain method can rpc bad http = (calls, hx, r) ->
  (calls = match can with Some svc => [svc] | None => [] end) /\
  (hx = [mkHx domain method] <-> bad = None /\ (can = None \/ exists svc msg, can = Some svc /\ rpc = Some (MExc ENoEndpoints msg))) /\
  (hx = [] \/ hx = [mkHx domain method]) /\
  (forall h b, hx = [mkHx domain method] -> http = HOk h b -> r = MVal h (Some b)) /\
  (forall svc v, can = Some svc -> rpc = Some v -> (forall msg, v <> MExc ENoEndpoints msg) -> r = v).
Proof.
  unfold agentHttpCall. intro H.
  destruct can as [svc|]; [destruct rpc as [[code msg| |]|]; [destruct (Z.eqb_spec code ENoEndpoints) as [->|N]; [destruct bad|]| | |]|destruct bad];
    injection H as <- <- <-; (split; [reflexivity|]);
    (split; [split; [intro X; first [discriminate X|split; [reflexivity|eauto]]|intros (X & [Y|(ss & mm & Y & Z)]); try discriminate; try congruence; try reflexivity]|]);
    (split; [tauto|]); (split; [intros hh bb X E; first [discriminate X|rewrite E; reflexivity]|]); intros ss vv E1 E2 E3; try discriminate; try (injection E2 as <-; try reflexivity; exfalso; eapply E3; reflexivity).
Qed.
Print Assumptions C76_agent.
(* the mesh client asks by http only for paths, and only when the agent cannot be reached *)
Theorem C76_mesh service method reply rpc bad http hx r : meshCall service method reply rpc bad http = (hx, r) ->
  (hx <> [] -> In x2f method /\ exists code msg, rpc = MExc code msg /\ (code = ENoChannel \/ code = ENoEndpoints)) /\
  (hx = [] -> bad = None -> r = rpc) /\ (hx = [] \/ hx = [mkHx service method]).
Proof.
  unfold meshCall. destruct (hasSlash method) eqn:S; cbn [negb].
  - apply hasByte_spec in S. destruct rpc as [code msg| |].
    + destruct (Z.eqb_spec code ENoChannel) as [->|N1]; [|destruct (Z.eqb_spec code ENoEndpoints) as [->|N2]]; cbn [orb]; try (destruct bad);
        intro H; injection H as <- <-; repeat split; try tauto; try discriminate; try (intro X; congruence); eauto 8.
    + intro H; injection H as <- <-. repeat split; try tauto; intro X; congruence.
    + intro H; injection H as <- <-. repeat split; try tauto; intro X; congruence.
  - intro H; injection H as <- <-. repeat split; try tauto; intro X; congruence.
Qed.
Print Assumptions C76_mesh.
(* and then never gets the body: a reply of bytes or a string makes it panic *)
Theorem C76_mesh_body_refuted : forall service method reply code msg h b, In x2f method -> code = ENoChannel \/ code = ENoEndpoints ->
  snd (meshCall service method reply (MExc code msg) None (HOk h b)) = match reply with ROther => MVal h None | _ => MPanic end.
Proof.
  intros service method reply code msg h b S C. unfold meshCall. apply hasByte_spec in S. unfold hasSlash. rewrite S. cbn [negb].
  destruct C as [->|E]; [|rewrite E]; destruct reply; reflexivity.
Qed.
Print Assumptions C76_mesh_body_refuted.

Definition ex_cfg : pxcfg :=
  mkPx (s2b "default.test") [s2b "127.0.0.1:9983"; s2b "localhost:9983"]
       [(s2b "api.test", fun p => if bs_eqb p (s2b "/a") then Some (s2b "svc.a") else None); (s2b "::1", fun _ => Some (s2b "six"))].
Example C76_example :
  proxyHandle ex_cfg (mkWreq (s2b "/a") (s2b "api.test:8080") false) = ACall (s2b "api.test") (s2b "svc.a") (s2b "api.test:8080") /\
  proxyHandle ex_cfg (mkWreq (s2b "/b") (s2b "api.test") false) = AForward (s2b "api.test") /\
  proxyHandle ex_cfg (mkWreq (s2b "/b") (s2b "[::1]:80") false) = ACall (s2b "::1") (s2b "six") (s2b "[::1]:80") /\
  proxyHandle ex_cfg (mkWreq (s2b "/b") (s2b "other.test") false) = AForward (s2b "default.test") /\
  ordinary (mkWreq (s2b "/a") (s2b "api.test:8080") false) /\ names (s2b "api.test:8080") (s2b "api.test").
Proof.
  repeat (split; [vm_compute; reflexivity|]). split.
  - split; [discriminate|]. split; [reflexivity|]. eexists. reflexivity.
  - left. split; [|right; exists (s2b "8080"); split; [|reflexivity]]; repeat split; cbn; intuition discriminate.
Qed.
