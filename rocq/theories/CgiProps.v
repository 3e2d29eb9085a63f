(* CgiProps.v *)
From Verif Require Import Base GoStrings GoStrings2 Strconv UrlModel HttpModel HttpSpec HprovModel HprovSpec CgiModel CgiSpec CgiProofs.
From Coq Require Import Permutation.

(* what is sent: every variable of the environment, the body, the address; the script reads the call's arguments *)
Theorem C94_sent ord connect world u q m rest : any_order ord -> NoDup (map fst m) -> (forall k, In k (map fst m) -> plain_name k) -> NoDup (map fst (q_att q)) ->
  q_args q = DOk (ArgMap m :: rest) -> (forall h p, connect h p = None) ->
  exists c r qs l, cgiCall ord connect world u q = (Some c, r) /\ Permutation l m /\ parse_form qs = Some (id_pair q :: l)
    /\ (forall n v, envVar u (q_att q) qs n v -> aget bs_eqb (c_env c) n = v)
    /\ c_body c = (if bs_eqb (method_of u) (s2b "POST") then qs else [])
    /\ c_host c = match pget (uParams u) (s2b "CGI_HOST") with Some h => h | None => s2b "127.0.0.1" end
    /\ c_port c = match pget (uParams u) (s2b "CGI_PORT") with Some p => fst (parseInt64 p) | None => 9000%Z end.
Proof. exact (call_sent ord connect world u q m rest). Qed.
Print Assumptions C94_sent.
(* the specification of the environment speaks about every name *)
Theorem C94_env_total u att qs n : exists v, envVar u att qs n v.
Proof. exact (env_total u att qs n). Qed.
Print Assumptions C94_env_total.

(* a CGI answer is read back: body byte for byte, headers as attachments *)
Theorem C94_answer ord connect world u q c r st hs body : any_order ord -> cgiCall ord connect world u q = (Some c, r) ->
  st <> None \/ hs <> [] -> reasonOk st -> Forall fitsLine hs -> world c = CContent (cgiAnswer st hs body) ->
  exists a, r = Some a /\ r_id a = q_id q /\ r_exc a = None /\ r_val a = Some body /\ forall k, aget bs_eqb (r_att a) k = lastOf hs k.
Proof. exact (call_answer ord connect world u q c r st hs body). Qed.
Print Assumptions C94_answer.
Theorem C94_read st hs body : st <> None \/ hs <> [] -> reasonOk st -> Forall fitsLine hs ->
  exists m, parseCgi (cgiAnswer st hs body) = COk (match st with Some (n, _) => n | None => 200%Z end) m body /\ forall k, aget bs_eqb m k = lastOf hs k.
Proof. exact (answer_read st hs body). Qed.
Print Assumptions C94_read.
(* what could not be read, connected or carried out is an exception with the reason; nothing is sent in the first two cases *)
Theorem C94_failed ord connect world u q :
  (forall e, q_args q = DErr e -> exists r, cgiCall ord connect world u q = (None, Some r) /\ r_exc r = Some (503%Z, e, 503%Z) /\ r_val r = None) /\
  (forall c r e, cgiCall ord connect world u q = (Some c, r) -> world c = CErr e -> exists a, r = Some a /\ r_exc a = Some (503%Z, e, 503%Z) /\ r_val a = None) /\
  (forall r, cgiCall ord connect world u q = (None, Some r) -> exists e, r_exc r = Some (503%Z, e, 503%Z) /\ (q_args q = DErr e \/ exists h p, connect h p = Some e)).
Proof.
  unfold cgiCall. split; [|split].
  - intros e ->. eexists. split; [reflexivity|]. split; reflexivity.
  - intros c r e. destruct (q_args q); [discriminate|]. destruct (cgiBuild ord u q a) as [b|]; [|discriminate]. destruct (connect _ _); [discriminate|].
    intros E W. injection E as <- <-. rewrite W. eexists. split; [reflexivity|]. split; reflexivity.
  - intros r. destruct (q_args q) as [e|a]; [intros E; injection E as <-; exists e; split; [reflexivity|left; reflexivity]|].
    destruct (cgiBuild ord u q a) as [b|]; [|discriminate]. destruct (connect _ _) as [e|] eqn:C; [|discriminate]. intros E. injection E as <-. exists e. split; [reflexivity|right; eauto].
Qed.
Print Assumptions C94_failed.
(* an answer without an empty line is a 502; a panic needs a first line that starts with "Status:" and has no space *)
Theorem C94_no_blank_line ord connect world u q c r s : cgiCall ord connect world u q = (Some c, r) -> world c = CContent s -> (forall a b, s <> a ++ lineEnd ++ lineEnd ++ b) ->
  exists a, r = Some a /\ r_id a = q_id q /\ r_exc a = Some (502%Z, s2b "Cannot parse FastCGI Response", 502%Z).
Proof. exact (call_bad ord connect world u q c r s). Qed.
Print Assumptions C94_no_blank_line.
Theorem C94_outcomes s : (parseCgi s = CBad <-> forall a b, s <> a ++ CRLF ++ CRLF ++ b)
  /\ (parseCgi s = CPanic <-> exists a b, s = a ++ CRLF ++ CRLF ++ b /\ (forall a' b', s = a' ++ CRLF ++ CRLF ++ b' -> length a <= length a')
        /\ exists l r, splitStr CRLF a = l :: r /\ hasPrefix l (s2b "Status:") = true /\ ~ In x20 l).
Proof. exact (parse_cases s). Qed.
Print Assumptions C94_outcomes.

Definition exU (ps : strmap) : url := mkUrl (s2b "cgi") (s2b "127.0.0.1") 9982 (s2b "svc") (s2b "g") (Some ps).
Definition exQ : mreq := mkMreq 7 (s2b "hello") [(s2b "M_p", s2b "svc"); (s2b "SCRIPT_FILENAME", s2b "/etc/passwd")]
                          (DOk [ArgMap [(s2b "name", s2b "a b"); (s2b "n", s2b "1")]]) (DErr []).
Definition idOrd (m : strmap) : strmap := m.
Definition okConn (h : bs) (p : Z) : option bs := None.
(* Findings. *)
(* the status of the script is lost: an error page is an ordinary answer *)
Theorem C94_status_lost_refuted : exists u q w, snd (cgiCall idOrd okConn w u q) = Some (mkCresp 7 None [] (Some (s2b "boom"))) /\
  forall c, w c = CContent (cgiAnswer (Some (500%Z, s2b "Internal Server Error")) [] (s2b "boom")).
Proof.
  exists (exU [(s2b "CGI_REQUEST_METHOD", s2b "GET")]), exQ, (fun _ => CContent (cgiAnswer (Some (500%Z, s2b "Internal Server Error")) [] (s2b "boom"))).
  split; [vm_compute; reflexivity|reflexivity].
Qed.
Print Assumptions C94_status_lost_refuted.
(* "Status:404" panics *)
Theorem C94_status_panics_refuted : parseCgi (s2b "Status:404" ++ lineEnd ++ lineEnd ++ s2b "x") = CPanic.
Proof. vm_compute. reflexivity. Qed.
Print Assumptions C94_status_panics_refuted.
(* of two headers with one name only the last is kept *)
Theorem C94_cookies_refuted : exists m, parseCgi (cgiAnswer None [(s2b "Set-Cookie", s2b "a=1"); (s2b "Set-Cookie", s2b "b=2")] []) = COk 200 m [] /\ m = [(s2b "Set-Cookie", s2b "b=2")].
Proof. eexists. split; vm_compute; reflexivity. Qed.
Print Assumptions C94_cookies_refuted.
(* with another method, or none, the arguments are dropped *)
Theorem C94_arguments_lost_refuted : exists c r, cgiCall idOrd okConn (fun _ => CErr []) (exU [(s2b "CGI_REQUEST_METHOD", s2b "PUT")]) exQ = (Some c, r)
  /\ c_body c = [] /\ aget bs_eqb (c_env c) (s2b "QUERY_STRING") = None.
Proof. eexists _, _. split; [vm_compute; reflexivity|]. split; reflexivity. Qed.
Print Assumptions C94_arguments_lost_refuted.
(* a failed call is answered with request id 0 *)
Theorem C94_id_lost_refuted : exists r, snd (cgiCall idOrd okConn (fun _ => CErr (s2b "refused")) (exU [(s2b "CGI_REQUEST_METHOD", s2b "GET")]) exQ) = Some r
  /\ r_id r = 0%N /\ q_id exQ = 7%N.
Proof. eexists. split; [vm_compute; reflexivity|]. split; reflexivity. Qed.
Print Assumptions C94_id_lost_refuted.

(* the hypotheses hold of a call; an attachment does not choose the script *)
Example ex_cgi : (forall k, In k [s2b "name"; s2b "n"] -> plain_name k) /\
  exists c r, cgiCall idOrd okConn (fun _ => CContent (cgiAnswer (Some (404%Z, s2b "Not Found")) [(s2b "X-A", s2b "1")] (s2b "hi" ++ lineEnd ++ lineEnd ++ s2b "!")))
    (exU [(s2b "CGI_REQUEST_METHOD", s2b "POST"); (s2b "CGI_SCRIPT_FILENAME", s2b "/www/i.php")]) exQ = (Some c, Some r)
  /\ aget bs_eqb (c_env c) (s2b "SCRIPT_FILENAME") = Some (s2b "/www/i.php") /\ aget bs_eqb (c_env c) (s2b "MOTAN_SCRIPT_FILENAME") = Some (s2b "/etc/passwd")
  /\ c_body c = s2b "requestIdFromClient=7&name=a+b&n=1" /\ aget bs_eqb (c_env c) (s2b "CONTENT_LENGTH") = Some (s2b "34")
  /\ r = mkCresp 7 None [(s2b "X-A", s2b "1")] (Some (s2b "hi" ++ lineEnd ++ lineEnd ++ s2b "!")).
Proof.
  split. { intros k [<-|[<-|[]]]; unfold plain_name; repeat split; intros K; vm_compute in K; intuition discriminate. }
  eexists _, _. split; [vm_compute; reflexivity|]. repeat split.
Qed.
