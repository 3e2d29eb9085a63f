(* CgiModel.v: provider/cgiProvider.go, the provider that answers a call by asking a FastCGI server.  The FastCGI client
   is a function from what is sent to what comes back; the times of the responses are left out. *)
From Verif Require Import Base GoStrings GoStrings2 Strconv UrlModel HttpModel HttpSpec HprovModel MetricModel.

Definition CRLF : bs := [x0d; x0a].
(* outcome of ParseFastCgiResponse: an index out of range; the error; status, headers and body *)
Inductive cparse := CPanic | CBad | COk (status : Z) (headers : strmap) (body : bs).
(* cgiProvider.go:149-163: the headers, in the order of the lines *)
Definition cgiHeaders (lines : list bs) : strmap :=
  fold_left (fun m line => match cutAt x3a line with
                           | None => m
                           | Some (k, v) => if bs_eqb k (s2b "Status") then m else aset bs_eqb m k (trimSpace v)
                           end) lines [].
(* 144-147: strings.SplitN(first, " ", 3)[1] is the second piece of a full split; None = index out of range *)
Definition cgiStatus (first : bs) : option Z :=
  if hasPrefix first (s2b "Status:")
  then match nth_error (splitOn x20 first) 1 with Some n => Some (fst (parseInt64 n)) | None => None end
  else Some 200%Z.
(* 130-166 ParseFastCgiResponse *)
Definition parseCgi (s : bs) : cparse :=
  match indexOf s (CRLF ++ CRLF) with
  | None => CBad
  | Some i =>
      let lines := splitStr CRLF (firstn i s) in
      match cgiStatus (match lines with l :: _ => l | [] => [] end) with
      | None => CPanic
      | Some st => COk st (cgiHeaders lines) (skipn (i + 4) s)
      end
  end.

(* 26-27 *)
Definition neededEnv : list bs := [s2b "REQUEST_METHOD"; s2b "SCRIPT_FILENAME"; s2b "DOCUMENT_ROOT"].
(* 60-79: before the arguments *)
Definition baseEnv (u : url) (att : strmap) : strmap :=
  let e0 := aset bs_eqb [] (s2b "SERVER_SOFTWARE") (s2b "Motan / CGI") in
  let e1 := fold_left (fun e k => match pget (uParams u) (s2b "CGI_" ++ k) with Some v => aset bs_eqb e k v | None => e end) neededEnv e0 in
  fold_left (fun e kv => aset bs_eqb e (s2b "MOTAN_" ++ fst kv) (snd kv)) att e1.
Record csent := mkCsent { c_host : bs; c_port : Z; c_env : strmap; c_body : bs }.
(* the FastCGI client: New and Request *)
Inductive cworld := CErr (e : bs) | CContent (s : bs).
Record cresp := mkCresp { r_id : N; r_exc : option (Z * bs * Z); r_att : strmap; r_val : option bs }.
(* httpProvider.go:518-534 fillException: the id of the response is not set *)
Definition cgiFail (e : bs) : cresp := mkCresp 0 (Some (503%Z, e, 503%Z)) [] None.

Section World.
Variable ord : strmap -> strmap.                   (* the order in which range visits a map *)
Variable connect : bs -> Z -> option bs.           (* cgi.New: the error, if any *)
Variable world : csent -> cworld.                  (* Request *)

(* 81-100: the environment and the body; None = panic in buildQueryStr, which asks for its first argument *)
Definition cgiBuild (u : url) (q : mreq) (args : list harg) : option csent :=
  let env := baseEnv u (q_att q) in
  let host := match pget (uParams u) (s2b "CGI_HOST") with Some h => h | None => s2b "127.0.0.1" end in
  let port := match pget (uParams u) (s2b "CGI_PORT") with Some p => fst (parseInt64 p) | None => 9000%Z end in
  let m := match aget bs_eqb env (s2b "REQUEST_METHOD") with Some m => m | None => [] end in
  if bs_eqb m (s2b "GET") then
    match buildQueryStr ord q args [] with
    | None => None
    | Some qs => Some (mkCsent host port (aset bs_eqb env (s2b "QUERY_STRING") qs) [])
    end
  else if bs_eqb m (s2b "POST") then
    match buildQueryStr ord q args [] with
    | None => None
    | Some qs => Some (mkCsent host port (aset bs_eqb (aset bs_eqb env (s2b "CONTENT_TYPE") (s2b "application/x-www-form-urlencoded"))
                                               (s2b "CONTENT_LENGTH") (fmtN (N.of_nat (length qs)))) qs)
    end
  else Some (mkCsent host port env []).
(* 50-128 Call: what is sent, and the response; None = panic *)
Definition cgiCall (u : url) (q : mreq) : option csent * option cresp :=
  match q_args q with
  | DErr e => (None, Some (cgiFail e))
  | DOk args =>
      match cgiBuild u q args with
      | None => (None, None)
      | Some c =>
          match connect (c_host c) (c_port c) with
          | Some e => (None, Some (cgiFail e))
          | None =>
              (Some c, match world c with
                       | CErr e => Some (cgiFail e)
                       | CContent s =>
                           match parseCgi s with
                           | CPanic => None
                           | CBad => Some (mkCresp (q_id q) (Some (502%Z, s2b "Cannot parse FastCGI Response", 502%Z)) [] None)
                           | COk _ hs b => Some (mkCresp (q_id q) None (setAll (ord hs) []) (Some b))
                           end
                       end)
          end
      end
  end.
End World.
