(* HprovModel.v: provider/httpProvider.go and provider/httpxProvider.go, the providers that answer a call by making an
   http request.  The http client is a function from the request sent to what comes back; http.NewRequest, the parser
   and printer of raw http headers, and fmt.Sprintf on formats with several '%' are parameters. *)
From Verif Require Import Base GoStrings GoStrings2 Strconv UrlModel HttpModel HttpSpec.

(* ------------------------------------------------------------ configuration *)

Definition strmap := list (bs * bs).
(* section http-service: configuration id -> comma separated methods -> settings; all in iteration order.
   Values that are not strings panic in the code and are left out. *)
Definition srvSection := list (bs * list (bs * strmap)).
Definition srvMap := list (bs * list (bs * strmap)).

(* httpProvider.go 78-88, httpxProvider.go 57-68 *)
Definition loadConf (info : list (bs * strmap)) : list (bs * strmap) :=
  fold_left (fun m e => fold_left (fun m x => aset bs_eqb m x (snd e)) (trimSplit (fst e) (s2b ",")) m) info [].
(* httpProvider.go 73-91, httpxProvider.go 52-71 *)
Definition loadSrv (sec : srvSection) : srvMap :=
  fold_left (fun m e => aset bs_eqb m (fst e) (loadConf (snd e))) sec [].

Record hprov := mkHprov { p_url : url; p_srv : srvMap; p_mix : list bs; p_matcher : matcher; p_exc : bool; p_rewrite : bool;
                          p_proxy : bs; p_schema : bs; p_domain : bs; p_defMethod : bs }.
Definition boolOr (s : bs) (d : bool) : bool := match parseBool s with Some b => b | None => d end.
(* httpProvider.go 68-115 Initialize; timeouts and the clients are left out *)
Definition newHprov (u : url) (sec : srvSection) (mix : list bs) (mt : matcher) : hprov :=
  mkHprov u (loadSrv sec) mix mt
    (boolOr (getParam u (s2b "enableHttpException") (s2b "false")) false)
    (boolOr (getParam u (s2b "enableRewrite") (s2b "true")) true)
    (getParam u (s2b "proxyAddress") []) (getParam u (s2b "proxySchema") (s2b "http")) (getParam u (s2b "domain") [])
    (match pget (uParams u) (s2b "HTTP_REQUEST_METHOD") with Some m => m | None => s2b "GET" end).

(* ------------------------------------------------------------ the request *)

(* what ProcessDeserializable gives *)
Inductive deser (A : Type) := DErr (e : bs) | DOk (a : A).
Arguments DErr {A} e.
Arguments DOk {A} a.
(* [q_pair]: header and body bytes, as asked for by the transparent proxy; attachments in the order of Range *)
Record mreq := mkMreq { q_id : N; q_method : bs; q_att : strmap; q_args : deser (list harg); q_pair : deser (bs * bs) }.

(* 175-188: the settings of the method, else of http_default_motan_method, else none *)
Definition confOf (srv : srvMap) (u : url) (method : bs) : strmap :=
  match aget bs_eqb srv (pgetD (uParams u) (s2b "conf-id")) with
  | None => []
  | Some c => match aget bs_eqb c method with
              | Some s => s
              | None => match aget bs_eqb c (s2b "http_default_motan_method") with Some s => s | None => [] end
              end
  end.

Section World.
(* fmt.Sprintf(format, method) for formats with a '%' besides one "%s" *)
Variable spf : bs -> bs -> bs.
(* the order in which range visits a map *)
Variable ord : strmap -> strmap.

Definition sprintf1 (fmt method : bs) : bs :=
  match splitOn x25 fmt with
  | [a; c :: b] => if byte_eqb c x73 then a ++ method ++ b else spf fmt method
  | _ => spf fmt method
  end.
Definition countStr (s sub : bs) : nat := length (splitStr sub s) - 1.

(* httpProvider.go 170-206 buildReqURL, httpxProvider.go 74-115 buildReqURLX: url and http method, or the error *)
Definition buildReqURL (srv : srvMap) (u : url) (def : bs) (q : mreq) : (bs * bs) + bs :=
  let sc := confOf srv u (q_method q) in
  let fmt := match aget bs_eqb sc (s2b "URL_FORMAT") with Some f => f | None => pgetD (uParams u) (s2b "URL_FORMAT") end in
  let m := match aget bs_eqb sc (s2b "HTTP_REQUEST_METHOD") with Some m => m | None => def end in
  let m := match aget bs_eqb (q_att q) (s2b "HTTP_Method") with Some m => m | None => m end in
  let n := countStr fmt (s2b "%s") in
  if 1 <? n then inr (s2b "Get err URL_FORMAT: " ++ fmt)
  else if 0 <? n then inl (sprintf1 fmt (q_method q), m)
  else inl (fmt, m).

(* 224-232: variables taken from the attachments; the map of the caller is written to, which is not modelled *)
Definition mixArgs (mix : list bs) (att m : strmap) : strmap :=
  fold_left (fun m k => match aget bs_eqb m k with
                        | Some _ => m
                        | None => match aget bs_eqb att k with Some v => aset bs_eqb m k v | None => m end
                        end) mix m.

(* httpProvider.go 208-247 buildQueryStr; None = panic (212: the first argument is read before the length is checked) *)
Definition buildQueryStr (q : mreq) (args : list harg) (mix : list bs) : option bs :=
  let rid := s2b "requestIdFromClient" ++ s2b "=" ++ fmtN (q_id q) in
  match args with
  | [] => None
  | ArgNil :: _ => Some []
  | ArgMap m :: _ => Some (rid ++ formBody (ord (mixArgs mix (q_att q) m)))
  | ArgStr s :: _ => Some (rid ++ s2b "&" ++ queryEscape s)
  | ArgBytes _ :: _ | ArgOther :: _ => Some rid
  end.

(* net/url ParseQuery as of go 1.16 (';' separates too), the values in order; pieces that do not unescape are left out *)
Definition parseQuery (s : bs) : strmap :=
  flat_map (fun p => if bs_empty p then []
                     else let '(k, v) := cut x3d p in
                          match unescape k, unescape v with Some a, Some b => [(a, b)] | _, _ => [] end)
           (splitOn x26 (map (fun c => if byte_eqb c x3b then x26 else c) s)).
(* net/url Values.Encode: sorted by key, values of a key in order *)
Fixpoint insertKV (x : bs * bs) (l : strmap) : strmap :=
  match l with [] => [x] | y :: r => if bs_leb (fst x) (fst y) then x :: l else y :: insertKV x r end.
Definition sortKV (l : strmap) : strmap := fold_right insertKV [] l.
Definition encodeForm (l : strmap) : bs :=
  joinWith x26 (map (fun kv => queryEscape (fst kv) ++ x3d :: queryEscape (snd kv)) (sortKV l)).

(* ------------------------------------------------------------ headers *)

Definition isTokenByte (c : byte) : bool :=
  let n := b2n c in
  (N.leb 48 n && N.leb n 57) || (N.leb 97 n && N.leb n 122) || (N.leb 65 n && N.leb n 90)
  || existsb (byte_eqb c) (s2b "!#$%&'*+-.^_`|~").
Definition upper (c : byte) : byte := if (N.leb 97 (b2n c) && N.leb (b2n c) 122)%N then n2b (b2n c - 32) else c.
Definition lower (c : byte) : byte := if (N.leb 65 (b2n c) && N.leb (b2n c) 90)%N then n2b (b2n c + 32) else c.
Fixpoint title (up : bool) (s : bs) : bs :=
  match s with [] => [] | c :: r => (if up then upper c else lower c) :: title (byte_eqb c x2d) r end.
(* net/textproto CanonicalMIMEHeaderKey; fasthttp's normalizeHeaderKey is [title true] *)
Definition canonKey (s : bs) : bs := if forallb isTokenByte s then title true s else s.
Definition XFF := s2b "X-Forwarded-For".

(* 398: every M_ becomes MOTAN- *)
Definition headerName (k : bs) : bs := replaceAll (s2b "M_") (s2b "MOTAN-") k.
(* net/http Header.Get *)
Definition headerGet (hs : strmap) (k : bs) : bs :=
  match find (fun h => bs_eqb (canonKey (fst h)) (canonKey k)) hs with Some h => snd h | None => [] end.
(* 462-467: the address given as the client's *)
Definition clientIp (att : strmap) : bs :=
  match aget bs_eqb att (s2b "remoteIP") with Some ip => ip | None => pgetD (Some att) (s2b "host") end.

(* ------------------------------------------------------------ what is sent and what comes back *)

(* an http request: built from a URL; converted from the motan request; or the raw one carried by the motan request *)
Inductive sent :=
| SFormat (method url : bs) (headers : strmap) (body : option bs)
| SProxy (r : httpReq) (schema path : bs) (host : option bs) (xff : option bs)
| STransparent (header : bs) (calls : list hcall) (schema path : bs) (xff : option bs) (body : bs).
Inductive wres := WErr (e : bs) | WResp (status : Z) (headers : strmap) (body : bs) (readErr : option bs).
Inductive hval := HvNone | HvStr (s : bs) | HvBytes (b : bs) | HvPair (h b : bs).
Record hresp := mkHresp { a_id : N; a_exc : option (Z * bs * Z); a_att : strmap; a_val : hval }.

Variable newReq : bs -> bs -> option bs.          (* http.NewRequest: the error, if any *)
Variable world : sent -> wres.                    (* the http client's Do, and reading the body *)
Variable hasXff : bs -> bool.                     (* does the raw header have X-Forwarded-For *)
Variable rawHeader : Z -> strmap -> bs.           (* Header.WriteTo *)
Variable queryOf : sent -> bs.                    (* URI().QueryString() *)
Variable qget : bs -> bs -> bs.                   (* url.ParseQuery(query).Get(name) *)

Definition BizException : Z := 2.
Definition setAll (l : strmap) (m : strmap) : strmap := fold_left (fun m kv => aset bs_eqb m (fst kv) (snd kv)) l m.
Definition upstream (status : Z) (m : strmap) : strmap := aset bs_eqb m (s2b "upstreamCode") (fmtZ status).
(* 518-530 fillHttpException *)
Definition fails (q : mreq) (code : Z) (msg : bs) : hresp := mkHresp (q_id q) (Some (code, msg, BizException)) [] HvNone.

(* 381-389: arguments go into the URL of a GET and the body of a POST *)
Definition place (m url qs : bs) : bs * option bs :=
  if bs_eqb m (s2b "GET") then (url ++ s2b "?" ++ qs, None)
  else if bs_eqb m (s2b "POST") then (url, Some (encodeForm (parseQuery qs)))
  else (url, None).

(* 362-456 DoFormatURLQuery; None = panic *)
Definition doFormat (p : hprov) (q : mreq) (ip : bs) : list sent * option hresp :=
  match q_args q with
  | DErr e => ([], Some (fails q 400 e))
  | DOk args =>
      match buildReqURL (p_srv p) (p_url p) (p_defMethod p) q with
      | inr e => ([], Some (fails q 503 e))
      | inl (url0, m) =>
          match buildQueryStr q args (p_mix p) with
          | None => ([], None)
          | Some qs =>
              let '(url, body) := place m url0 qs in
              match newReq m url with
              | Some e => ([], Some (fails q 503 e))
              | None =>
                  let hs := (s2b "Content-Type", s2b "application/x-www-form-urlencoded")
                            :: map (fun kv => (headerName (fst kv), snd kv)) (q_att q) in
                  let hs := if bs_empty (headerGet hs XFF) then hs ++ [(XFF, ip)] else hs in
                  let s := SFormat m url hs body in
                  ([s], Some (match world s with
                              | WErr e => fails q 503 e
                              | WResp st _ _ (Some e) => mkHresp (q_id q) (Some (st, e, 503%Z)) [] HvNone
                              | WResp st h b None =>
                                  if p_exc p && (400 <=? st)%Z then fails q st b
                                  else mkHresp (q_id q) None (upstream st (setAll h (setAll (q_att q) []))) (HvStr b)
                              end))
              end
          end
      end
  end.

(* 154-168 rewrite; the query string is looked at only if a rule needs it *)
Definition rewritePath (p : hprov) (q : mreq) (query : bs) : option bs :=
  if p_rewrite p then
    let query := if m_query (p_matcher p) then query else [] in
    match pick (p_matcher p) (q_method q) query (qget query) true with Some (_, path) => Some path | None => None end
  else Some (q_method q).

Definition lastHost (cs : list hcall) : bs :=
  fold_left (fun h c => match c with HHost v => v | _ => h end) cs [].
(* fasthttp's Peek: is there such a header *)
Definition callsName (cs : list hcall) (k : bs) : bool :=
  existsb (fun c => match c with HSet n _ => bs_eqb (title true n) k | _ => false end) cs.

(* 312-359 DoProxy; the name of the Go type at the end of one error message is left out *)
Definition doProxy (p : hprov) (q : mreq) (ip : bs) : list sent * option hresp :=
  match q_args q with
  | DErr e => ([], Some (fails q 400 e))
  | DOk args =>
      match toHttp (q_att q) args (p_defMethod p) with
      | HManyArgs => ([], Some (fails q 400 (s2b "http rpc only support one parameter")))
      | HBadArg => ([], Some (fails q 400 (s2b "http rpc unsupported parameter type: ")))
      | HOk r =>
          match rewritePath p q (queryOf (SProxy r [] [] None None)) with
          | None => ([], Some (fails q 404 (s2b "service not found")))
          | Some path =>
              let s := SProxy r (p_schema p) path
                         (if bs_empty (lastHost (h_calls r)) then Some (p_domain p) else None)
                         (if callsName (h_calls r) XFF then None else Some ip) in
              ([s], Some (match world s with
                          | WErr e => fails q 503 e
                          | WResp st h b _ =>
                              if p_exc p && (400 <=? st)%Z then fails q st b
                              else mkHresp (q_id q) None (upstream st (setAll h [])) (HvBytes b)
                          end))
          end
      end
  end.

(* 249-309 DoTransparentProxy *)
Definition doTransparent (p : hprov) (q : mreq) (ip : bs) : list sent * option hresp :=
  match q_pair q with
  | DErr e => ([], Some (fails q 400 e))
  | DOk (hb, body) =>
      match rewritePath p q (queryOf (STransparent hb [] [] [] None [])) with
      | None => ([], Some (fails q 404 (s2b "service not found")))
      | Some path =>
          let calls := flat_map (fun kv => match aget bs_eqb innerNames (fst kv) with Some k => [HSet k (snd kv)] | None => [] end) (q_att q) in
          let s := STransparent hb calls (p_schema p) path (if hasXff hb then None else Some ip) body in
          ([s], Some (match world s with
                      | WErr e => fails q 503 e
                      | WResp st h b _ =>
                          if p_exc p && (400 <=? st)%Z then fails q st b
                          else mkHresp (q_id q) None (upstream st []) (HvPair (rawHeader st h) b)
                      end))
      end
  end.

(* 459-476 Call *)
Definition httpCall (p : hprov) (q : mreq) : list sent * option hresp :=
  let ip := clientIp (q_att q) in
  if boolOr (pgetD (Some (q_att q)) (s2b "HTTP_PROXY")) false then doTransparent p q ip
  else if bs_empty (p_proxy p) then doFormat p q ip
  else doProxy p q ip.

(* httpxProvider.go 133-217 Call *)
Definition httpxCall (p : hprov) (q : mreq) : list sent * option hresp :=
  let failx (id : N) (e : bs) := mkHresp id (Some (503%Z, e, 503%Z)) [] HvNone in
  match q_args q with
  | DErr e => ([], Some (failx 0%N e))
  | DOk args =>
      match buildReqURL (p_srv p) (p_url p) (p_defMethod p) q with
      | inr e => ([], Some (failx (q_id q) e))
      | inl (url0, m) =>
          match buildQueryStr q args (p_mix p) with
          | None => ([], None)
          | Some qs =>
              let '(url, body) := place m url0 qs in
              let hs := (if bs_eqb m (s2b "POST") then [(s2b "Content-Type", s2b "application/x-www-form-urlencoded")] else [])
                        ++ filter (fun h => negb (bs_eqb (fst h) (s2b "host"))) (map (fun kv => (headerName (fst kv), snd kv)) (q_att q)) in
              let hs := if existsb (fun h => bs_eqb (title true (fst h)) XFF) hs then hs else hs ++ [(XFF, clientIp (q_att q))] in
              let s := SFormat m url hs body in
              ([s], Some (match world s with
                          | WErr e => failx (q_id q) e
                          | WResp st h b _ => mkHresp (q_id q) None (setAll h (setAll (q_att q) [])) (HvStr b)
                          end))
          end
      end
  end.
End World.
