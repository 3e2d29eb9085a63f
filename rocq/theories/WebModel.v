(* WebModel.v: model of the http proxy (server/httpProxyServer.go), of http calls through the agent (agent.go 740-797) and of the
   http fallback of the mesh client (meshClient.go 108-144).

   fasthttp is not modelled: a request is its path, host header, CONNECT flag, headers and form values; answers are status, head
   and body.  Which domains are configured and which paths they serve (C40) is a table of functions; the answer of an rpc
   call is an argument. *)
From Verif Require Import Base GoStrings GoStrings2.

Definition colon : byte := x3a.
(* strings.LastIndexByte *)
Fixpoint lastByte (c : byte) (s : bs) : option nat :=
  match s with
  | [] => None
  | d :: r => match lastByte c r with Some i => Some (S i) | None => if byte_eqb d c then Some 0 else None end
  end.
Fixpoint firstByte (c : byte) (s : bs) : option nat :=
  match s with [] => None | d :: r => if byte_eqb d c then Some 0 else match firstByte c r with Some i => Some (S i) | None => None end end.
Definition hasByte (c : byte) (s : bs) : bool := match firstByte c s with Some _ => true | None => false end.
(* net.SplitHostPort: the host; None = error *)
Definition splitHostPort (s : bs) : option bs :=
  match lastByte colon s with
  | None => None
  | Some i =>
      match s with
      | c :: _ =>
          if byte_eqb c x5b then
            match firstByte x5d s with
            | None => None
            | Some e =>
                if Nat.eqb (S e) (length s) then None
                else if Nat.eqb (S e) i then
                  if hasByte x5b (skipn 1 s) || hasByte x5d (skipn (S e) s) then None else Some (firstn (e - 1) (skipn 1 s))
                else None
            end
          else if hasByte colon (firstn i s) then None
          else if hasByte x5b s || hasByte x5d s then None
          else Some (firstn i s)
      | [] => None
      end
  end.

(* ---- the proxy server *)
(* what a domain serves: cluster/httpCluster.go CanServe *)
Definition serves := bs -> option bs.
Record pxcfg := mkPx { pxDefault : bs; pxDeny : list bs; pxDomains : list (bs * serves) }.
Record webreq := mkWreq { wPath : bs; wHost : bs; wConnect : bool }.
(* what is done with a request *)
Inductive pxact :=
| ARpcForm                       (* 104-107 doRPC *)
| ATunnel (host : bs)            (* 108-134 *)
| ACall (domain service host : bs) (* 151-156: an rpc call; [host] is the host header by then *)
| AReject                        (* 159-164: 400 *)
| AForward (host : bs).          (* 168 doHTTPProxy, with this host header *)
Definition cannot (cfg : pxcfg) (path hostAndPort host : bs) : pxact :=
  match path with
  | c :: _ => if byte_eqb c x2f && existsb (bs_eqb hostAndPort) (pxDeny cfg) then AReject else AForward host
  | [] => AForward host (* does not happen: fasthttp's paths start with a slash *)
  end.
(* 95-169 the handler *)
Definition withPort (h : bs) : bs := if hasByte colon h then h else h ++ s2b ":80".
Definition proxyHandle (cfg : pxcfg) (r : webreq) : pxact :=
  if bs_eqb (wPath r) (s2b "/proxy_to_rpc") then ARpcForm
  else if wConnect r then ATunnel (wHost r)
  else
    let hp := withPort (wHost r) in
    let host := match splitHostPort hp with Some h => h | None => [] end in
    let '(domain, cl, hp', hdr) :=
      match aget bs_eqb (pxDomains cfg) host with
      | Some f => (host, Some f, hp, wHost r)
      | None =>
          if bs_eqb (pxDefault cfg) [] then (host, None, hp, wHost r)
          else (pxDefault cfg, aget bs_eqb (pxDomains cfg) (pxDefault cfg), pxDefault cfg ++ s2b ":80", pxDefault cfg)
      end in
    match cl with
    | Some f => match f (wPath r) with Some svc => ACall domain svc hdr | None => cannot cfg (wPath r) hp' hdr end
    | None => cannot cfg (wPath r) hp' hdr
    end.

(* 313-355 doHTTPRpcProxy after the call: the exception or the two parts of the reply *)
Inductive part := PNil | PBytes (b : bs) | POther.
Inductive callres := CNil | CExc (code : Z) (msg : bs) | CBad (err : bs) | CReply (l : list part).
Inductive webres := WForward | WReply (head : option bs) (body : bs) | WGateway (text : bs) | WPanic.
Definition ENoEndpoints : Z := 1001.
Definition ENoChannel : Z := 1002.
Definition rpcProxyResult (c : callres) : webres :=
  match c with
  | CNil => WPanic                              (* 331: method call on nil *)
  | CExc code msg => if Z.eqb code ENoEndpoints then WForward else WGateway (s2b "err_msg: " ++ msg)
  | CBad err => WGateway (s2b "err_msg: " ++ err)
  | CReply (p0 :: p1 :: _) =>
      match p0 with
      | POther => WPanic                        (* 350: type assertion *)
      | _ => let h := match p0 with PBytes b => Some b | _ => None end in
             match p1 with POther => WPanic | PBytes b => WReply h b | PNil => WReply h [] end
      end
  | CReply _ => WPanic                          (* 349, 352: index out of range *)
  end.
(* 96-101: what a panic is answered with *)
Definition answered (w : webres) : webres := match w with WPanic => WGateway (s2b "err_msg: http proxy panic") | _ => w end.

(* 241-275 doRPC: the request it makes, or the text of a 400 answer *)
Definition MGroup := s2b "M_g".
Definition MPath := s2b "M_p".
Definition MMethod := s2b "M_m".
Definition MProxyProtocol := s2b "M_pp".
Record rpcreq := mkRpc { rqService : bs; rqMethod : bs; rqArg : bs; rqAtt : list (bs * bs) }.
Definition setA (a : list (bs * bs)) (k v : bs) : list (bs * bs) := aset bs_eqb a k v.
Definition formRpc (form : bs -> bs) (headers : list (bs * bs)) : bs + rpcreq :=
  let service := form (s2b "service") in let method := form (s2b "method") in
  if bs_eqb service [] || bs_eqb method [] then inl (s2b "service:" ++ service ++ s2b " or method:" ++ method ++ s2b " musn't be empty")
  else if negb (bs_eqb (form (s2b "arg_type")) (s2b "string")) then inl (s2b "arg_type " ++ form (s2b "arg_type") ++ s2b " not support now")
  else inr (mkRpc service method (form (s2b "arg"))
              (fold_left (fun a kv => if bs_eqb (snd kv) [] then a else setA a (fst kv) (snd kv)) headers
                 (setA (setA (setA (setA [] MGroup (form (s2b "group"))) MPath service) MMethod method) MProxyProtocol (s2b "motan2")))).
(* 276-297: the answer; VBytes etc. is the value after ProcessDeserializable *)
Definition formResult (c : callres) : webres :=
  match c with
  | CNil => WPanic
  | CExc _ msg => WGateway msg
  | CBad err => WGateway (s2b "get response body failed: " ++ err)
  | CReply (PBytes b :: _) => WReply None b
  | CReply _ => WPanic                          (* 295: type assertion *)
  end.

(* ---- calls by http through the agent, agent.go 740-797 *)
(* what an http exchange gives: an error, or head and body *)
Inductive hxres := HErr (e : bs) | HOk (headers : list (bs * bs)) (body : bs).
Inductive mres := MExc (code : Z) (msg : bs) | MVal (attachments : list (bs * bs)) (v : option bs) | MPanic.
Record hxcall := mkHx { hxHost : bs; hxPath : bs }.
(* [can] the service for the method (CanServe); [rpc] what the call of it gives (None = nil); [bad] the error of ProcessDeserializable or
   of MotanRequestToFasthttpRequest, if any; [http] what the http call gives.  With the calls made: of which service, and by http *)
Definition agentHttpCall (domain method : bs) (can : option bs) (rpc : option mres) (bad : option bs) (http : hxres)
  : list bs * list hxcall * mres :=
  let doHttp (calls : list bs) :=
    match bad with
    | Some e => (calls, [], MExc 400 e)
    | None =>
        (calls, [mkHx domain method],
         match http with HErr e => MExc 400 (s2b "do http request failed : " ++ e) | HOk h b => MVal h (Some b) end)
    end in
  match can with
  | None => doHttp []
  | Some svc =>
      match rpc with
      | None => ([svc], [], MExc 400 (s2b "httpCluster Call return nil. cluster:"))
      | Some (MExc code msg) => if Z.eqb code ENoEndpoints then doHttp [svc] else ([svc], [], MExc code msg)
      | Some r => ([svc], [], r)
      end
  end.

(* ---- the mesh client, meshClient.go 108-144 BaseCall *)
Inductive replyKind := RBytes | RString | ROther.
Definition hasSlash (m : bs) : bool := hasByte x2f m.
(* http/httpProxy.go 558-569 FasthttpResponseToMotanResponse on a MotanResponse: the headers become attachments, the body is dropped *)
Definition toMotanResponse (h : list (bs * bs)) (body : bs) : list (bs * bs) * option bs := (h, None).
Definition meshCall (service method : bs) (reply : replyKind) (rpc : mres) (bad : option bs) (http : hxres) : list hxcall * mres :=
  if negb (hasSlash method) then ([], rpc)
  else match rpc with
       | MExc code _ =>
           if Z.eqb code ENoChannel || Z.eqb code ENoEndpoints then
             match bad with
             | Some e => ([], MExc 400 e)
             | None =>
                 ([mkHx service method],
                  match http with
                  | HErr e => MExc 400 (s2b "do http request failed : " ++ e)
                  | HOk h b => let (a, v) := toMotanResponse h b in
                               match reply, v with
                               | ROther, _ => MVal a v
                               | _, Some _ => MVal a v
                               | _, None => MPanic      (* 138, 141: nil.([]byte) *)
                               end
                  end)
             end
           else ([], rpc)
       | _ => ([], rpc)
       end.
