(* RhModel.v: the http interface through which services and subscriptions are given to a running agent (dynamicConfig.go 211-438 and
   agent.go 122-132): from the body of a request to the URLs that are registered, unregistered or subscribed.

   Parameters: json.Unmarshal (the body is the URL it gives, None an error), url.QueryUnescape, the order in which the registries of the
   configuration and a set of filters are met, and the local address.  Registering itself is DynModel.v; as it returns no error (82-108, 110-128,
   148-160) the answers 500 of 365, 384 and 402 are not given. *)
From Verif Require Import Base Strconv GoStrings GoStrings2 UrlModel CtxModel.

Definition putP (u : url) (k v : bs) : url := withParams u (pset (uParams u) k v).
Definition withGrp (u : url) (g : bs) : url := mkUrl (uProtocol u) (uHost u) (uPort u) (uPath u) g (uParams u).
Definition withHostPort (u : url) (h : bs) (p : Z) : url := mkUrl (uProtocol u) h p (uPath u) (uGroup u) (uParams u).
Definition ProxyRegistryKey := s2b "proxyRegistry".
Definition ProxyRegistryUrlString := s2b "proxyRegistryUrlString".
Definition RegKey := s2b "registry".
Definition ProxyKeyP := s2b "proxy".
Definition ExportKeyP := s2b "export".
Definition AppKey := s2b "application".
Definition GrpKey := s2b "group".

(* 238-253: [env] is the environment variable, "" when not set; core/url.go 314-322 Copy *)
Definition reqURLs (env : bs) (u : url) : list url :=
  map (fun g => withGrp (withParams u (Some (match uParams u with Some m => m | None => [] end))) g)
      (slicesUnique (trimSplit (withEnvGroup env (uGroup u)) (s2b ","))).

(* 288 *)
Definition regText (r : url) : bs := uProtocol r ++ s2b "://" ++ uHost r ++ s2b ":" ++ fmtZ (uPort r).
(* 433-438 *)
Definition regEquals (a b : url) : bool := bs_eqb (uProtocol a) (uProtocol b) && bs_eqb (uHost a) (uHost b) && (uPort a =? uPort b)%Z.
(* 287-293, 303-309: the first registry met; "" is none *)
Definition firstReg (p : url -> bool) (regs : list (bs * url)) : bs := match find (fun e => p (snd e)) regs with Some e => fst e | None => [] end.
(* 283-314 *)
Definition findRegistry (unesc : bs -> option bs) (regs : list (bs * url)) (u : url) : bs :=
  let pr := getParam u ProxyRegistryKey [] in
  let id := if bs_eqb pr [] then [] else firstReg (fun r => bs_eqb (regText r) pr) regs in
  if negb (bs_eqb id []) then id
  else
    let ps := getParam u ProxyRegistryUrlString [] in
    if bs_eqb ps [] then []
    else match unesc ps with
         | None => []
         | Some t => match fromExtInfo t with Some x => firstReg (regEquals x) regs | None => [] end
         end.
(* 321-330 *)
Definition afPrefix := s2b "af_".
Definition agentFilters (u : url) : list bs :=
  flat_map (fun f => if hasPrefix f afPrefix && negb (bs_eqb f afPrefix) then [trimSpace (skipn (length afPrefix) f)] else [])
           (trimSplit (getParam u FilterKey []) (s2b ",")).
Record renv := mkRenv {
  re_group : bs;                     (* MESH_SERVICE_ADDITIONAL_GROUP *)
  re_filters : bs;                   (* the environment variable of the global filters *)
  re_ext : list bs;                  (* GetRelevantFilters *)
  re_agent : url; re_eport : Z; re_ip : bs
}.
(* 278-351; 279-282 with delete from a map that is never nil after Copy; the order of the set of filters is [ord] *)
Definition parseURL (unesc : bs -> option bs) (v : renv) (regs : list (bs * url)) (ord : list bs -> list bs) (u : url) : option url :=
  let u0 := match uGroup u with
            | [] => withParams (withGrp u (getParam u GrpKey [])) (match uParams u with Some m => Some (adel bs_eqb m GrpKey) | None => None end)
            | _ => u
            end in
  let id := findRegistry unesc regs u0 in
  if bs_eqb id [] then None
  else
    let u1 := putP u0 RegKey id in
    let fs := joinStr (s2b ",") (agentFilters u1) in
    let u2 := if bs_eqb fs [] then u1 else putP u1 FilterKey fs in
    Some (cUrl (setFilters ord (Some (re_agent v)) (re_filters v) (re_ext v) (fresh u2))).
(* 256-276: the first error ends it *)
Fixpoint parseURLs (unesc : bs -> option bs) (v : renv) (regs : list (bs * url)) (ord : list bs -> list bs) (us : list url) : option (list url) :=
  match us with
  | [] => Some []
  | u :: r => match parseURL unesc v regs ord u with
              | None => None
              | Some u' => match parseURLs unesc v regs ord r with Some r' => Some (u' :: r') | None => None end
              end
  end.
(* agent.go 122-132 *)
Definition initProxyServiceURL (v : renv) (u : url) : url :=
  let '(protocol, port, _) := parseExportInfo (getParam u ExportKeyP []) in
  let u1 := mkUrl protocol (re_ip v) port (uPath u) (uGroup u) (uParams u) in
  if bs_eqb (getParam u1 AppKey []) [] then putP u1 AppKey (getParam (re_agent v) AppKey []) else u1.
(* 360-362, 379-381 *)
Definition serviceURL (v : renv) (u : url) : url :=
  let u1 := putP u ProxyKeyP (uProtocol u ++ s2b ":" ++ fmtZ (uPort u)) in
  initProxyServiceURL v (putP u1 ExportKeyP (uProtocol u1 ++ s2b ":" ++ fmtZ (re_eport v))).

Inductive rcall := CRegister (u : url) | CUnregister (u : url) | CSubscribe (u : url).
(* 353-407; the answer's code and what was called *)
Definition change (unesc : bs -> option bs) (v : renv) (regs : list (bs * url)) (ord : list bs -> list bs) (body : option url) (f : url -> rcall) : Z * list rcall :=
  match body with
  | None => (400%Z, [])
  | Some b => match parseURLs unesc v regs ord (reqURLs (re_group v) b) with
              | None => (400%Z, [])
              | Some us => (200%Z, map f us)
              end
  end.
(* 211-227: [uri] is the request line's, with its query *)
Definition serveDynamic (unesc : bs -> option bs) (v : renv) (regs : list (bs * url)) (ord : list bs -> list bs) (uri : bs) (body : option url) : Z * list rcall :=
  if bs_eqb uri (s2b "/registry/register") then change unesc v regs ord body (fun u => CRegister (serviceURL v u))
  else if bs_eqb uri (s2b "/registry/unregister") then change unesc v regs ord body (fun u => CUnregister (serviceURL v u))
  else if bs_eqb uri (s2b "/registry/subscribe") then change unesc v regs ord body (fun u => CSubscribe (withHostPort u [] 0))
  else if bs_eqb uri (s2b "/registry/list") || bs_eqb uri (s2b "/registry/info") then (200%Z, [])
  else (404%Z, []).
