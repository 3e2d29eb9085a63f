(* MsModel.v: the server context of server.go: RegisterService, Start, export, canShareChannel, ServicesAvailable,
   ServicesUnavailable, with DefaultExporter.Export (ServerModel.v) and the part of MotanServer.Open that chooses the address.

   Left out: reading the configuration file (CtxModel.v, ConfModel.v), logging, the filters around a provider (FilterModel.v), the
   retrying of failed registrations (MgModel.v).  Start ranges over a Go map: the order is a parameter.  Start holds csync; the
   calls of this file are whole steps (a program that changes availability while Start still writes m.registries, without the
   lock of the former, is outside this model). *)
From Verif Require Import Base Strconv GoStrings GoStrings2 UrlModel ServerModel.

(* where a server listens: server/motanserver.go 79-96 *)
Inductive laddr := Unix (path : bs) | Tcp (host : bs) (port : Z).

(* a service implementation is named by a number.  [m_ok]: Open returned no error, hence the handler is set
   (motanserver.go 82, 92 return before 97); [m_owner]: the service whose url is the server's; [m_table]: the handler's
   providers by path: service and implementation *)
Record msrv := mkSrv { m_owner : bs; m_ok : bool; m_table : list (bs * (bs * nat)) }.

Inductive mev :=
| Listen (a : laddr) (ok : bool)
| Register (reg : bs) (u : url)
| Avail (reg : bs) | Unavail (reg : bs).

(* server.go 23-35 MSContext: ServiceURLs by key (changed in place), serviceImpls, portServer, registries (in the order of
   their first use), status; [c_log]: what was done *)
Record mst := mkMst { c_urls : list (bs * url); c_impls : list (bs * nat); c_servers : list (bs * msrv); c_regs : list (bs * nat);
                      c_status : Z; c_log : list mev }.
(* server.go 197-208 Initialize *)
Definition minit (urls : list (bs * url)) : mst := mkMst urls [] [] [] 0 [].

(* the environment: the local address, provider and server names known to the factories, registries by name with the meta
   information of the process, and the identities of the registries *)
Record menv := mkMenv { v_ip : bs; v_prov : bs -> bool; v_srv : bs -> bool; v_x : xenv; v_rid : nat -> bs }.

Definition setUrl s k u := mkMst (aset bs_eqb (c_urls s) k u) (c_impls s) (c_servers s) (c_regs s) (c_status s) (c_log s).
Definition setServer s k v := mkMst (c_urls s) (c_impls s) (aset bs_eqb (c_servers s) k v) (c_regs s) (c_status s) (c_log s).
Definition say s e := mkMst (c_urls s) (c_impls s) (c_servers s) (c_regs s) (c_status s) (c_log s ++ e).

(* 214-245 RegisterService: nil, a value, a nil pointer (whose Elem has no Type: a panic) or a pointer with the name of its type *)
Inductive marg := ANil | AValue | ANilPtr | APtr (impl : nat) (type : bs).
Inductive mres := ROk | RNil | RNotPtr | RPanic | RNoConfig.
Definition registerService (s : mst) (a : marg) (sid : bs) : mst * mres :=
  match a with
  | ANil => (s, RNil)
  | AValue => (s, RNotPtr)
  | ANilPtr => (s, RPanic)
  | APtr im type =>
      let ref := if bs_empty sid then type else sid in
      if existsb (fun ku : bs * url => match uParams (snd ku) with Some _ => bs_eqb ref (pgetD (uParams (snd ku)) (s2b "ref")) | None => false end) (c_urls s)
      then (mkMst (c_urls s) (aset bs_eqb (c_impls s) ref im) (c_servers s) (c_regs s) (c_status s) (c_log s), ROk)
      else (s, RNoConfig)
  end.

(* 122-135: protocol and port as written *)
Definition exportText (u : url) : bs * bs :=
  let e := getParam u (s2b "export") [] in
  if bs_empty e then (s2b "motan2", s2b "9982")
  else match trimSplit e (s2b ":") with
       | [p] => (s2b "motan2", p)
       | [a; p] => (if bs_empty a then s2b "motan2" else a, p)
       | _ => (s2b "motan2", s2b "9982")
       end.

(* 137-153: the key of the server and the port *)
Definition serverKey (u : url) (port : bs) : option (bs * Z) :=
  if hasPrefix (getParam u (s2b "proxy.host") []) (s2b "unix://") then Some (getParam u (s2b "proxy.host") [], 0%Z)
  else if negb (bs_empty (getParam u (s2b "unixSock") [])) then Some (getParam u (s2b "unixSock") [], 0%Z)
  else match parseInt64 port with (z, NumOk) => Some (port, z) | _ => None end.

(* core/motan.go 828-842 GetProvider: the name looked up *)
Definition providerName (u : url) : bs :=
  if negb (bs_empty (getParam u (s2b "provider") [])) then getParam u (s2b "provider") []
  else if negb (bs_empty (getParam u (s2b "proxy") [])) then fst (fst (parseExportInfo (getParam u (s2b "proxy") [])))
  else s2b "default".

(* server/motanserver.go 79-96, registry/registry.go 137-144 IsAgent *)
Definition listenAddr (u : url) : laddr :=
  if negb (bs_empty (getParam u (s2b "unixSock") [])) then Unix (getParam u (s2b "unixSock") [])
  else Tcp (if bs_eqb (pgetD (uParams u) (s2b "nodeType")) (s2b "agent") then uHost u else []) (uPort u).

(* 302-310 canShareChannel *)
Definition canShare (u1 u2 : url) : bool :=
  if negb (bs_eqb (uProtocol u1) (uProtocol u2)) then false
  else isSame (uParams u1) (uParams u2) (s2b "serialization") [].

(* 182-193: Export changes the url in place and registers; the registries are remembered by identity, the first one stays *)
Definition keepReg (V : menv) (m : list (bs * nat)) (r : nat) : list (bs * nat) :=
  match aget bs_eqb m (v_rid V r) with Some _ => m | None => aset bs_eqb m (v_rid V r) r end.
Definition evOf (V : menv) (c : rcall) : list mev := match c with Reg r u => [Register (v_rid V r) u] | _ => [] end.
Definition doExport (V : menv) (s : mst) (k : bs) (u : url) : mst :=
  let (e, r) := export (v_x V) (initExp (Some u)) in
  let s1 := say (setUrl s k (match e_url e with Some u' => u' | None => u end)) (flat_map (evOf V) (e_log e)) in
  match r with
  | XOk => mkMst (c_urls s1) (c_impls s1) (c_servers s1) (fold_left (keepReg V) (e_regs e) (c_regs s1)) (c_status s1) (c_log s1)
  | _ => s1
  end.

(* 117-195 export of the service [k]; [lis]: whether the listening succeeds.  A nil provider (159-160), a nil server (170, 174) and
   the nil handler of a server that could not listen (177) are panics, recovered at 118: the url keeps what was assigned before. *)
Definition exportOne (V : menv) (lis : bs -> bool) (s : mst) (k : bs) : mst :=
  match aget bs_eqb (c_urls s) k with
  | None => s
  | Some u =>
      match aget bs_eqb (c_impls s) (pgetD (uParams u) (s2b "ref")) with
      | None => s
      | Some im =>
          let (protocol, port) := exportText u in
          match serverKey u port with
          | None => setUrl s k (mkUrl protocol (uHost u) (uPort u) (uPath u) (uGroup u) (uParams u))
          | Some (key, z) =>
              let u2 := mkUrl protocol (if bs_empty (uHost u) then v_ip V else uHost u) z (uPath u) (uGroup u) (uParams u) in
              let s2 := setUrl s k u2 in
              if negb (v_prov V (providerName u2)) then s2
              else match aget bs_eqb (c_servers s2) key with
                   | None =>
                       if negb (v_srv V protocol) then s2
                       else
                         let ok := lis k in
                         let sv := mkSrv k ok (if ok then [(uPath u2, (k, im))] else []) in
                         doExport V (say (setServer s2 key sv) [Listen (listenAddr u2) ok]) k u2
                   | Some sv =>
                       match aget bs_eqb (c_urls s2) (m_owner sv) with
                       | None => s2
                       | Some u0 =>
                           if canShare u2 u0 then
                             if m_ok sv then doExport V (setServer s2 key (mkSrv (m_owner sv) true (aset bs_eqb (m_table sv) (uPath u2) (k, im)))) k u2
                             else s2
                           else s2
                       end
                   end
          end
      end
  end.

(* 97-109 Start, ranging over the services in the order [ord] *)
Definition start (V : menv) (lis : bs -> bool) (ord : list bs) (s : mst) : mst := fold_left (exportOne V lis) ord s.

(* 312-328, 247-262: the registries are told in the order [ord]; [pan]: the call panics, which ends the loop (recovered) *)
Fixpoint tell (f : bs -> mev) (pan : bs -> bool) (ord : list bs) : list mev :=
  match ord with [] => [] | r :: l => f r :: (if pan r then [] else tell f pan l) end.
Definition setStatus s z := mkMst (c_urls s) (c_impls s) (c_servers s) (c_regs s) z (c_log s).
Definition servicesAvailable (pan : bs -> bool) (ord : list bs) (s : mst) : mst := say (setStatus s 200) (tell Avail pan ord).
Definition servicesUnavailable (pan : bs -> bool) (ord : list bs) (s : mst) : mst := say (setStatus s 503) (tell Unavail pan ord).
