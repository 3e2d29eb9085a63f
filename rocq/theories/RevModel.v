(* RevModel.v: provider/motanProvider.go (reverse proxy to a motan service), provider/metaProvider.go,
   endpoint/localEndpoint.go, registry/localRegistry.go and the table of local providers, core/motan.go 1237-1250. *)
From Verif Require Import Base GoStrings GoStrings2 Strconv ProtoModel ConvModel UrlModel V1Model ServerModel.

(* ------------------------------------------------------------ motanProvider.go *)

Record rprov := mkRprov { r_url : url; r_ep : option curl; r_avail : bool }.
Definition newMotanProvider (u : url) : rprov := mkRprov u None false.

(* motanProvider.go 51-56: set a parameter that is missing or empty *)
Definition putIfEmpty (c : curl) (k v : bs) : curl := if bs_empty (getParam (cUrl c) k []) then UrlModel.putParam c k v else c.
(* 44-57: the url of the endpoint; the fields are assigned on the copy *)
Definition backendUrl (u : url) (protocol : bs) (port : Z) : curl :=
  let c := copyUrl (fresh u) in
  let c := mkCurl (mkUrl protocol (getParam u (s2b "proxy.host") (s2b "127.0.0.1")) port (uPath (cUrl c)) (uGroup (cUrl c)) (uParams (cUrl c)))
                  (cAddress c) (cPortStr c) (cIdentity c) (cHasMethod c) (cInt c) in
  putIfEmpty (putIfEmpty c (s2b "connectRetryInterval") (s2b "5000")) (s2b "errorCountThreshold") (s2b "0").
(* 33-66 Initialize; [known]: protocols the extension factory has an endpoint for *)
Definition initMotan (known : bs -> bool) (p : rprov) : rprov :=
  let '(protocol, port, err) := parseExportInfo (getParam (r_url p) (s2b "proxy") []) in
  if err then p
  else if (port <=? 0)%Z then p
  else let e := backendUrl (r_url p) protocol port in
       if known protocol then mkRprov (r_url p) (Some e) true else mkRprov (r_url p) None (r_avail p).
(* 108-110 IsAvailable; [up]: the endpoint is available *)
Definition rAvailable (p : rprov) (up : bool) : bool := r_avail p && (match r_ep p with Some _ => up | None => false end).

(* 68-80 Call: the endpoint is called with these attachments and its answer returned, or an exception *)
Inductive rans := Forward (e : curl) (att : list (bs * bs)) | Refuse (id : N) (x : exc).
Definition callMotan (p : rprov) (up : bool) (att : list (bs * bs)) : option rans :=
  if rAvailable p up then
    match r_ep p with
    | Some e =>
        let att := if bs_empty (loadOrEmpty att (s2b "x-forwarded-for")) && bs_empty (loadOrEmpty att (s2b "X-Forwarded-For"))
                   then aset bs_eqb att (s2b "x-forwarded-for") (loadOrEmpty att (s2b "host")) else att in
        Some (Forward e att)
    | None => None
    end
  else Some (Refuse 0 (mkExc 503 (s2b "reverse proxy call err: motanProvider is unavailable") 503)).
(* 104-106 Destroy; None = panic *)
Definition destroyMotan (p : rprov) : option curl := r_ep p.

(* ------------------------------------------------------------ metaProvider.go 13-36 *)

(* request id, is it motan1, the serialized dynamic meta (None: failed) -> id, value or exception *)
Definition metaCall (id : N) (v1 : bool) (ser : option bs) : N * (bs + exc) :=
  if v1 then (0%N, inr (mkExc 500 (s2b "meta provider not support motan1 protocol") 0))
  else match ser with
       | None => (0%N, inr (mkExc 500 (s2b "meta provider serialize fail") 0))
       | Some b => (id, inl b)
       end.

(* ------------------------------------------------------------ local providers *)

(* providers are named by numbers; [l_url]: the url a provider was last given; endpoints in order of creation *)
Record lstate := mkL { l_reg : list (bs * nat); l_url : list (nat * url); l_eps : list (url * option nat) }.
Definition initL : lstate := mkL [] [] [].
Inductive lop := LRegister (service : bs) (p : nat) | LRefer (u : url).
(* core/motan.go 1239-1241 RegistLocalProvider; localEndpoint.go 23-31 Initialize *)
Definition lstep (s : lstate) (o : lop) : lstate :=
  match o with
  | LRegister sv p => mkL (aset bs_eqb (l_reg s) sv p) (l_url s) (l_eps s)
  | LRefer u =>
      match aget bs_eqb (l_reg s) (uPath u) with
      | Some p => mkL (l_reg s) (aset Nat.eqb (l_url s) p u) (l_eps s ++ [(u, Some p)])
      | None => mkL (l_reg s) (l_url s) (l_eps s ++ [(u, None)])
      end
  end.
Definition lruns (l : list lop) : lstate := fold_left lstep l initL.
(* localEndpoint.go 45-54 Call: the provider called, or an exception *)
Definition localCall (s : lstate) (i : nat) (id : N) (service : bs) : option (nat + N * exc) :=
  match nth_error (l_eps s) i with
  | Some (_, Some p) => Some (inl p)
  | Some (_, None) => Some (inr (id, mkExc 500 (s2b "no local provider for: " ++ service) 1))
  | None => None
  end.
(* localRegistry.go 40-44 Discover *)
Definition localDiscover (u : url) : list url :=
  [mkUrl (s2b "local") (uHost u) (uPort u) (uPath u) (uGroup u) (Some (match uParams u with None => [] | Some m => m end))].
