(* HlocModel.v: model of how the http parts of a configuration are read: http/httpProxy.go 327-354 (locations of a domain),
   provider/httpProvider.go 73-91 and provider/httpxProvider.go 52-71 (settings of http services), cluster/httpCluster.go 73-108
   (the cluster of a domain).

   None at the outside = panic (a failed type assertion).  Maps are association lists in the order Go ranges over them. *)
From Verif Require Import Base Strconv GoStrings GoStrings2 UrlModel ConfModel HttpModel HprovModel.

(* v.(string) on the value of a key; an absent key gives nil, on which the assertion panics as well *)
Definition asString (o : option cval) : option bs := match o with Some (CStr s) => Some s | _ => None end.
Fixpoint asStrings (l : list cval) : option (list bs) :=
  match l with
  | [] => Some []
  | CStr s :: r => option_map (cons s) (asStrings r)
  | _ :: _ => None
  end.
(* http/httpProxy.go 338-350: one location *)
Definition readLocation (v : cval) : option location :=
  match v with
  | CMap m =>
      match asString (cget m (KStr (s2b "upstream"))) with
      | None => None
      | Some up =>
          match asString (cget m (KStr (s2b "match"))) with
          | None => None
          | Some pat =>
              match (match cget m (KStr (s2b "type")) with None => Some [] | t => asString t end) with
              | None => None
              | Some ty =>
                  match cget m (KStr (s2b "rewriteRules")) with
                  | None => Some (mkLoc up pat ty [])
                  | Some (CList rs) => option_map (mkLoc up pat ty) (asStrings rs)
                  | Some _ => None
                  end
              end
          end
      end
  | _ => None
  end.
Fixpoint readLocations (vs : list cval) : option (list location) :=
  match vs with
  | [] => Some []
  | v :: r => match readLocation v with Some l => option_map (cons l) (readLocations r) | None => None end
  end.
(* 327-354 NewLocationMatcherFromContext: the locations handed to NewLocationMatcher *)
Definition locationsFromContext (c : cmap) (domain : bs) : option (list location) :=
  match getSection c (s2b "http-locations") with
  | None => Some []
  | Some sec => match cget sec (KStr domain) with Some (CList vs) => readLocations vs | _ => Some [] end
  end.
Definition matcherFromContext (K : compiler) (c : cmap) (domain : bs) : option matcher :=
  option_map (newLocationMatcher K) (locationsFromContext c domain).

(* provider/httpProvider.go 81-85: the settings, copied once for every method of the key *)
Fixpoint readSettings (m : cmap) (sc : HprovModel.strmap) : option HprovModel.strmap :=
  match m with
  | [] => Some sc
  | (KStr k, CStr v) :: r => readSettings r (aset bs_eqb sc k v)
  | _ :: _ => None
  end.
(* 78-88: the value is looked at inside the loop over the methods, so not at all for a key without methods *)
Fixpoint readInfo (m : cmap) : option (list (bs * HprovModel.strmap)) :=
  match m with
  | [] => Some []
  | (KStr k, v) :: r =>
      match trimSplit k (s2b ","), v with
      | [], _ => option_map (cons (k, [])) (readInfo r)
      | _, CMap s => match readSettings s [] with Some sc => option_map (cons (k, sc)) (readInfo r) | None => None end
      | _, _ => None
      end
  | _ :: _ => None
  end.
(* 73-91; httpxProvider.go 52-71 *)
Fixpoint readServices (m : cmap) : option srvSection :=
  match m with
  | [] => Some []
  | (KStr id, CMap info) :: r => match readInfo info with Some i => option_map (cons (id, i)) (readServices r) | None => None end
  | _ :: _ => None
  end.
Definition servicesFromContext (c : cmap) : option srvSection :=
  match getSection c (s2b "http-service") with None => Some [] | Some sec => readServices sec end.

(* cluster/httpCluster.go 73-108 NewHTTPCluster.  [regs] is the table of registries; [ext] is what the extension factory gives for a
   registry: nothing, or a registry that can (true) or cannot (false) list services.  Some None = the constructor returns nil.
   The clusters made for the preloaded services are the keys of upstreamClusters. *)
Record hclu := mkHclu { hc_matcher : matcher; hc_lists : bool; hc_ups : list bs }.
Definition newHTTPCluster (K : compiler) (c : cmap) (regs : bs -> option url) (ext : url -> option bool) (u : url) : option (option hclu) :=
  match getParam u (s2b "domain") [] with
  | [] => Some None
  | d =>
      match (match regs (getParam u (s2b "registry") []) with None => Some false | Some r => ext r end) with
      | None => Some None
      | Some lists =>
          match matcherFromContext K c d with
          | None => None
          | Some m => Some (Some (mkHclu m lists
                        (filter (fun s => negb (bs_empty s)) (trimSplit (getParam u (s2b "preload") []) (s2b ",")))))
          end
      end
  end.
