(* ClusterSpec.v: vocabulary of C21 and C22. *)
From Verif Require Import Base Lists GoStrings GoStrings2 UrlModel UrlSpec ClusterModel.

(* ---- C22: rules as the configuration states them *)
(* an item of a rule is a subnet if it contains '/', else a prefix of the host *)
Definition item_matches (nl : netlib) (item host : bs) : Prop :=
  if contains item (s2b "/")
  then exists n ip, nCidr nl item = Some n /\ nIp nl host = Some ip /\ nIn nl n ip = true
  else exists t, host = item ++ t.
Definition config_matches (nl : netlib) (c : fconfig) (host : bs) : Prop :=
  exists item, In item (trimSplit (fcRule c) (s2b ",")) /\ item_matches nl item host.
Definition config_applies (u : url) (c : fconfig) : Prop :=
  (fcGroup c = [] \/ fcGroup c = uGroup u) /\ (fcService c = [] \/ fcService c = uPath u).
(* a configuration that can be used: it names hosts, and says whether to take or to leave them *)
Definition valid_config (c : fconfig) : Prop := fcRule c <> [] /\ (fcMode c = s2b "include" \/ fcMode c = s2b "exclude").
(* the hosts the configurations allow for a cluster *)
Definition host_allowed (nl : netlib) (l : list fconfig) (u : url) (host : bs) : Prop :=
  (forall c, In c l -> config_applies u c -> fcMode c = s2b "exclude" -> ~ config_matches nl c host) /\
  ((forall c, In c l -> config_applies u c -> fcMode c = s2b "exclude") \/
   exists c, In c l /\ config_applies u c /\ fcMode c <> s2b "exclude" /\ config_matches nl c host).

(* ---- C21: the nodes of a notification the cluster can use, and the lists in force after a history *)
Fixpoint usable (cu : url) (urls : list (option url)) : list bs :=
  match urls with
  | [] => []
  | Some u :: r => if canServe u cu then identity_of u :: usable cu r else usable cu r
  | None :: r => usable cu r
  end.
(* a trailing "rule" URL carries the weights and is not a node *)
Definition nodes (urls : list (option url)) : list (option url) :=
  match rev urls with
  | Some u :: r => if bs_eqb (uProtocol u) (s2b "rule") then rev r else urls
  | _ => urls
  end.
(* the list of a registry is replaced by a non-empty one; an empty one removes it only when another registry has a list *)
Definition lists_after (cu : url) (v : list (bs * list bs)) (o : clop) : list (bs * list bs) :=
  match o with
  | CNotify reg urls _ _ =>
      match usable cu (nodes urls) with
      | [] => match v with _ :: _ :: _ => adel bs_eqb v reg | _ => v end
      | l => aset bs_eqb v reg l
      end
  | CSetFilter _ _ _ => v
  end.
Definition lists_of (cu : url) (os : list clop) : list (bs * list bs) := fold_left (lists_after cu) os [].
Definition ident (e : ep) : bs := identity_of (epUrl e).
Definition known (c : cl) : list ep := concat (map snd (clRR c)).
(* no notification lists a node twice *)
Definition distinct_nodes (cu : url) (o : clop) : Prop :=
  match o with CNotify _ urls _ _ => NoDup (usable cu (nodes urls)) | _ => True end.
(* there is an endpoint extension for every protocol that can serve the cluster *)
Definition has_endpoints (mk : bs -> bool) (cu : url) : Prop := forall u, canServe u cu = true -> mk (uProtocol u) = true.
(* the endpoints of one registry *)
Definition list_of (c : cl) (reg : bs) : list ep := match aget bs_eqb (clRR c) reg with Some l => l | None => [] end.
(* the state of a cluster after a history of notifications and filter changes *)
Definition reached (nl : netlib) (mk : bs -> bool) (cu : url) (os : list clop) : cl := clRun nl mk (newCl cu) os.
(* the url of an endpoint made for a node: the node's, with the parameters of the cluster laid over those of the node *)
Definition made_from (cu u eu : url) : Prop :=
  uProtocol eu = uProtocol u /\ uHost eu = uHost u /\ uPort eu = uPort u /\ uPath eu = uPath u /\ uGroup eu = uGroup u /\
  forall k, pget (uParams eu) k = match pget (uParams cu) k with Some v => Some v | None => pget (uParams u) k end.
Definition has_keys_once (p : option (list (bs * bs))) : Prop := match p with Some m => NoDup (map fst m) | None => True end.
