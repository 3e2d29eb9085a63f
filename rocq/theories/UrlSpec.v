(* UrlSpec.v: what a URL means, without any cache, and the vocabulary of C34, C35, C36, C49 and C57. *)
From Verif Require Import Base Strconv GoStrings GoStrings2 UrlModel.

(* ---- the meaning of the parameters: the most recent value put under a key, read as a decimal int64 *)
Definition param (u : url) (k : bs) : option bs :=
  match uParams u with None => None | Some m => aget bs_eqb m k end.
Definition int_param (u : url) (k : bs) : option Z :=
  match param u k with
  | Some v => match parseInt64 v with (z, NumOk) => Some z | _ => None end
  | None => None
  end.
Definition int_or (u : url) (k : bs) (d : Z) : Z := match int_param u k with Some z => z | None => d end.
(* a method specific value "method(desc).key" wins over the plain key *)
Definition method_int_or (u : url) (method desc k : bs) (d : Z) : Z :=
  match int_param u (method ++ s2b "(" ++ desc ++ s2b ")." ++ k) with Some z => z | None => int_or u k d end.
Definition if_positive (z d : Z) : Z := if (0 <? z)%Z then z else d.
Definition str_or (u : url) (k d : bs) : bs :=
  match param u k with None => d | Some [] => d | Some v => v end.
Definition put (u : url) (k v : bs) : url :=
  mkUrl (uProtocol u) (uHost u) (uPort u) (uPath u) (uGroup u)
        (Some (aset bs_eqb (match uParams u with Some m => m | None => [] end) k v)).
Definition address_of (u : url) : bs :=
  if hasPrefix (uHost u) (s2b "unix://") then uHost u else uHost u ++ s2b ":" ++ fmtZ (uPort u).
Definition identity_of (u : url) : bs :=
  uProtocol u ++ s2b "://" ++ uHost u ++ s2b ":" ++ fmtZ (uPort u) ++ s2b "/" ++ uPath u ++ s2b "?group=" ++ uGroup u ++
  (if bs_eqb (uProtocol u) (s2b "direct") then s2b "&address=" ++ str_or u (s2b "address") [] else []).

(* ---- C35: the calls a program may make on one URL *)
Inductive uop :=
| OPut (k v : bs)                          (* PutParam *)
| OAssign (u : url)                        (* assign public fields, then ClearCachedInfo, as its comment demands *)
| OGetInt (k : bs) | OInt (k : bs) (d : Z) | OPosInt (k : bs) (d : Z)
| OMethodInt (m desc k : bs) (d : Z) | OMethodPosInt (m desc k : bs) (d : Z)
| OParam (k d : bs) | OPort | OAddress | OIdentity | OIdentityReg.
Inductive uout := RNone | RInt (z : Z) | ROptInt (o : option Z) | RStr (s : bs).

(* the code, with its caches *)
Definition uexec (c : curl) (o : uop) : uout * curl :=
  match o with
  | OPut k v => (RNone, putParam c k v)
  | OAssign u => (RNone, clearCachedInfo (mkCurl u (cAddress c) (cPortStr c) (cIdentity c) (cHasMethod c) (cInt c)))
  | OGetInt k => let (r, c1) := getInt c k in (ROptInt r, c1)
  | OInt k d => let (r, c1) := getIntValue c k d in (RInt r, c1)
  | OPosInt k d => let (r, c1) := getPositiveIntValue c k d in (RInt r, c1)
  | OMethodInt m e k d => let (r, c1) := getMethodIntValue c m e k d in (RInt r, c1)
  | OMethodPosInt m e k d => let (r, c1) := getMethodPositiveIntValue c m e k d in (RInt r, c1)
  | OParam k d => (RStr (getParam (cUrl c) k d), c)
  | OPort => let (r, c1) := getPortStr c in (RStr r, c1)
  | OAddress => let (r, c1) := getAddressStr c in (RStr r, c1)
  | OIdentity => let (r, c1) := getIdentity c in (RStr r, c1)
  | OIdentityReg => let (r, c1) := getIdentityWithRegistry c in (RStr r, c1)
  end.
Fixpoint urun (c : curl) (ops : list uop) : list uout :=
  match ops with [] => [] | o :: r => let (x, c1) := uexec c o in x :: urun c1 r end.

(* the meaning, without caches *)
Definition umean (u : url) (o : uop) : uout * url :=
  match o with
  | OPut k v => (RNone, put u k v)
  | OAssign u' => (RNone, u')
  | OGetInt k => (ROptInt (int_param u k), u)
  | OInt k d => (RInt (int_or u k d), u)
  | OPosInt k d => (RInt (if_positive (int_or u k d) d), u)
  | OMethodInt m e k d => (RInt (method_int_or u m e k d), u)
  | OMethodPosInt m e k d => (RInt (if_positive (method_int_or u m e k d) d), u)
  | OParam k d => (RStr (str_or u k d), u)
  | OPort => (RStr (fmtZ (uPort u)), u)
  | OAddress => (RStr (address_of u), u)
  | OIdentity => (RStr (identity_of u), u)
  | OIdentityReg => (RStr (identity_of u ++ s2b "&registry=" ++ str_or u (s2b "registry") []), u)
  end.
Fixpoint umeans (u : url) (ops : list uop) : list uout :=
  match ops with [] => [] | o :: r => let (x, u1) := umean u o in x :: umeans u1 r end.

(* the identity of a "direct" URL also depends on the parameter "address" *)
Definition no_direct_address_put (u : url) (ops : list uop) : Prop :=
  (forall v, ~ In (OPut (s2b "address") v) ops) \/
  (uProtocol u <> s2b "direct" /\ forall u', In (OAssign u') ops -> uProtocol u' <> s2b "direct").

(* ---- C34 *)
Definition free_of (cs : bs) (s : bs) : Prop := forall c, In c cs -> ~ In c s.
Definition clean (u : url) : Prop :=
  free_of (s2b "?") (uProtocol u) /\ contains (uProtocol u) (s2b "://") = false /\
  free_of (s2b "?/:") (uHost u) /\ free_of (s2b "?/") (uPath u) /\
  (-9223372036854775808 <= uPort u <= 9223372036854775807)%Z /\
  free_of (s2b "?&=") (uGroup u) /\
  (forall m, uParams u = Some m -> NoDup (akeys m) /\
     forall k v, In (k, v) m -> free_of (s2b "?&=") k /\ free_of (s2b "?&=") v /\ k <> s2b "group").
Definition same_url (a b : url) : Prop :=
  uProtocol a = uProtocol b /\ uHost a = uHost b /\ uPort a = uPort b /\ uPath a = uPath b /\ uGroup a = uGroup b /\
  forall k, param a k = param b k.
Definition distinct_params (u : url) : Prop := forall m, uParams u = Some m -> NoDup (akeys m).
Definition ext_info (u : url) : bs := fst (toExtInfo (fresh u)).

(* ---- C36 *)
Definition value_or (u : url) (k d : bs) : bs := match param u k with Some v => v | None => d end.
Definition protocol_compatible (server client : bs) : Prop :=
  server = client \/ (server = s2b "motan2" /\ client = s2b "motan") \/ server = s2b "local".
Definition serves (server client : url) : Prop :=
  protocol_compatible (uProtocol server) (uProtocol client) /\
  uPath server = uPath client /\
  (uProtocol server = s2b "motan2" \/ value_or server (s2b "serialization") [] = value_or client (s2b "serialization") []) /\
  (value_or server (s2b "version") (s2b "0.1") = value_or client (s2b "version") (s2b "0.1") \/
   value_or server (s2b "version") (s2b "1.0") = value_or client (s2b "version") (s2b "1.0")).
(* an empty part of the request is a wildcard; a URL without a version serves every version *)
Definition request_matches (u : url) (service group protocol version : bs) : Prop :=
  uPath u = service /\
  (group = [] \/ uGroup u = group) /\
  (protocol = [] \/ protocol = uProtocol u \/ (uProtocol u = s2b "motan2" /\ protocol = s2b "motan")) /\
  (version = [] \/ str_or u (s2b "version") [] = [] \/ str_or u (s2b "version") [] = version).

(* ---- C49 *)
Definition nonblank (s : bs) : bool := negb (bs_eqb (trimSpace s) []).
Fixpoint first_occurrences (l : list bs) : list bs :=
  match l with [] => [] | x :: r => x :: filter (fun y => negb (bs_eqb y x)) (first_occurrences r) end.

(* ---- C57: which entry of MESH_DIRECT_RPC may answer for a service *)
Definition entry_matches (service key : bs) : Prop :=
  (exists p, key = p ++ s2b "*" /\ exists t, service = p ++ t) \/
  ((forall p, key <> p ++ s2b "*") /\ exists t, service = t ++ key).

(* ---- the interleaving of PutParam with GetInt *)
Definition prun (s : pstate) (l : list pstep) : pstate := fold_left pstep1 l s.
