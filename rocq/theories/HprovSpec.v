(* HprovSpec.v: what C86 says, apart from the model's helpers. *)
From Verif Require Import Base GoStrings GoStrings2 Strconv UrlModel HttpModel HttpSpec HprovModel.
From Coq Require Import Permutation.

(* the first setting that is there *)
Fixpoint first_of (l : list (option bs)) (d : bs) : bs :=
  match l with [] => d | Some x :: _ => x | None :: r => first_of r d end.

(* [k] is one of the comma separated names of [names] *)
Definition listed (names k : bs) : Prop := In k (trimSplit names (s2b ",")).

(* the address a format stands for: the format itself, or with the method's name in place of its only "%s" *)
Definition stands_for (fmt method addr : bs) : Prop :=
  (contains fmt (s2b "%s") = false /\ addr = fmt) \/
  (exists a b, fmt = a ++ s2b "%s" ++ b /\ ~ In x25 a /\ ~ In x25 b /\ addr = a ++ method ++ b).
(* formats fmt.Sprintf substitutes one string into, or that are used as they are *)
Definition simple_format (fmt : bs) : Prop :=
  contains fmt (s2b "%s") = false \/ exists a b, fmt = a ++ s2b "%s" ++ b /\ ~ In x25 a /\ ~ In x25 b.
(* two "%s" that do not overlap *)
Definition two_holes (fmt : bs) : Prop := exists a b c, fmt = a ++ s2b "%s" ++ b ++ s2b "%s" ++ c.

(* what a server reads as the query of a URL: between the first '?' and the '#' *)
Definition url_query (u : bs) : bs := snd (cut x3f (fst (cut x23 u))).
(* names that arrive as they are: neither escaped nor cutting the query short *)
Definition plain_arg (k : bs) : Prop := plain_name k /\ ~ In x23 k /\ ~ In x3b k.

(* the arguments a call carries: its map, and from the attachments the mixed-in variables its map does not have *)
Definition carries (m : strmap) (mix : list bs) (att : strmap) (l : strmap) : Prop :=
  NoDup (map fst l) /\
  forall k v, In (k, v) l <-> aget bs_eqb m k = Some v \/ (aget bs_eqb m k = None /\ In k mix /\ aget bs_eqb att k = Some v).

(* a map may be visited in any order *)
Definition any_order (ord : strmap -> strmap) : Prop := forall l, Permutation (ord l) l.

Definition id_pair (q : mreq) : bs * bs := (s2b "requestIdFromClient", fmtN (q_id q)).

(* the settings of a method: those listed for it under the service's configuration id, else those listed for
   http_default_motan_method, else none *)
Definition conf_id (u : url) : bs := pgetD (uParams u) (s2b "conf-id").
Definition settings_of (sec : srvSection) (u : url) (method : bs) (sc : strmap) : Prop :=
  (~ In (conf_id u) (map fst sec) /\ sc = []) \/
  exists info, In (conf_id u, info) sec /\
    let given k c := exists names, In (names, c) info /\ listed names k in
    (given method sc \/
     (forall c, ~ given method c) /\ (given (s2b "http_default_motan_method") sc \/
                                      (forall c, ~ given (s2b "http_default_motan_method") c) /\ sc = [])).
(* no configuration id and no method is listed twice *)
Definition clear_section (sec : srvSection) : Prop :=
  NoDup (map fst sec) /\
  forall id info, In (id, info) sec -> forall n1 c1 n2 c2 k, In (n1, c1) info -> In (n2, c2) info -> listed n1 k -> listed n2 k -> c1 = c2.

(* the method and the format configured for a call *)
Definition http_method (u : url) (sc : strmap) (q : mreq) : bs :=
  first_of [aget bs_eqb (q_att q) (s2b "HTTP_Method"); aget bs_eqb sc (s2b "HTTP_REQUEST_METHOD");
            pget (uParams u) (s2b "HTTP_REQUEST_METHOD")] (s2b "GET").
Definition url_format (u : url) (sc : strmap) : bs :=
  first_of [aget bs_eqb sc (s2b "URL_FORMAT"); pget (uParams u) (s2b "URL_FORMAT")] [].

(* the request asked for by configuration [u], [sc]: method and URL given a query string *)
Definition asked (u : url) (sc : strmap) (q : mreq) (m url : bs) (qs : bs) : Prop :=
  m = http_method u sc q /\
  exists addr, stands_for (url_format u sc) (q_method q) addr /\
    ((m = s2b "GET" /\ url = addr ++ s2b "?" ++ qs) \/ (m <> s2b "GET" /\ url = addr)).

(* no proxy: neither configured for the service nor asked for by the call *)
Definition direct (u : url) (q : mreq) : Prop :=
  getParam u (s2b "proxyAddress") [] = [] /\ parseBool (pgetD (Some (q_att q)) (s2b "HTTP_PROXY")) <> Some true.
(* names of headers are compared without regard to case *)
Definition same_header (a b : bs) : Prop := map lower a = map lower b.
(* the client's address *)
Definition client_addr (q : mreq) : bs := first_of [aget bs_eqb (q_att q) (s2b "remoteIP"); aget bs_eqb (q_att q) (s2b "host")] [].
(* the header an attachment is sent as: M_ at the front becomes MOTAN- *)
Definition sent_as (k n : bs) : Prop :=
  (contains k (s2b "M_") = false /\ n = k) \/ exists r, k = s2b "M_" ++ r /\ contains r (s2b "M_") = false /\ n = s2b "MOTAN-" ++ r.
(* failing statuses are errors of the call only if the service says so *)
Definition status_fails (u : url) (st : Z) : Prop :=
  parseBool (getParam u (s2b "enableHttpException") (s2b "false")) = Some true /\ (400 <= st)%Z.
(* a value set by the last of several maps that has it *)
Definition latest (ms : list strmap) (k : bs) : option bs :=
  fold_left (fun r m => match aget bs_eqb m k with Some v => Some v | None => r end) ms None.
(* the path a request goes to: the method's own if rewriting is off, else what the locations give; only rules that look at the query see it *)
Definition goes_to (u : url) (mt : matcher) (method query : bs) (qget : bs -> bs -> bs) (path : option bs) : Prop :=
  (parseBool (getParam u (s2b "enableRewrite") (s2b "true")) = Some false -> path = Some method) /\
  (parseBool (getParam u (s2b "enableRewrite") (s2b "true")) <> Some false -> forall seen, (m_query mt = true -> seen = query) -> (m_query mt = false -> seen = []) ->
     match pick mt method seen (qget seen) true with Some (_, p) => path = Some p | None => path = None end).
