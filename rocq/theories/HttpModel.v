(* HttpModel.v: http/httpProxy.go (locations, rewrite rules, conversion of requests), CanServe and the upstream
   clusters of cluster/httpCluster.go.  Go's regexp, url.ParseQuery and fasthttp are not modelled: a compiled regular
   expression is a pair of functions, a parsed query a function from names to values, the http request the list of
   calls made on it. *)
From Verif Require Import Base GoStrings GoStrings2.

(* a compiled regular expression: MatchString, and FindStringSubmatchIndex with ExpandString of a template *)
Record regex := mkRx { rx_match : bs -> bool; rx_expand : bs -> bs -> option bs }.
(* regexp.Compile *)
Definition compiler := bs -> option regex.

(* ------------------------------------------------------------ PatternSplit on white space *)

(* the class \s of Go's regexp *)
Definition isWs (c : byte) : bool :=
  let n := b2n c in N.eqb n 9 || N.eqb n 10 || N.eqb n 12 || N.eqb n 13 || N.eqb n 32.

(* WhitespaceSplitPattern.FindAllStringIndex(s, -1): the maximal runs of white space, as half open ranges *)
Fixpoint wsRuns (pos : nat) (cur : option nat) (s : bs) : list (nat * nat) :=
  match s with
  | [] => match cur with Some b => [(b, pos)] | None => [] end
  | c :: r =>
      if isWs c then wsRuns (S pos) (Some (match cur with Some b => b | None => pos end)) r
      else match cur with
           | Some b => (b, pos) :: wsRuns (S pos) None r
           | None => wsRuns (S pos) None r
           end
  end.

(* httpProxy.go:129-147 PatternSplit, given the matches *)
Fixpoint psLoop (s : bs) (ms : list (nat * nat)) (beg fin : nat) (acc : list bs) : list bs :=
  match ms with
  | [] => if fin =? length s then acc else acc ++ [skipn beg s]
  | (a, b) :: r => psLoop s r b a (if b =? 0 then acc else acc ++ [firstn (a - beg) (skipn beg s)])
  end.
Definition patternSplit (s : bs) : list bs := psLoop s (wsRuns 0 None s) 0 0 [].

(* ------------------------------------------------------------ rewrite rules *)

(* httpProxy.go:52-60, 199-214: types of rewrite conditions *)
Inductive ctype := CRegexp | CIRegexp | CStart | CExact | CRegexpVar.
Definition condTypeOf (s : bs) : option ctype :=
  if bs_eqb s (s2b "regexp") then Some CRegexp
  else if bs_eqb s (s2b "iregexp") then Some CIRegexp
  else if bs_eqb s (s2b "start") then Some CStart
  else if bs_eqb s (s2b "exact") then Some CExact
  else if bs_eqb s (s2b "regexpVar") then Some CRegexpVar
  else None.

(* 229-236 rewriteRule *)
Record rule := mkRule { r_not : bool; r_type : ctype; r_cond : bs; r_condRx : option regex; r_pattern : regex; r_replace : bs }.

(* 238-281 newRewriteRule; None: an error *)
Definition newRewriteRule (K : compiler) (text : bs) : option rule :=
  match patternSplit text with
  | [a0; a1; a2; a3] =>
      let neg := hasPrefix a0 (s2b "!") in
      match condTypeOf (if neg then skipn 1 a0 else a0) with
      | None => None
      | Some t =>
          let condRx := match t with
                        | CRegexp | CRegexpVar => match K a1 with Some r => Some (Some r) | None => None end
                        | CIRegexp => match K (s2b "(?i)" ++ a1) with Some r => Some (Some r) | None => None end
                        | CStart | CExact => Some None
                        end in
          match condRx with
          | None => None
          | Some cr => match K a2 with Some p => Some (mkRule neg t a1 cr p a3) | None => None end
          end
      end
  | _ => None
  end.

(* the pattern \{[0-9a-zA-Z_-]+\} of findRewriteVarPattern *)
Definition isVarChar (c : byte) : bool :=
  let n := b2n c in
  (N.leb 48 n && N.leb n 57) || (N.leb 97 n && N.leb n 122) || (N.leb 65 n && N.leb n 90) || N.eqb n 95 || N.eqb n 45.
(* the longest run of such characters *)
Fixpoint varRun (s : bs) : bs * bs :=
  match s with
  | c :: r => if isVarChar c then let '(a, b) := varRun r in (c :: a, b) else ([], s)
  | [] => ([], [])
  end.
(* FindAllString(uri, -1), given the keys between the braces *)
Fixpoint holders (s : bs) : list bs :=
  match s with
  | [] => []
  | c :: r =>
      if byte_eqb c x7b then
        match varRun r with
        | (x :: k, x' :: _) => if byte_eqb x' x7d then (x :: k) :: holders r else holders r
        | _ => holders r
        end
      else holders r
  end.
Definition holder (k : bs) : bs := [x7b] ++ k ++ [x7d].
(* strings.Replace(s, old, new, -1) for a non-empty old *)
Definition replaceAll (old new s : bs) : bs := joinStr new (splitStr old s).
(* 80-91 rewriteVarFunc; [qget] is query.Get on the parsed query.  After a match the scan of [holders] goes on inside
   it, which finds nothing: a match has no further opening brace. *)
Definition rewriteVar (t : ctype) (uri : bs) (query : bs) (qget : bs -> bs) : bs :=
  match t with
  | CRegexpVar => if bs_empty query then uri
                  else fold_left (fun u k => replaceAll (holder k) (qget k) u) (holders uri) uri
  | _ => uri
  end.

(* 283-305 rewrite *)
Definition rewrite (r : rule) (uri query : bs) (qget : bs -> bs) : bs * bool :=
  let m := match r_type r with
           | CExact => bs_eqb (r_cond r) uri
           | CStart => hasPrefix uri (r_cond r)
           | _ => match r_condRx r with Some x => rx_match x uri | None => false end
           end in
  if (if r_not r then negb m else m) then
    match rx_expand (r_pattern r) (r_replace r) uri with
    | None => (rewriteVar (r_type r) uri query qget, false)
    | Some u => (rewriteVar (r_type r) u query qget, true)
    end
  else (rewriteVar (r_type r) uri query qget, false).

(* 307-317 DeterminePath, on the compiled rules *)
Fixpoint firstRewrite (rs : list rule) (path query : bs) (qget : bs -> bs) : bs :=
  match rs with
  | [] => path
  | r :: t => let '(s, b) := rewrite r path query qget in if b then s else firstRewrite t path query qget
  end.
Definition determinePath (rs : list rule) (path query : bs) (qget : bs -> bs) (doRewrite : bool) : bs :=
  if doRewrite then firstRewrite rs path query qget else path.

(* ------------------------------------------------------------ locations *)

(* 216-226 ProxyLocation as configured *)
Record location := mkLoc { l_up : bs; l_match : bs; l_type : bs; l_rules : list bs }.

(* 44-50, 169-182 *)
Inductive mtype := MRegexp | MIRegexp | MStart | MExact.
Definition matchTypeOf (s : bs) : option mtype :=
  if bs_eqb s (s2b "regexp") then Some MRegexp
  else if bs_eqb s (s2b "iregexp") then Some MIRegexp
  else if bs_eqb s (s2b "start") then Some MStart
  else if bs_eqb s (s2b "exact") then Some MExact
  else None.

(* a compiled location; [c_rx] is nil for exact and start *)
Record cloc := mkCloc { c_up : bs; c_match : bs; c_rx : option regex; c_rules : list rule }.
Record matcher := mkMatcher { m_exact : list cloc; m_start : list cloc; m_regexp : list cloc; m_query : bool }.

(* 361-376: empty and illegal rules are left out *)
Definition compileRules (K : compiler) (rs : list bs) : list rule :=
  flat_map (fun t => if bs_empty t then [] else match newRewriteRule K t with Some r => [r] | None => [] end) rs.
Definition isVarRule (r : rule) : bool := match r_type r with CRegexpVar => true | _ => false end.

(* 356-415 NewLocationMatcher: one round of the loop *)
Definition addLocation (K : compiler) (m : matcher) (l : location) : matcher :=
  let rules := compileRules K (l_rules l) in
  let q := m_query m || existsb isVarRule rules in
  let t := if bs_empty (l_type l) then s2b "start" else l_type l in
  let keep := mkMatcher (m_exact m) (m_start m) (m_regexp m) q in
  let c rx := mkCloc (l_up l) (l_match l) rx rules in
  match matchTypeOf t with
  | None => keep
  | Some MExact => mkMatcher (m_exact m ++ [c None]) (m_start m) (m_regexp m) q
  | Some MStart => mkMatcher (m_exact m) (m_start m ++ [c None]) (m_regexp m) q
  | Some MRegexp => match K (l_match l) with
                    | Some x => mkMatcher (m_exact m) (m_start m) (m_regexp m ++ [c (Some x)]) q
                    | None => keep
                    end
  | Some MIRegexp => match K (s2b "(?i)" ++ l_match l) with
                     | Some x => mkMatcher (m_exact m) (m_start m) (m_regexp m ++ [c (Some x)]) q
                     | None => keep
                     end
  end.
Definition newLocationMatcher (K : compiler) (ls : list location) : matcher :=
  fold_left (addLocation K) ls (mkMatcher [] [] [] false).

(* 439-449: the longest matching start location; [best] with its length *)
Fixpoint longest (ls : list cloc) (path : bs) (best : option cloc) (len : nat) : option cloc :=
  match ls with
  | [] => best
  | l :: r => if hasPrefix path (c_match l) && (len <? length (c_match l)) then longest r path (Some l) (length (c_match l))
              else longest r path best len
  end.
(* 420-452 Pick: upstream and path *)
Definition pick (m : matcher) (path query : bs) (qget : bs -> bs) (doRewrite : bool) : option (bs * bs) :=
  let answer l := Some (c_up l, determinePath (c_rules l) path query qget doRewrite) in
  match find (fun l => bs_eqb path (c_match l)) (m_exact m) with
  | Some l => answer l
  | None =>
      match find (fun l => match c_rx l with Some x => rx_match x path | None => false end) (m_regexp m) with
      | Some l => answer l
      | None => match longest (m_start m) path None 0 with Some l => answer l | None => None end
      end
  end.
(* 454-459 URIToServiceName *)
Definition uriToServiceName (m : matcher) (uri query : bs) (qget : bs -> bs) : bs :=
  match pick m uri query qget false with Some (s, _) => s | None => [] end.

(* httpCluster.go:115-135 CanServe; [inGroup] answers ServiceInGroup when the registry can list services *)
Definition canServeUri (m : matcher) (inGroup : option (bs -> bool)) (upstreams : list bs) (uri : bs) : option bs :=
  let service := uriToServiceName m uri [] (fun _ => []) in
  if bs_empty service then None
  else match inGroup with
       | None => if existsb (bs_eqb service) upstreams then Some service else None
       | Some f => if f service then Some service else None
       end.

(* ------------------------------------------------------------ from a motan request to an http request *)

(* 66-79: attachments renamed, attachments not sent *)
Definition innerNames : list (bs * bs) :=
  [(s2b "M_p", s2b "MOTAN-p"); (s2b "M_m", s2b "MOTAN-m"); (s2b "M_md", s2b "MOTAN-md"); (s2b "M_g", s2b "MOTAN-g");
   (s2b "M_pp", s2b "MOTAN-pp"); (s2b "M_v", s2b "MOTAN-v"); (s2b "M_mdu", s2b "MOTAN-mdu"); (s2b "M_s", s2b "MOTAN-s");
   (s2b "M_rid", s2b "MOTAN-rid"); (s2b "M_tmo", s2b "MOTAN-tmo")].
Definition privateNames : list bs :=
  [s2b "HTTP_PROXY"; s2b "HTTP_Method"; s2b "HTTP_QueryString"; s2b "host"; s2b "Host"].
Definition HeaderPrefix := s2b "http_".

(* calls on the header of the fasthttp request *)
Inductive hcall := HSet (k v : bs) | HHost (v : bs) | HContentType (v : bs).
(* 482-511: the call made for an attachment *)
Definition headerCall (kv : bs * bs) : option hcall :=
  let '(k, v) := kv in
  match aget bs_eqb innerNames k with
  | Some k' => Some (HSet k' v)
  | None =>
      if existsb (bs_eqb k) privateNames then None
      else if bs_eqb k (HeaderPrefix ++ s2b "host") || bs_eqb k (HeaderPrefix ++ s2b "Host") then Some (HHost v)
      else if bs_eqb k (s2b "Content-Type") || bs_eqb k (s2b "content-type") then Some (HContentType v)
      else if hasPrefix k HeaderPrefix then Some (HSet (skipn (length HeaderPrefix) k) v)
      else Some (HSet k v)
  end.
Definition opt_list {A} (o : option A) : list A := match o with Some x => [x] | None => [] end.

(* url.QueryEscape *)
Definition hexUp (n : N) : byte := n2b (if (n <? 10)%N then 48 + n else 55 + n).
Definition unreserved (c : byte) : bool :=
  let n := b2n c in
  (N.leb 48 n && N.leb n 57) || (N.leb 97 n && N.leb n 122) || (N.leb 65 n && N.leb n 90)
  || N.eqb n 45 || N.eqb n 95 || N.eqb n 46 || N.eqb n 126.
Definition escapeByte (c : byte) : bs :=
  if unreserved c then [c]
  else if byte_eqb c x20 then [x2b]
  else [x25; hexUp (b2n c / 16); hexUp (b2n c mod 16)].
Definition queryEscape (s : bs) : bs := flat_map escapeByte s.

(* the argument of the request; maps in iteration order *)
Inductive harg := ArgNil | ArgMap (m : list (bs * bs)) | ArgStr (s : bs) | ArgBytes (b : bs) | ArgOther.
Record httpReq := mkHttp { h_method : bs; h_query : option bs; h_calls : list hcall; h_queryArgs : list (bs * bs); h_body : option bs }.
Inductive hres := HOk (r : httpReq) | HManyArgs | HBadArg.

Definition formBody (m : list (bs * bs)) : bs := flat_map (fun kv => s2b "&" ++ fst kv ++ s2b "=" ++ queryEscape (snd kv)) m.
Definition loadA (att : list (bs * bs)) (k : bs) : bs := match aget bs_eqb att k with Some v => v | None => [] end.

(* 474-548 MotanRequestToFasthttpRequest on a fresh request; [att] in the order of Range.  Header.Del("Connection")
   and the canonical form of header names are left to fasthttp. *)
Definition toHttp (att : list (bs * bs)) (args : list harg) (defaultMethod : bs) : hres :=
  let method := if bs_empty (loadA att (s2b "HTTP_Method")) then defaultMethod else loadA att (s2b "HTTP_Method") in
  let q := loadA att (s2b "HTTP_QueryString") in
  let calls := flat_map (fun kv => opt_list (headerCall kv)) att in
  let base := mkHttp method (if bs_empty q then None else Some q) calls [] None in
  match args with
  | [] => HOk base
  | [a] =>
      match a with
      | ArgNil => HOk base
      | ArgMap m =>
          if bs_eqb method (s2b "GET") then HOk (mkHttp method (h_query base) calls m None)
          else match formBody m with
               | [] => HOk base
               | _ :: body => HOk (mkHttp method (h_query base) (calls ++ [HContentType (s2b "application/x-www-form-urlencoded")]) [] (Some body))
               end
      | ArgStr s | ArgBytes s => HOk (mkHttp method (h_query base) calls [] (Some s))
      | ArgOther => HBadArg
      end
  | _ => HManyArgs
  end.
