(* UrlModel.v: model of core/url.go and of the string helpers of core/util.go.

   A URL is its public fields plus the five caches of the struct.  [uParams = None] is a nil Go map.  The caches that are
   atomic.Value of string are "" both before the first store and after ClearCachedInfo: the code treats the two alike.
   Each call is one atomic step here; the interleaving of PutParam with GetInt is modelled separately below. *)
From Verif Require Import Base Strconv GoStrings GoStrings2.

(* core/url.go 14-21 URL, the public fields *)
Record url := mkUrl {
  uProtocol : bs; uHost : bs; uPort : Z; uPath : bs; uGroup : bs; uParams : option (list (bs * bs)) }.

(* core/url.go 23-28, 31-34: the cached information.  cInt: None = miss cache *)
Record curl := mkCurl {
  cUrl : url; cAddress : bs; cPortStr : bs; cIdentity : bs; cHasMethod : bs; cInt : list (bs * option Z) }.

(* a URL as built by a literal &URL{...}: empty caches *)
Definition fresh (u : url) : curl := mkCurl u [] [] [] [] [].

(* reading a possibly nil Go map *)
Definition pget (p : option (list (bs * bs))) (k : bs) : option bs :=
  match p with None => None | Some m => aget bs_eqb m k end.
Definition pgetD (p : option (list (bs * bs))) (k : bs) : bs := match pget p k with Some v => v | None => [] end.

(* core/constants.go *)
Definition VersionKey := s2b "version".
Definition RegistryKey := s2b "registry".
Definition AddressKey := s2b "address".
Definition SerializationKey := s2b "serialization".
Definition GroupKey := s2b "group".
Definition RetriesKey := s2b "retries".
Definition TimeOutKey := s2b "requestTimeout".
Definition MinTimeOutKey := s2b "minRequestTimeout".
Definition MaxTimeOutKey := s2b "maxRequestTimeout".
Definition FilterKey := s2b "filter".
Definition WeightKey := s2b "weight".

(* 199-208 GetParam *)
Definition getParam (u : url) (k d : bs) : bs :=
  match uParams u with
  | None => d
  | Some [] => d
  | Some m => match pgetD (Some m) k with [] => d | v => v end
  end.

(* 147-156 GetStringParamsWithDefault *)
Definition getStringParamsWithDefault (u : url) (k d : bs) : bs :=
  match pgetD (uParams u) k with [] => d | v => v end.

(* 289-297 GetPortStr *)
Definition getPortStr (c : curl) : bs * curl :=
  match cPortStr c with
  | [] => let p := fmtZ (uPort (cUrl c)) in (p, mkCurl (cUrl c) (cAddress c) p (cIdentity c) (cHasMethod c) (cInt c))
  | p => (p, c)
  end.

(* 299-311 GetAddressStr *)
Definition getAddressStr (c : curl) : bs * curl :=
  match cAddress c with
  | [] =>
      if hasPrefix (uHost (cUrl c)) (s2b "unix://") then
        let a := uHost (cUrl c) in (a, mkCurl (cUrl c) a (cPortStr c) (cIdentity c) (cHasMethod c) (cInt c))
      else
        let (p, c1) := getPortStr c in
        let a := uHost (cUrl c) ++ s2b ":" ++ p in
        (a, mkCurl (cUrl c1) a (cPortStr c1) (cIdentity c1) (cHasMethod c1) (cInt c1))
  | a => (a, c)
  end.

(* 43-54 GetIdentity *)
Definition getIdentity (c : curl) : bs * curl :=
  match cIdentity c with
  | [] =>
      let u := cUrl c in
      let (p, c1) := getPortStr c in
      let idt := uProtocol u ++ s2b "://" ++ uHost u ++ s2b ":" ++ p ++ s2b "/" ++ uPath u ++ s2b "?group=" ++ uGroup u in
      let idt := if bs_eqb (uProtocol u) (s2b "direct") then idt ++ s2b "&address=" ++ getParam u AddressKey [] else idt in
      (idt, mkCurl (cUrl c1) (cAddress c1) (cPortStr c1) idt (cHasMethod c1) (cInt c1))
  | i => (i, c)
  end.

(* 83-87 GetIdentityWithRegistry *)
Definition getIdentityWithRegistry (c : curl) : bs * curl :=
  let (i, c1) := getIdentity c in (i ++ s2b "&registry=" ++ getParam (cUrl c) RegistryKey [], c1).

(* 89-98 ClearCachedInfo *)
Definition clearCachedInfo (c : curl) : curl := fresh (cUrl c).

(* 126-145 GetInt *)
Definition setInt (c : curl) (k : bs) (v : option Z) : curl :=
  mkCurl (cUrl c) (cAddress c) (cPortStr c) (cIdentity c) (cHasMethod c) (aset bs_eqb (cInt c) k v).
Definition parseParam (o : option bs) : option Z :=
  match o with
  | None => None
  | Some v => match parseInt64 v with (z, NumOk) => Some z | _ => None end
  end.
Definition getInt (c : curl) (k : bs) : option Z * curl :=
  match aget bs_eqb (cInt c) k with
  | Some r => (r, c)
  | None => let r := parseParam (pget (uParams (cUrl c)) k) in (r, setInt c k r)
  end.

(* 118-124 GetIntValue, 100-106 GetPositiveIntValue *)
Definition getIntValue (c : curl) (k : bs) (d : Z) : Z * curl :=
  let (r, c1) := getInt c k in (match r with Some z => z | None => d end, c1).
Definition getPositiveIntValue (c : curl) (k : bs) (d : Z) : Z * curl :=
  let (z, c1) := getIntValue c k d in (if (z <? 1)%Z then d else z, c1).

(* 173-189 hasMethodParams.  The map is ranged over in an arbitrary order; only existence matters *)
Definition methodKey (k : bs) : bool := contains k (s2b ").").
Definition anyMethodKey (u : url) : bool :=
  match uParams u with None => false | Some m => existsb methodKey (akeys m) end.
Definition setHas (c : curl) (v : bs) : curl :=
  mkCurl (cUrl c) (cAddress c) (cPortStr c) (cIdentity c) v (cInt c).
Definition hasMethodParams (c : curl) : bool * curl :=
  match cHasMethod c with
  | [] => if anyMethodKey (cUrl c) then (true, setHas c (s2b "t")) else (false, setHas c (s2b "f"))
  | v => (bs_eqb v (s2b "t"), c)
  end.

(* 158-171 GetMethodIntValue, 191-197 GetMethodPositiveIntValue *)
Definition methodParamKey (method desc k : bs) : bs := method ++ s2b "(" ++ desc ++ s2b ")." ++ k.
Definition getMethodIntValue (c : curl) (method desc k : bs) (d : Z) : Z * curl :=
  let (h, c1) := hasMethodParams c in
  let plain c2 := let (r, c3) := getInt c2 k in (match r with Some z => z | None => d end, c3) in
  if h then
    let (r, c2) := getInt c1 (methodParamKey method desc k) in
    match r with Some z => (z, c2) | None => plain c2 end
  else plain c1.
Definition getMethodPositiveIntValue (c : curl) (method desc k : bs) (d : Z) : Z * curl :=
  let (z, c1) := getMethodIntValue c method desc k d in (if (0 <? z)%Z then z else d, c1).

(* 210-218 GetTimeDuration.  ParseInt(t, 10, 32) fails outside 32 bits; the product wraps in int64 *)
Definition wrapI64 (z : Z) : Z := ((z + 9223372036854775808) mod 18446744073709551616 - 9223372036854775808)%Z.
Definition getTimeDuration (u : url) (k : bs) (unit d : Z) : Z :=
  match pget (uParams u) k with
  | None => d
  | Some t => match parseInt64 t with
              | (z, NumOk) => if ((-2147483648 <=? z) && (z <=? 2147483647))%Z then wrapI64 (z * unit) else d
              | _ => d
              end
  end.

(* 108-116 GetBoolValue with strconv.ParseBool *)
Definition parseBool (s : bs) : option bool :=
  if existsb (bs_eqb s) (map s2b ["1"; "t"; "T"; "true"; "TRUE"; "True"]%string) then Some true
  else if existsb (bs_eqb s) (map s2b ["0"; "f"; "F"; "false"; "FALSE"; "False"]%string) then Some false else None.
Definition getBoolValue (u : url) (k : bs) (d : bool) : bool :=
  match pget (uParams u) k with None => d | Some v => match parseBool v with Some b => b | None => d end end.

(* 220-229 PutParam *)
Definition withParams (u : url) (p : option (list (bs * bs))) : url :=
  mkUrl (uProtocol u) (uHost u) (uPort u) (uPath u) (uGroup u) p.
Definition pset (p : option (list (bs * bs))) (k v : bs) : option (list (bs * bs)) :=
  Some (aset bs_eqb (match p with None => [] | Some m => m end) k v).
Definition putParam (c : curl) (k v : bs) : curl :=
  mkCurl (withParams (cUrl c) (pset (uParams (cUrl c)) k v)) (cAddress c) (cPortStr c) (cIdentity c)
         (if methodKey k then s2b "t" else cHasMethod c) (adel bs_eqb (cInt c) k).

(* 324-328 MergeParams: None = panic (assignment to entry in nil map).  Caches are left alone *)
Definition mergeParams (c : curl) (ps : list (bs * bs)) : option curl :=
  match uParams (cUrl c), ps with
  | None, _ :: _ => None
  | None, [] => Some c
  | Some m, _ =>
      Some (mkCurl (withParams (cUrl c) (Some (fold_left (fun m kv => aset bs_eqb m (fst kv) (snd kv)) ps m)))
                   (cAddress c) (cPortStr c) (cIdentity c) (cHasMethod c) (cInt c))
  end.

(* 314-322 Copy: a fresh URL with its own map *)
Definition copyUrl (c : curl) : curl :=
  let u := cUrl c in
  fresh (withParams u (Some (match uParams u with None => [] | Some m => m end))).

(* 231-257 ToExtInfo.  The port text comes from the cache *)
Definition toExtInfo (c : curl) : bs * curl :=
  let u := cUrl c in
  let (p, c1) := getPortStr c in
  let keys := sortStrings (match uParams u with None => [] | Some m => akeys m end) in
  (uProtocol u ++ s2b "://" ++ uHost u ++ s2b ":" ++ p ++ s2b "/" ++ uPath u ++ s2b "?" ++ s2b "group=" ++ uGroup u ++
     flat_map (fun k => s2b "&" ++ k ++ s2b "=" ++ pgetD (uParams u) k) keys, c1).

(* 260-287 FromExtInfo: None when indexing panics (recovered, a nil URL is returned) *)
Definition fromExtInfo (s : bs) : option url :=
  let arr := splitOn x3f s in
  match splitStr (s2b "://") (nth 0 arr []) with
  | protocol :: rest :: _ =>
      match splitOn x2f rest with
      | hp :: path :: _ =>
          match splitOn x3a hp with
          | host :: ps :: _ =>
              match arr with
              | _ :: q :: _ =>
                  let m := fold_left (fun m p => match splitOn x3d p with
                                                 | [k; v] => aset bs_eqb m k v
                                                 | _ => m
                                                 end) (splitOn x26 q) [] in
                  let group := match aget bs_eqb m (s2b "group") with Some g => g | None => [] end in
                  Some (mkUrl protocol host (fst (parseInt64 ps)) path group (Some (adel bs_eqb m (s2b "group"))))
              | _ => None
              end
          | _ => None
          end
      | _ => None
      end
  | _ => None
  end.

(* 58-81 IsMatch *)
Definition isMatch (u : url) (service group protocol version : bs) : bool :=
  if negb (bs_eqb (uPath u) service) then false
  else if negb (bs_eqb group []) && negb (bs_eqb (uGroup u) group) then false
  else
    let protoBad :=
      if negb (bs_eqb protocol []) then
        if bs_eqb (uProtocol u) (s2b "motan2") then
          negb (bs_eqb protocol (s2b "motan2")) && negb (bs_eqb protocol (s2b "motan"))
        else negb (bs_eqb (uProtocol u) protocol)
      else false in
    if protoBad then false
    else if negb (bs_eqb version []) && negb (bs_eqb (getParam u VersionKey []) []) then
      bs_eqb version (getParam u VersionKey [])
    else true.

(* 361-378 IsSame *)
Definition isSame (m1 m2 : option (list (bs * bs))) (k d : bs) : bool :=
  match m1, m2 with
  | None, None => true
  | _, _ => bs_eqb (match pget m1 k with Some v => v | None => d end) (match pget m2 k with Some v => v | None => d end)
  end.

(* 353-359 CanServeProtocol, 330-351 CanServe *)
Definition canServeProtocol (u o : url) : bool :=
  if bs_eqb (uProtocol o) (s2b "motan") && bs_eqb (uProtocol u) (s2b "motan2") then true
  else bs_eqb (uProtocol u) (uProtocol o) || bs_eqb (uProtocol u) (s2b "local").
Definition canServe (u o : url) : bool :=
  if negb (canServeProtocol u o) then false
  else if negb (bs_eqb (uPath u) (uPath o)) then false
  else if negb (bs_eqb (uProtocol u) (s2b "motan2")) && negb (isSame (uParams u) (uParams o) SerializationKey []) then false
  else if negb (isSame (uParams u) (uParams o) VersionKey (s2b "0.1") || isSame (uParams u) (uParams o) VersionKey (s2b "1.0"))
  then false else true.

(* core/util.go 193-213 TrimSplit for a non-empty separator (every call site passes a constant); the fuel is the number
   of times the loop may still run *)
Fixpoint trimSplitLoop (fuel : nat) (s sep : bs) (a : list bs) : option (list bs) :=
  match fuel with
  | O => None
  | S f =>
      match indexOf s sep with
      | None => let s' := trimSpace s in Some (if bs_eqb s' [] then a else a ++ [s'])
      | Some m =>
          let temp := trimSpace (firstn m s) in
          trimSplitLoop f (skipn (m + length sep) s) sep (if bs_eqb temp [] then a else a ++ [temp])
      end
  end.
Definition trimSplit (s sep : bs) : list bs :=
  match trimSplitLoop (S (length s)) s sep [] with Some a => a | None => [] end.

(* core/util.go 245-256 SlicesUnique; [seen] is the set *)
Fixpoint uniqueLoop (src : list bs) (seen dst : list bs) : list bs :=
  match src with
  | [] => dst
  | v :: r => if existsb (bs_eqb v) seen then uniqueLoop r seen dst else uniqueLoop r (v :: seen) (dst ++ [v])
  end.
Definition slicesUnique (src : list bs) : list bs := uniqueLoop src [] [].

(* core/util.go 30-48 ParseExportInfo: protocol, port, error?  (strconv.Atoi returns 0 or the clamped value with an error) *)
Definition parseExportInfo (export : bs) : bs * Z * bool :=
  let s := trimSplit export (s2b ":") in
  let '(protocol, port) :=
    match s with
    | [p] => (s2b "motan2", if bs_eqb p [] then s2b "9982" else p)
    | [pr; p] => (if bs_eqb pr [] then s2b "motan2" else pr, p)
    | _ => (s2b "motan2", s2b "9982")
    end in
  let (pi, e) := parseInt64 port in
  (protocol, pi, match e with NumOk => false | _ => true end).

(* core/util.go 259-308 GetDirectEnvRegistry: the table built from the environment variable (a later entry for the same
   key replaces the earlier one) and the lookup, which ranges over the table in an arbitrary order: [table] is that order *)
Definition directEntry (s : bs) : option (bs * (bs * bs)) :=
  match splitOn x3e s with
  | [k; info] =>
      let '(group, addr) := match indexOf info [x40] with
                            | Some i => (firstn i info, skipn (i + 1) info)
                            | None => ([], info)
                            end in
      Some (trimSpace k, (trimSpace group, trimSpace addr))
  | _ => None
  end.
Definition directTable (env : bs) : list (bs * (bs * bs)) :=
  fold_left (fun m s => match directEntry s with Some (k, v) => aset bs_eqb m k v | None => m end) (splitOn x3b env) [].
Definition directMatch (p k : bs) : bool :=
  if hasSuffix k [x2a] then hasPrefix p (firstn (length k - 1) k) else hasSuffix p k.
Fixpoint directLookup (table : list (bs * (bs * bs))) (p : bs) : option (bs * bs) :=
  match table with [] => None | (k, v) :: r => if directMatch p k then Some v else directLookup r p end.

(* ---- PutParam and GetInt interleaved: each is cut at its accesses to shared memory (url.go 127, 135, 138/142 for
   GetInt; 221, 228 for PutParam) *)
Inductive pstep :=
| PutDelete (k : bs)                (* 221 intParamCache.Delete *)
| PutWrite (k v : bs)               (* 228 Parameters[key] = value *)
| GetRead (t : nat) (k : bs)        (* 135: goroutine t, having missed the cache, reads the parameter *)
| GetStore (t : nat) (k : bs).      (* 138/142: goroutine t stores what it has read *)
Record pstate := mkP { pUrl : curl; pLocal : list (nat * option Z) }.
Definition pstep1 (s : pstate) (o : pstep) : pstate :=
  match o with
  | PutDelete k => mkP (mkCurl (cUrl (pUrl s)) (cAddress (pUrl s)) (cPortStr (pUrl s)) (cIdentity (pUrl s)) (cHasMethod (pUrl s))
                               (adel bs_eqb (cInt (pUrl s)) k)) (pLocal s)
  | PutWrite k v => mkP (mkCurl (withParams (cUrl (pUrl s)) (pset (uParams (cUrl (pUrl s))) k v)) (cAddress (pUrl s)) (cPortStr (pUrl s))
                                (cIdentity (pUrl s)) (cHasMethod (pUrl s)) (cInt (pUrl s))) (pLocal s)
  | GetRead t k => mkP (pUrl s) (aset Nat.eqb (pLocal s) t (parseParam (pget (uParams (cUrl (pUrl s))) k)))
  | GetStore t k => match aget Nat.eqb (pLocal s) t with
                    | Some r => mkP (setInt (pUrl s) k r) (pLocal s)
                    | None => s
                    end
  end.
