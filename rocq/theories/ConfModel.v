(* ConfModel.v: model of config/config.go: the value tree of a configuration, merging, placeholders and the typed getters.

   Simplifications.  A configuration is a tree of values, not of shared Go maps: Merge puts the maps of its argument into
   the receiver by reference, so a later merge into the receiver also changes the argument; every caller in the repository
   drops the argument.  YAML parsing and GetStruct (mapstructure) are not modelled: the tree is the parser's result. *)
From Verif Require Import Base Strconv GoStrings.

(* a key of map[interface{}]interface{}: a string, or a value of another comparable type named by a number *)
Inductive ckey := KStr (s : bs) | KOther (n : N).
Definition ckey_eqb (a b : ckey) : bool :=
  match a, b with
  | KStr s, KStr t => bs_eqb s t
  | KOther n, KOther m => N.eqb n m
  | _, _ => false
  end.

(* what an opaque value is for reflect: a map that is not map[interface{}]interface{}, a slice that is not []interface{},
   or anything else *)
Inductive okind := OMap | OSlice | OScalar.

(* the values of interface{} met in a configuration.  CFloat carries the IEEE bits *)
Inductive cval :=
| CNil | CBool (b : bool) | CStr (s : bs) | CInt (z : Z) | CInt8 (z : Z) | CInt32 (z : Z) | CInt64 (z : Z) | CFloat (bits : N)
| CMap (m : list (ckey * cval)) | CList (l : list cval) | COther (k : okind) (n : N).

Definition cmap := list (ckey * cval).
Definition cget (m : cmap) (k : ckey) : option cval := aget ckey_eqb m k.
Definition cset (m : cmap) (k : ckey) (v : cval) : cmap := aset ckey_eqb m k v.

(* config/config.go 226-254 mergeMap, the three cases for a key with a non-nil value on both sides *)
Fixpoint mergeVal (t o : cval) {struct o} : cval :=
  match o with
  | CMap om =>
      match t with
      | CMap tm =>
          CMap ((fix go (om tm : list (ckey * cval)) {struct om} : list (ckey * cval) :=
                   match om with
                   | [] => tm
                   | (k, ov) :: r =>
                       go r (match ov with
                             | CNil => tm
                             | _ => match aget ckey_eqb tm k with
                                    | None | Some CNil => aset ckey_eqb tm k ov
                                    | Some tv => aset ckey_eqb tm k (mergeVal tv ov)
                                    end
                             end)
                   end) om tm)
      | COther OMap _ => t
      | _ => o
      end
  | CList ol => match t with CList tl => CList (tl ++ ol) | COther OSlice _ => t | _ => o end
  | COther OMap _ => match t with CMap _ | COther OMap _ => t | _ => o end
  | COther OSlice _ => match t with CList _ | COther OSlice _ => t | _ => o end
  | _ => o
  end.

(* 226-254 mergeMap: the loop over the origin, in the order Go happens to range over it *)
Definition mergeEntry (tm : cmap) (k : ckey) (ov : cval) : cmap :=
  match ov with
  | CNil => tm
  | _ => match cget tm k with
         | None | Some CNil => cset tm k ov
         | Some tv => cset tm k (mergeVal tv ov)
         end
  end.
Fixpoint mergeMap (tm om : cmap) : cmap :=
  match om with [] => tm | (k, ov) :: r => mergeMap (mergeEntry tm k ov) r end.

(* 219-223 Merge; None = nil *Config *)
Definition merge (c : cmap) (o : option cmap) : cmap := match o with None => c | Some om => mergeMap c om end.

(* 205-214 getPlaceholderValue: the regular expression ^\${([^}]+)}$ .  No multi line flag: the whole text *)
Fixpoint untilBrace (s : bs) : option bs :=
  match s with
  | [] => None
  | b :: r => if byte_eqb b x7d then (match r with [] => Some [] | _ => None end)
              else match untilBrace r with Some k => Some (b :: k) | None => None end
  end.
Definition placeholderName (s : bs) : option bs :=
  match s with
  | b0 :: b1 :: r =>
      if byte_eqb b0 x24 && byte_eqb b1 x7b
      then match untilBrace r with Some [] => None | x => x end
      else None
  | _ => None
  end.
Definition placeholderValue (ph : list (bs * cval)) (s : bs) : option cval :=
  match placeholderName s with
  | Some k => match aget bs_eqb ph k with Some CNil => None | x => x end
  | None => None
  end.

(* 190-203 replace.  A replaced value is not visited again.  Simplification: a placeholder whose value is a map stands for a
   map of its own, in Go it is the same map as in the dynamic section *)
Fixpoint replaceVal (ph : list (bs * cval)) (v : cval) : cval :=
  match v with
  | CMap m => CMap ((fix go (m : list (ckey * cval)) : list (ckey * cval) :=
                       match m with
                       | [] => []
                       | (k, x) :: r =>
                           (k, match x with
                               | CStr s => match placeholderValue ph s with Some nv => nv | None => x end
                               | _ => replaceVal ph x
                               end) :: go r
                       end) m)
  | x => x
  end.
(* 181-187 ReplacePlaceHolder *)
Definition replacePlaceHolder (c : cmap) (ph : list (bs * cval)) : cmap :=
  match ph with
  | [] => c
  | _ => match replaceVal ph (CMap c) with CMap m => m | _ => c end
  end.

(* 170-178 getData: None = error *)
Definition getData (c : cmap) (k : bs) : option cval := match k with [] => None | _ => cget c (KStr k) end.

(* 56-84 ParseBool: None = error.  Sprintf with %s of an integer gives %!s(int64=1), which equals neither text *)
Definition sprintfS (ty : bs) (z : Z) : bs := s2b "%!s(" ++ ty ++ s2b "=" ++ fmtZ z ++ s2b ")".
Definition trueWords : list bs :=
  map s2b ["1"; "t"; "T"; "true"; "TRUE"; "True"; "YES"; "yes"; "Yes"; "Y"; "y"; "ON"; "on"; "On"]%string.
Definition falseWords : list bs :=
  map s2b ["0"; "f"; "F"; "false"; "FALSE"; "False"; "NO"; "no"; "No"; "N"; "n"; "OFF"; "off"; "Off"]%string.
Definition byText (s : bs) : option bool :=
  if bs_eqb s (s2b "1") then Some true else if bs_eqb s (s2b "0") then Some false else None.
Definition f64one : N := 4607182418800017408%N.     (* 0x3FF0000000000000 *)
Definition f64negzero : N := 9223372036854775808%N. (* 0x8000000000000000 *)
Definition parseBoolV (v : cval) : option bool :=
  match v with
  | CBool b => Some b
  | CStr s => if existsb (bs_eqb s) trueWords then Some true else if existsb (bs_eqb s) falseWords then Some false else None
  | CInt8 z => byText (sprintfS (s2b "int8") z)
  | CInt32 z => byText (sprintfS (s2b "int32") z)
  | CInt64 z => byText (sprintfS (s2b "int64") z)
  | CFloat b => if N.eqb b f64one then Some true else if N.eqb b 0 || N.eqb b f64negzero then Some false else None
  | _ => None
  end.
(* 87-93 Bool *)
Definition getBool (c : cmap) (k : bs) : option bool := match getData c k with None => None | Some v => parseBoolV v end.
(* 96-105 Int; int is 64 bits wide *)
Definition getIntC (c : cmap) (k : bs) : option Z :=
  match getData c k with Some (CInt z) => Some z | Some (CInt64 z) => Some z | _ => None end.
(* 109-115 DefaultInt *)
Definition defaultInt (c : cmap) (k : bs) (d : Z) : Z := match getIntC c k with Some z => z | None => d end.
(* 118-125 Int64 *)
Definition getInt64C (c : cmap) (k : bs) : option Z := match getData c k with Some (CInt64 z) => Some z | _ => None end.
(* 128-140 String, GetStringWithDefault *)
Definition getStringD (c : cmap) (k d : bs) : bs := match getData c k with Some (CStr s) => s | _ => d end.
(* 143-150 GetSection *)
Definition getSection (c : cmap) (k : bs) : option cmap := match getData c k with Some (CMap m) => Some m | _ => None end.

(* core/globalContext.go 381-396 getDynamicParametersByRegexp: [rx pattern] is what regexp.Compile(pattern).MatchString(pool)
   answers, false when it does not compile.  The map is visited in the given order *)
Definition regexpPrefix : bs := s2b "regexp:".
Fixpoint byRegexp (rx : bs -> bool) (m : cmap) : cval :=
  match m with
  | [] => CNil
  | (KStr k, v) :: r => if bs_eqb (firstn 7 k) regexpPrefix && rx (skipn 7 k) then v else byRegexp rx r
  | _ :: r => byRegexp rx r
  end.
Definition cgetN (m : cmap) (k : ckey) : cval := match cget m k with Some v => v | None => CNil end.
(* 359-379 getDynamicParameters *)
Definition dynamicOf (pool : bs) (rx : bs -> bool) (v : cval) : cval :=
  match v with
  | CMap mv =>
      match cgetN mv (KStr pool) with
      | CNil => match byRegexp rx mv with CNil => cgetN mv (KStr (s2b "default")) | x => x end
      | x => x
      end
  | x => x
  end.
Fixpoint dynamicParameters (pool : bs) (rx : bs -> bool) (dp : cmap) : list (bs * cval) :=
  match dp with
  | [] => []
  | (KStr k, v) :: r => (k, dynamicOf pool rx v) :: dynamicParameters pool rx r
  | _ :: r => dynamicParameters pool rx r
  end.

(* 167-190 importCfgIgnoreError.  The files are a function from path to parsed configuration, None = unreadable.
   Result: the paths of the files merged, in order, and the locations seen.  IPanic: a list entry that is no string.
   IFuel: out of fuel, which C41_imports_end shows cannot happen with more fuel than there are location files *)
Definition files := bs -> option cmap.
Definition importSection := s2b "import-refer".
Definition importHTTPLocationSection := s2b "import-http-location".
Definition suffixYaml := s2b ".yaml".
Definition httpLocationPath := s2b "http/location/".
Inductive imp := IPanic | IFuel | IOk (merged : list bs) (seen : list bs).
Fixpoint importCfg (fuel : nat) (fs : files) (root : bs) (parsing : cmap) (section dir : bs) (seen : list bs) : imp :=
  match fuel with
  | O => IFuel
  | S fuel' =>
      match getData parsing section with
      | Some (CList li) =>
          (fix each (li : list cval) (seen : list bs) {struct li} : imp :=
             match li with
             | [] => IOk [] seen
             | CStr r :: rest =>
                 let loc := bs_eqb section importHTTPLocationSection in
                 if loc && existsb (bs_eqb r) seen then each rest seen
                 else
                   let seen1 := if loc then r :: seen else seen in
                   let file := root ++ dir ++ r ++ suffixYaml in
                   match fs file with
                   | None => each rest seen1
                   | Some c =>
                       match importCfg fuel' fs root c importHTTPLocationSection httpLocationPath seen1 with
                       | IOk ms seen2 =>
                           match each rest seen2 with
                           | IOk ms2 seen3 => IOk (ms ++ file :: ms2) seen3
                           | e => e
                           end
                       | e => e
                       end
                   end
             | _ :: _ => IPanic
             end) li seen
      | _ => IOk [] seen
      end
  end.

(* core/globalContext.go 291-357 parsePoolConfiguration: the files in the order in which they are merged *)
Definition readable (fs : files) (f : bs) : list bs := match fs f with Some _ => [f] | None => [] end.
Definition contents (fs : files) (f : bs) : list cmap := match fs f with Some c => [c] | None => [] end.
Definition poolParts (pool : bs) : list bs := splitOn x2d pool.
(* 335-345: base grows by one part and one separator at each step *)
Fixpoint poolBases (base : bs) (parts : list bs) : list bs :=
  match parts with [] => [] | v :: r => (base ++ v) :: poolBases (base ++ v ++ s2b "-") r end.
(* one file that may import others: its imports come first *)
Definition withImports (fuel : nat) (fs : files) (root file section dir : bs) (seen : list bs) : imp :=
  match fs file with
  | None => IOk [] seen
  | Some c => match importCfg fuel fs root c section dir seen with IOk ms seen' => IOk (ms ++ [file]) seen' | e => e end
  end.
Definition poolLayers (fuel : nat) (fs : files) (path app pool : bs) : imp :=
  let basic := readable fs (path ++ s2b "basic.yaml") in
  let name := match app with [] => match poolParts pool with p :: _ => p | [] => [] end | _ => app end in
  match withImports fuel fs path (path ++ s2b "http/service/" ++ name ++ suffixYaml) importHTTPLocationSection httpLocationPath [] with
  | IOk ms1 seen1 =>
      match withImports fuel fs path (path ++ s2b "http/pools/" ++ pool ++ suffixYaml) importHTTPLocationSection httpLocationPath seen1 with
      | IOk ms2 seen2 =>
          match withImports fuel fs path (path ++ s2b "applications/" ++ name ++ suffixYaml) importSection (s2b "services/") seen2 with
          | IOk ms3 seen3 =>
              IOk (basic ++ ms1 ++ ms2 ++ ms3 ++
                   flat_map (fun b => readable fs (path ++ s2b "pools/" ++ b ++ suffixYaml)) (poolBases [] (poolParts pool))) seen3
          | e => e
          end
      | e => e
      end
  | e => e
  end.
Definition dynamicSection := s2b "dynamic-param".
(* 347-356, 283-286: the placeholders are replaced after all merging; an empty result is an error *)
Definition withDynamic (pool : bs) (rx : bs -> bool) (c : cmap) : cmap :=
  match getSection c dynamicSection with
  | Some (x :: r) => replacePlaceHolder c (dynamicParameters pool rx (x :: r))
  | _ => c
  end.
Definition parsePool (fuel : nat) (fs : files) (rx : bs -> bool) (path app pool : bs) : option cmap :=
  match poolLayers fuel fs path app pool with
  | IOk ms _ =>
      match withDynamic pool rx (fold_left mergeMap (flat_map (contents fs) ms) []) with [] => None | c => Some c end
  | _ => None
  end.
