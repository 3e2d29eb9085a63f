(* CtxModel.v: model of the part of core/globalContext.go that turns configuration sections into URLs.

   The order in which Go ranges over a map is the order of the association list that stands for it: the theorems hold for
   every order.  [fmtF] is strconv.FormatFloat(_, 'f', -1, 64).  None = panic. *)
From Verif Require Import Base Strconv GoStrings GoStrings2 UrlModel ConfModel.

(* core/util.go 50-63 InterfaceToString *)
Definition interfaceToString (fmtF : N -> bs) (v : cval) : bs :=
  match v with
  | CInt z => fmtZ z
  | CFloat b => fmtF b
  | CStr s => s
  | CBool b => s2b (if b then "true" else "false")
  | _ => []
  end.

(* core/globalContext.go 146-160: one entry of a section.  A nil value of a string field is "".  A nil port becomes the
   string "0", on which the assertion to int panics *)
Definition strField (v : cval) : option bs := match v with CNil => Some [] | CStr s => Some s | _ => None end.
Definition confEntry (fmtF : N -> bs) (u : url) (k : ckey) (v : cval) : option url :=
  match k with
  | KOther _ => None
  | KStr s =>
      if bs_eqb s (s2b "protocol") then
        match strField v with Some x => Some (mkUrl x (uHost u) (uPort u) (uPath u) (uGroup u) (uParams u)) | None => None end
      else if bs_eqb s (s2b "host") then
        match strField v with Some x => Some (mkUrl (uProtocol u) x (uPort u) (uPath u) (uGroup u) (uParams u)) | None => None end
      else if bs_eqb s (s2b "port") then
        match v with CInt z => Some (mkUrl (uProtocol u) (uHost u) z (uPath u) (uGroup u) (uParams u)) | _ => None end
      else if bs_eqb s (s2b "path") then
        match strField v with Some x => Some (mkUrl (uProtocol u) (uHost u) (uPort u) x (uGroup u) (uParams u)) | None => None end
      else if bs_eqb s (s2b "group") then
        match strField v with Some x => Some (mkUrl (uProtocol u) (uHost u) (uPort u) (uPath u) x (uParams u)) | None => None end
      else Some (withParams u (pset (uParams u) s (interfaceToString fmtF v)))
  end.
(* 134-164 confToURL *)
Fixpoint confToURLFrom (fmtF : N -> bs) (u : url) (m : cmap) : option url :=
  match m with
  | [] => Some u
  | (k, v) :: r => match confEntry fmtF u k v with Some u' => confToURLFrom fmtF u' r | None => None end
  end.
Definition confToURL (fmtF : N -> bs) (m : cmap) : option url := confToURLFrom fmtF (mkUrl [] [] 0 [] [] (Some [])) m.

(* 123-132 confToURLs; a key that is no string panics *)
Definition URLConfKey := s2b "conf-id".
Fixpoint confToURLs (fmtF : N -> bs) (m : cmap) : option (list (bs * curl)) :=
  match m with
  | [] => Some []
  | (KStr k, CMap info) :: r =>
      match confToURL fmtF info, confToURLs fmtF r with
      | Some u, Some us => Some ((k, fresh (withParams u (pset (uParams u) URLConfKey k))) :: us)
      | _, _ => None
      end
  | _ :: _ => None
  end.

(* 426-452: the basic configuration fills what the section leaves out.  The log line calls GetIdentity, which caches it *)
Definition or_str (a b : bs) : bs := match a with [] => b | _ => a end.
Definition deriveURL (basics : list (bs * curl)) (basicKey : bs) (c : curl) : option curl :=
  match getParam (cUrl c) basicKey [] with
  | [] => Some c
  | name =>
      match aget bs_eqb basics name with
      | Some b =>
          let n := copyUrl b in
          let u := cUrl c in let bu := cUrl n in
          let n1 := mkCurl (mkUrl (or_str (uProtocol u) (uProtocol bu)) (or_str (uHost u) (uHost bu))
                                  (if Z.eqb (uPort u) 0 then uPort bu else uPort u)
                                  (or_str (uPath u) (uPath bu)) (or_str (uGroup u) (uGroup bu)) (uParams bu))
                           (cAddress n) (cPortStr n) (cIdentity n) (cHasMethod n) (cInt n) in
          match mergeParams n1 (match uParams u with Some m => m | None => [] end) with
          | Some n2 => Some (snd (getIdentity n2))
          | None => None
          end
      | None => Some (snd (getIdentity c))
      end
  end.

(* sets of names, as Go maps to bool *)
Definition addSet (s : list bs) (k : bs) : list bs := if existsb (bs_eqb k) s then s else s ++ [k].
Definition addNames (s : list bs) (ks : list bs) : list bs :=
  fold_left (fun s k => match trimSpace k with [] => s | t => addSet s t end) ks s.
(* 478-500 GetFilterSet *)
Definition filterSet (fstr dis : bs) : list bs :=
  match fstr with
  | [] => []
  | _ => fold_left (fun s k => match trimSpace k with [] => s | t => filter (fun x => negb (bs_eqb x t)) s end)
                   (splitOn x2c dis) (addNames [] (splitOn x2c fstr))
  end.
(* 502-514 MergeFilterSet *)
Definition mergeFilterSet (sets : list (list bs)) : list bs := fold_left addNames sets [].
(* 532-544 GetEnvGlobalFilterSet; the environment variable is "" when not set *)
Definition envFilterSet (env : bs) : list bs := match env with [] => [] | _ => addNames [] (splitOn x2c env) end.
(* 112-117 AddRelevantFilter *)
Definition addRelevantFilter (ext : list bs) (s : bs) : list bs := match trimSpace s with [] => ext | k => addSet ext k end.

Definition DefaultFilter := s2b "defaultFilter".
Definition DisableDefaultFilter := s2b "disableDefaultFilter".
Definition GlobalFilter := s2b "globalFilter".
Definition DisableGlobalFilter := s2b "disableGlobalFilter".
(* 454-464, 516-530: [agent] is the agent's URL, [ord] the order in which FilterSetToStr meets the set *)
Definition finalFilters (agent : option url) (env : bs) (ext : list bs) (u : url) : list bs :=
  let from k d := match agent with
                  | None => []
                  | Some a => filterSet (getStringParamsWithDefault a k []) (getStringParamsWithDefault u d [])
                  end in
  mergeFilterSet [from DefaultFilter DisableDefaultFilter; from GlobalFilter DisableGlobalFilter; envFilterSet env; ext;
                  filterSet (getStringParamsWithDefault u FilterKey []) []].
Definition setFilters (ord : list bs -> list bs) (agent : option url) (env : bs) (ext : list bs) (c : curl) : curl :=
  match finalFilters agent env ext (cUrl c) with
  | [] => c
  | fs => putParam c FilterKey (joinStr (s2b ",") (ord fs))
  end.
(* 412-468 basicConfToURLs *)
Fixpoint basicConfToURLs (ord : list bs -> list bs) (agent : option url) (env : bs) (ext : list bs)
    (basics : list (bs * curl)) (basicKey : bs) (urls : list (bs * curl)) : option (list (bs * curl)) :=
  match urls with
  | [] => Some []
  | (k, c) :: r =>
      match deriveURL basics basicKey c, basicConfToURLs ord agent env ext basics basicKey r with
      | Some n, Some ns => Some ((k, setFilters ord agent env ext n) :: ns)
      | _, _ => None
      end
  end.

(* assigning the public field Group: the caches are left alone *)
Definition setGroup (c : curl) (g : bs) : curl :=
  let u := cUrl c in
  mkCurl (mkUrl (uProtocol u) (uHost u) (uPort u) (uPath u) g (uParams u)) (cAddress c) (cPortStr c) (cIdentity c) (cHasMethod c) (cInt c).

(* 549-569: one service.  The groups of the environment are appended; the first group stays, each other one is a copy under
   key-index.  None = panic, groups[0] of an empty list *)
Definition withEnvGroup (env g : bs) : bs :=
  match env with [] => g | _ => match g with [] => env | _ => g ++ s2b "," ++ env end end.
Fixpoint copies (k : bs) (c : curl) (idx : N) (gs : list bs) : list (bs * curl) :=
  match gs with
  | [] => []
  | g :: r => (k ++ s2b "-" ++ fmtN idx, setGroup (copyUrl c) g) :: copies k c (idx + 1) r
  end.
Definition splitService (env k : bs) (c : curl) : option (curl * list (bs * curl)) :=
  let g := withEnvGroup env (uGroup (cUrl c)) in
  let c1 := match env with [] => c | _ => setGroup c g end in
  if contains g (s2b ",") then
    match slicesUnique (trimSplit g (s2b ",")) with
    | [] => None
    | g0 :: gs => let c2 := setGroup c1 g0 in Some (c2, copies k c2 0 gs)
    end
  else Some (c1, []).
(* 547-573 parseMultipleServiceGroup *)
Fixpoint splitServices (env : bs) (m : list (bs * curl)) : option (list (bs * curl) * list (bs * curl)) :=
  match m with
  | [] => Some ([], [])
  | (k, c) :: r =>
      match splitService env k c, splitServices env r with
      | Some (c', extra), Some (r', extras) => Some ((k, c') :: r', extra ++ extras)
      | _, _ => None
      end
  end.
Definition setAll (m add : list (bs * curl)) : list (bs * curl) :=
  fold_left (fun m kv => aset bs_eqb m (fst kv) (snd kv)) add m.
Definition parseMultipleServiceGroup (env : bs) (m : list (bs * curl)) : option (list (bs * curl)) :=
  match splitServices env m with Some (m', add) => Some (setAll m' add) | None => None end.

(* 575-586 parseRegGroupSuffix *)
Definition regSuffix (suffix : bs) (c : curl) : curl :=
  if hasSuffix (uGroup (cUrl c)) suffix then c else setGroup c (uGroup (cUrl c) ++ suffix).
Definition parseRegGroupSuffix (suffix : bs) (m : list (bs * curl)) : list (bs * curl) :=
  match suffix with [] => m | _ => map (fun kc => (fst kc, regSuffix suffix (snd kc))) m end.

(* 628-633 parseServices, after basicConfToURLs *)
Definition parseServices (env suffix : bs) (m : list (bs * curl)) : option (list (bs * curl)) :=
  match parseMultipleServiceGroup env m with Some m' => Some (parseRegGroupSuffix suffix m') | None => None end.

(* 594-609 parseSubGroupSuffix.  Entries added while ranging may be visited too: they have the suffix and are skipped *)
Definition idOf (c : curl) : bs := fst (getIdentity c).
Fixpoint subLoop (suffix : bs) (ids : list bs) (m todo : list (bs * curl)) : list (bs * curl) :=
  match todo with
  | [] => m
  | (k, c) :: r =>
      let g := uGroup (cUrl c) in
      if hasSuffix g suffix then subLoop suffix ids m r
      else
        let n := setGroup (copyUrl c) (g ++ suffix) in
        if existsb (bs_eqb (idOf n)) ids then subLoop suffix ids m r
        else subLoop suffix (idOf n :: ids) (aset bs_eqb m (s2b "auto_" ++ k ++ g ++ suffix) (snd (getIdentity n))) r
  end.
(* 588-610; [agent] tells whether there is an agent section *)
Definition parseSubGroupSuffix (agent : bool) (suffix : bs) (m : list (bs * curl)) : list (bs * curl) :=
  match suffix with
  | [] => m
  | _ => if agent then
           let m1 := map (fun kc => (fst kc, snd (getIdentity (snd kc)))) m in
           subLoop suffix (map (fun kc => idOf (snd kc)) m1) m1 m1
         else m
  end.
(* 616-620: the removed protocol is renamed *)
Definition renameV1 (c : curl) : curl :=
  let u := cUrl c in
  if bs_eqb (uProtocol u) (s2b "motanV1Compatible")
  then mkCurl (mkUrl (s2b "motan") (uHost u) (uPort u) (uPath u) (uGroup u) (uParams u)) (cAddress c) (cPortStr c) (cIdentity c) (cHasMethod c) (cInt c)
  else c.
Definition parseRefers (agent : bool) (suffix : bs) (m : list (bs * curl)) : list (bs * curl) :=
  map (fun kc => (fst kc, renameV1 (snd kc))) (parseSubGroupSuffix agent suffix m).
