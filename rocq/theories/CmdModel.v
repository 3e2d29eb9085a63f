(* CmdModel.v: model of cluster/command.go. *)
From Verif Require Import Base Lists GoStrings GoStrings2 UrlModel UrlSpec ClusterModel.

(* ---------------------------------------------------------------- routing *)
(* 378-396 isMatch *)
Definition isMatch (router ip : bs) : bool :=
  let inverse := hasPrefix router (s2b "!") in
  let router := if inverse then skipn 1 router else router in
  let m := if bs_eqb router (s2b "*") then true
           else match indexOf router (s2b "*") with Some idx => hasPrefix ip (firstn idx router) | None => bs_eqb ip router end in
  if inverse then negb m else m.
(* 357-373 one rule of processRoute *)
Definition routeOne (local : bs) (r : bs) (urls : list url) : list url :=
  match splitStr (s2b "to") r with
  | [a; b] => let from := trimSpace a in let to := trimSpace b in
              if negb (bs_eqb from []) && negb (bs_eqb to []) && isMatch from local
              then filter (fun u => bs_eqb (uProtocol u) RuleProtocol || isMatch to (uHost u)) urls else urls
  | _ => urls
  end.
(* 351-376 processRoute; [local] is GetLocalIP.  The URLs are not nil (the registries never hand out nil) *)
Definition processRoute (local : bs) (urls : list url) (routers : list bs) : list url :=
  match urls, routers with [], _ | _, [] => urls | _, _ => fold_left (fun us r => routeOne local r us) routers urls end.
(* 399-404 buildRuleURL *)
Definition buildRuleURL (weight : bs) : url := mkUrl RuleProtocol [] 0 [] [] (Some [(WeightKey, weight)]).

(* ---------------------------------------------------------------- commands *)
(* 71-80 ClientCommand, the fields the code reads *)
Record cmd := mkCmd { cmIndex : Z; cmType : Z; cmPattern : bs; cmGroups : list bs; cmRoutes : list bs }.
Definition CMDTrafficControl : Z := 0. Definition CMDDegrade : Z := 1. Definition CMDSwitcher : Z := 2.
Definition AgentCmd : Z := 0. Definition ServiceCmd : Z := 1.
(* the libraries: json.Unmarshal, sort.Sort by index (unstable: any sorted order), regexp.MatchString (false on error), the local address *)
Record cmdlib := mkCmdlib { clParse : bs -> option (list cmd); clSort : list cmd -> list cmd; clReg : bs -> bs -> bool; clLocal : bs }.
(* 143-159 MatchCmdPattern *)
Definition matchPattern (lib : cmdlib) (c : cmd) (u : url) : bool :=
  if (cmType c =? CMDSwitcher)%Z then true
  else if bs_eqb (cmPattern c) (s2b "*") || hasPrefix (uPath u) (cmPattern c) then true
  else clReg lib (cmPattern c) (uPath u).
(* 555-585 mergeCommand *)
Definition mergeStep (lib : cmdlib) (u : url) (acc : option cmd * option cmd * option cmd) (c : cmd) : option cmd * option cmd * option cmd :=
  let '(tc, dc, sc) := acc in
  if matchPattern lib c u then
    if (cmType c =? CMDTrafficControl)%Z then (match tc with None => Some c | Some _ => tc end, dc, sc)
    else if (cmType c =? CMDDegrade)%Z then (tc, Some c, sc)
    else if (cmType c =? CMDSwitcher)%Z then (tc, dc, Some c) else acc
  else acc.
Definition mergeCommand (lib : cmdlib) (info : bs) (u : url) : option cmd * option cmd * option cmd :=
  match clParse lib info with
  | None => (None, None, None)
  | Some l => fold_left (mergeStep lib u) (clSort lib l) (None, None, None)
  end.

(* a serviceListener: its identity and the last list it holds; which listeners the registry still calls is cwSubs *)
Record lsn := mkLsn { lnId : nat; lnUrls : list url }.
Record crw := mkCrw { cwUrl : url; cwStatic : option cmd; cwOwn : list url; cwOthers : list (bs * lsn); cwTc : option cmd; cwDegrade : option cmd;
                      cwSwitch : option cmd; cwAgent : bs; cwService : bs; cwWeights : list (bs * bs); cwAvail : bool; cwSubs : list (nat * bs); cwNext : nat }.
(* the part of a merge group before the first ':' *)
Definition groupName (g : bs) : bs := hd [] (splitOn x3a g).
(* core/constants.go 68 *)
Definition MixGroupsKey : bs := s2b "mixGroups".
(* 171-189 GetCommandRegistryWrapper *)
Definition staticOf (u : url) : option cmd :=
  match pgetD (uParams u) MixGroupsKey with
  | [] => None
  | mix => let others := filter (fun g => negb (bs_eqb g []) && negb (bs_eqb g (uGroup u))) (map trimSpace (splitOn x2c mix)) in
           match others with [] => None | _ => Some (mkCmd 0 CMDTrafficControl [] (uGroup u :: others) []) end
  end.
Definition newCrw (u : url) : crw := mkCrw u (staticOf u) [] [] None None None [] [] [] true [] 0.
(* 274-282 getCurrentTcCommand *)
Definition currentTc (w : crw) : option cmd := match cwTc w with Some c => Some c | None => cwStatic w end.
(* 504-511 newSubscribe: the listener and the state with its subscription; [disc]: what the registry answers for a group *)
Definition newSubscribe (disc : bs -> list url) (w : crw) (g : bs) : lsn * crw :=
  (mkLsn (cwNext w) (disc g),
   mkCrw (cwUrl w) (cwStatic w) (cwOwn w) (cwOthers w) (cwTc w) (cwDegrade w) (cwSwitch w) (cwAgent w) (cwService w) (cwWeights w) (cwAvail w)
         (cwSubs w ++ [(cwNext w, g)]) (S (cwNext w))).
Definition setOthers (w : crw) (o : list (bs * lsn)) : crw :=
  mkCrw (cwUrl w) (cwStatic w) (cwOwn w) o (cwTc w) (cwDegrade w) (cwSwitch w) (cwAgent w) (cwService w) (cwWeights w) (cwAvail w) (cwSubs w) (cwNext w).
(* 292-316 the loop over the merged groups in getResultWithCommand *)
Definition mergeGroup (disc : bs -> list url) (st : crw * list url) (group : bs) : crw * list url :=
  let '(w, result) := st in
  let g := groupName group in
  if bs_eqb (uGroup (cwUrl w)) g then (w, result ++ cwOwn w)
  else match aget bs_eqb (cwOthers w) g with
       | Some l => (w, result ++ lnUrls l)
       | None => let (l, w1) := newSubscribe disc w g in (setOthers w1 (aset bs_eqb (cwOthers w1) g l), result ++ lnUrls l)
       end.
(* 284-337 getResultWithCommand; the result is what is handed to the cluster *)
Definition getResult (lib : cmdlib) (disc : bs -> list url) (w : crw) : crw * list url :=
  match currentTc w with
  | None => (w, cwOwn w)
  | Some c =>
      let '(w1, merged) := fold_left (mergeGroup disc) (cmGroups c) (w, []) in
      let withRule := match merged with [] => [] | _ => merged ++ [buildRuleURL (joinStr (s2b ",") (cmGroups c))] end in
      match processRoute (clLocal lib) withRule (cmRoutes c) with [] => (w1, cwOwn w1) | r => (w1, r) end
  end.
(* 474-491 the loop over the merged groups in processTcCommand; the second component collects newListeners *)
Definition tcGroup (disc : bs -> list url) (old : list (bs * lsn)) (st : crw * list (bs * lsn) * list (bs * bs)) (group : bs)
  : crw * list (bs * lsn) * list (bs * bs) :=
  let '(w, news, weights) := st in
  let g := groupName group in
  let weights := match splitOn x3a group with a :: b :: _ => aset bs_eqb weights a b | _ => weights end in
  if bs_eqb (uGroup (cwUrl w)) g then (w, news, weights)
  else match aget bs_eqb old g with
       | Some l => (w, aset bs_eqb news g l, weights)
       | None => let (l, w1) := newSubscribe disc w g in (w1, aset bs_eqb news g l, weights)
       end.
(* 458-502 processTcCommand; 112-117 unSubscribe takes the listener out of the registry *)
Definition processTc (disc : bs -> list url) (w : crw) (newTc : option cmd) : crw :=
  let groups := match newTc with Some c => Some (cmGroups c) | None => option_map cmGroups (cwStatic w) end in
  let '(w1, news, weights) := match groups with
                              | None => (w, [], cwWeights w)
                              | Some gs => fold_left (tcGroup disc (cwOthers w)) gs (w, [], [])
                              end in
  let named := match groups with None => [] | Some gs => filter (fun g => negb (bs_eqb (uGroup (cwUrl w)) g)) (map groupName gs) end in
  let removed := filter (fun p => negb (existsb (bs_eqb (fst p)) named)) (cwOthers w) in
  let subs := filter (fun s => negb (existsb (fun p => lnId (snd p) =? fst s) removed)) (cwSubs w1) in
  mkCrw (cwUrl w1) (cwStatic w1) (cwOwn w1) news newTc (cwDegrade w1) (cwSwitch w1) (cwAgent w1) (cwService w1) weights (cwAvail w1) subs (cwNext w1).
Definition orElse {A} (a b : option A) : option A := match a with Some _ => a | None => b end.
(* 404-456 processCommand; the switchers themselves are in SwitchCmdModel.v *)
Definition processCommand (lib : cmdlib) (disc : bs -> list url) (w : crw) (typ : Z) (info : bs) : crw * bool :=
  let go agent service :=
    let '(t1, d1, s1) := match agent with [] => (None, None, None) | _ => mergeCommand lib agent (cwUrl w) end in
    let '(t2, d2, s2) := match service with [] => (None, None, None) | _ => mergeCommand lib service (cwUrl w) end in
    let tc := orElse t1 t2 in let dc := orElse d1 d2 in let sc := orElse s1 s2 in
    let need := match tc, cwTc w with None, None => false | _, _ => true end in
    let w1 := processTc disc w tc in
    (mkCrw (cwUrl w1) (cwStatic w1) (cwOwn w1) (cwOthers w1) (cwTc w1) dc sc agent service (cwWeights w1)
           (match dc with None => true | Some _ => false end) (cwSubs w1) (cwNext w1), need) in
  if (typ =? AgentCmd)%Z then if bs_eqb (cwAgent w) info then (w, false) else go info (cwService w)
  else if (typ =? ServiceCmd)%Z then if bs_eqb (cwService w) info then (w, false) else go (cwAgent w) info
  else (w, false).

Inductive wop :=
| WCommand (typ : Z) (info : bs) (disc : bs -> list url)               (* NotifyCommand *)
| WOwn (urls : list url) (disc : bs -> list url)                       (* Notify for the own group *)
| WOther (id : nat) (urls : list url) (disc : bs -> list url)          (* Notify of a serviceListener *)
| WDiscover (urls : list url) (service : bs) (disc : bs -> list url)   (* Discover with a registry that has commands *)
| WUnsubscribe.
Definition setOwn (w : crw) (urls : list url) : crw :=
  mkCrw (cwUrl w) (cwStatic w) urls (cwOthers w) (cwTc w) (cwDegrade w) (cwSwitch w) (cwAgent w) (cwService w) (cwWeights w) (cwAvail w) (cwSubs w) (cwNext w).
(* one step: the new state and the list handed to the cluster, if any.  586-592 NotifyCommand, 594-614 Notify, 102-110 the
   listener's Notify, 238-249 Discover (whose result the caller gives to the cluster), 257-272 clear *)
Definition wStep (lib : cmdlib) (w : crw) (o : wop) : crw * option (list url) :=
  match o with
  | WCommand typ info disc =>
      let (w1, need) := processCommand lib disc w typ info in
      if need then let (w2, r) := getResult lib disc w1 in (w2, Some r) else (w1, None)
  | WOwn urls disc =>
      let w1 := setOwn w urls in
      let need := match currentTc w1 with None => true | Some c => existsb (fun g => bs_eqb (groupName g) (uGroup (cwUrl w1))) (cmGroups c) end in
      if need then let (w2, r) := getResult lib disc w1 in (w2, Some r) else (w1, None)
  | WOther id urls disc =>
      if existsb (fun s => fst s =? id) (cwSubs w)
      then let w1 := setOthers w (map (fun p => if lnId (snd p) =? id then (fst p, mkLsn id urls) else p) (cwOthers w)) in
           let (w2, r) := getResult lib disc w1 in (w2, Some r)
      else (w, None)
  | WDiscover urls service disc =>
      let (w1, _) := processCommand lib disc (setOwn w urls) ServiceCmd service in
      let (w2, r) := getResult lib disc w1 in (w2, Some r)
  | WUnsubscribe =>
      (mkCrw (cwUrl w) (cwStatic w) [] [] None None (cwSwitch w) [] [] [] (cwAvail w)
             (filter (fun s => negb (existsb (fun p => lnId (snd p) =? fst s) (cwOthers w))) (cwSubs w)) (cwNext w), None)
  end.
Fixpoint wRun (lib : cmdlib) (w : crw) (os : list wop) : crw :=
  match os with [] => w | o :: r => wRun lib (fst (wStep lib w o)) r end.
