(* CmdSpec.v: vocabulary of C23 and C24. *)
From Coq Require Import Permutation Sorted.
From Verif Require Import Base Lists GoStrings GoStrings2 UrlModel UrlSpec ClusterModel CmdModel.

(* ---- C23: addresses in rules *)
(* a pattern without '*' names one address; with '*' it stands for everything starting with what precedes the first '*' *)
Definition match_plain (p h : bs) : Prop :=
  (~ In x2a p /\ h = p) \/ (exists a b, p = a ++ x2a :: b /\ ~ In x2a a /\ exists t, h = a ++ t).
(* a leading '!' negates *)
Definition match_addr (p h : bs) : Prop := match p with x21 :: q => ~ match_plain q h | _ => match_plain p h end.
(* "from to target": the word "to" occurs once, and both sides are non-empty after trimming *)
Definition rule_is (r from target : bs) : Prop :=
  exists a b, r = a ++ s2b "to" ++ b /\ contains a (s2b "to") = false /\ contains b (s2b "to") = false /\
              from = trimSpace a /\ target = trimSpace b /\ from <> [] /\ target <> [].
Definition route_allows (local : bs) (routers : list bs) (u : url) : Prop :=
  uProtocol u = s2b "rule" \/
  forall r from target, In r routers -> rule_is r from target -> match_addr from local -> match_addr target (uHost u).

(* ---- C24 *)
Definition sort_ok (lib : cmdlib) : Prop :=
  forall l, Permutation (clSort lib l) l /\ StronglySorted (fun a b => (cmIndex a <= cmIndex b)%Z) (clSort lib l).
(* the commands of a text; an empty or unreadable text has none *)
Definition cmds_of (lib : cmdlib) (info : bs) : list cmd :=
  match info with [] => [] | _ => match clParse lib info with Some l => l | None => [] end end.
(* a traffic (0) or degrade (1) command concerns a service *)
Definition concerns (lib : cmdlib) (u : url) (t : Z) (c : cmd) : Prop :=
  cmType c = t /\ (cmPattern c = s2b "*" \/ (exists r, uPath u = cmPattern c ++ r) \/ clReg lib (cmPattern c) (uPath u) = true).
Definition none_concerns (lib : cmdlib) (u : url) (t : Z) (info : bs) : Prop := forall c, In c (cmds_of lib info) -> ~ concerns lib u t c.
Definition lowest (lib : cmdlib) (u : url) (t : Z) (info : bs) (c : cmd) : Prop :=
  In c (cmds_of lib info) /\ concerns lib u t c /\ forall c', In c' (cmds_of lib info) -> concerns lib u t c' -> (cmIndex c <= cmIndex c')%Z.
(* the last text of a kind (0 agent, 1 service) in a history *)
Definition text_after (t : Z) (cur : bs) (o : wop) : bs :=
  match o with
  | WCommand typ info _ => if (typ =? t)%Z then info else cur
  | WDiscover _ service _ => if (t =? 1)%Z then service else cur
  | WUnsubscribe => []
  | _ => cur
  end.
Definition last_text (t : Z) (os : list wop) : bs := fold_left (text_after t) os [].
Definition own_after (cur : list url) (o : wop) : list url :=
  match o with WOwn urls _ | WDiscover urls _ _ => urls | WUnsubscribe => [] | _ => cur end.
Definition last_own (os : list wop) : list url := fold_left own_after os [].
Definition wAfter (lib : cmdlib) (u : url) (os : list wop) : crw := wRun lib (newCrw u) os.
(* the other groups a command merges *)
Definition other_group (u : url) (c : cmd) (g : bs) : Prop := In g (map groupName (cmGroups c)) /\ g <> uGroup u.
(* the nodes of the groups of a command, from the lists held for them *)
Definition group_nodes (w : crw) (group : bs) : list url :=
  if bs_eqb (uGroup (cwUrl w)) (groupName group) then cwOwn w
  else match aget bs_eqb (cwOthers w) (groupName group) with Some l => lnUrls l | None => [] end.
Definition merged_nodes (w : crw) (c : cmd) : list url := concat (map (group_nodes w) (cmGroups c)).
Definition disc_of (o : wop) : bs -> list url :=
  match o with WCommand _ _ d | WOwn _ d | WOther _ _ d | WDiscover _ _ d => d | WUnsubscribe => fun _ => [] end.
(* every command names a group at most once *)
Definition distinct_groups (lib : cmdlib) (u : url) : Prop :=
  (forall info l c, clParse lib info = Some l -> In c l -> NoDup (map groupName (cmGroups c))) /\
  (forall c, staticOf u = Some c -> NoDup (map groupName (cmGroups c))).
(* the groups a url's parameter "mixGroups" asks for besides its own: separated by commas, blanks around them dropped *)
Definition mix_group (u : url) (g : bs) : Prop :=
  exists m piece, pget (uParams u) (s2b "mixGroups") = Some m /\ In piece (splitOn x2c m) /\ g = trimSpace piece /\ g <> [] /\ g <> uGroup u.
(* the weight a command's list of groups gives a group: what follows "group:" up to the next ':', in the last entry of that form *)
Definition weight_entry (e g x : bs) : Prop := ~ In x3a g /\ ~ In x3a x /\ (e = g ++ x3a :: x \/ exists t, e = g ++ x3a :: x ++ x3a :: t).
Definition weight_given (gs : list bs) (g x : bs) : Prop :=
  exists l e r, gs = l ++ e :: r /\ weight_entry e g x /\ forall e' x', In e' r -> ~ weight_entry e' g x'.

(* the url that tells a cluster the weights of the groups *)
Definition rule_url (weights : bs) : url := mkUrl (s2b "rule") [] 0 [] [] (Some [(s2b "weight", weights)]).
(* a switcher command (type 2) or a degrade command (type 1) of a text which is one of highest index among those of its kind;
   switcher commands are for every service *)
Definition for_service (lib : cmdlib) (u : url) (t : Z) (c : cmd) : Prop := if (t =? 2)%Z then cmType c = 2%Z else concerns lib u t c.
Definition highest (lib : cmdlib) (u : url) (t : Z) (info : bs) (c : cmd) : Prop :=
  In c (cmds_of lib info) /\ for_service lib u t c /\ forall c', In c' (cmds_of lib info) -> for_service lib u t c' -> (cmIndex c' <= cmIndex c)%Z.
Definition none_for (lib : cmdlib) (u : url) (t : Z) (info : bs) : Prop := forall c, In c (cmds_of lib info) -> ~ for_service lib u t c.
(* the agent's text decides if it holds such a command, else the service's *)
Definition takes (lib : cmdlib) (u : url) (t : Z) (agent service : bs) (o : option cmd) : Prop :=
  match o with
  | Some c => highest lib u t agent c \/ (none_for lib u t agent /\ highest lib u t service c)
  | None => none_for lib u t agent /\ none_for lib u t service
  end.
