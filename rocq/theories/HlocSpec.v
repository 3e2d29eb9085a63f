(* HlocSpec.v: what the http sections of a configuration say, in terms of the value tree. *)
From Verif Require Import Base Strconv GoStrings GoStrings2 UrlModel UrlSpec ConfModel HttpModel HprovModel.

(* a map of the configuration has this value for the key *)
Definition says (m : cmap) (k : bs) (v : cval) : Prop := cget m (KStr k) = Some v.
Definition silent (m : cmap) (k : bs) : Prop := cget m (KStr k) = None.

(* an entry written for a location: upstream and match are strings; type and rewriteRules may be left out *)
Definition entry_of (v : cval) (l : location) : Prop :=
  exists m, v = CMap m
  /\ says m (s2b "upstream") (CStr (l_up l))
  /\ says m (s2b "match") (CStr (l_match l))
  /\ (says m (s2b "type") (CStr (l_type l)) \/ silent m (s2b "type") /\ l_type l = [])
  /\ (says m (s2b "rewriteRules") (CList (map CStr (l_rules l))) \/ silent m (s2b "rewriteRules") /\ l_rules l = []).

(* the list of entries under http-locations for a domain *)
Definition written (c : cmap) (domain : bs) (vs : list cval) : Prop :=
  exists sec, getSection c (s2b "http-locations") = Some sec /\ says sec domain (CList vs).

(* the settings under one key of a service: all strings *)
Definition settings_written (m : cmap) (sc : list (bs * bs)) : Prop := m = map (fun kv => (KStr (fst kv), CStr (snd kv))) sc.
(* one key of a service, which names methods; what stands under a key that names none is not looked at *)
Definition info_written (kv : ckey * cval) (e : bs * list (bs * bs)) : Prop :=
  fst kv = KStr (fst e) /\
  (trimSplit (fst e) (s2b ",") = [] /\ snd e = [] \/
   trimSplit (fst e) (s2b ",") <> [] /\ exists m, snd kv = CMap m /\ settings_written m (snd e)).
Definition service_written (kv : ckey * cval) (e : bs * list (bs * list (bs * bs))) : Prop :=
  fst kv = KStr (fst e) /\ exists m, snd kv = CMap m /\ Forall2 info_written m (snd e).
(* no map of the section has a key twice *)
Definition key_once (m : cmap) : Prop := NoDup (map fst m).
Definition once (m : cmap) : Prop :=
  key_once m /\ forall k info, In (k, CMap info) m -> key_once info /\ forall k' s, In (k', CMap s) info -> key_once s.
