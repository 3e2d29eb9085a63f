(* CtxSpec.v: what the URLs of a configuration are, for C68, C69 and C70. *)
From Verif Require Import Base Strconv GoStrings GoStrings2 UrlModel UrlSpec ConfModel CtxModel.

(* ---- C68: one section *)
Definition reserved : list bs := map s2b ["protocol"; "host"; "port"; "path"; "group"]%string.
(* the value of a string field: the text, or nothing *)
Definition text_field (m : cmap) (k : string) : bs :=
  match aget ckey_eqb m (KStr (s2b k)) with Some (CStr s) => s | _ => [] end.
Definition int_field (m : cmap) (k : string) : Z :=
  match aget ckey_eqb m (KStr (s2b k)) with Some (CInt z) => z | _ => 0%Z end.
(* a parameter is printed *)
Definition printed (fmtF : N -> bs) (v : cval) : bs :=
  match v with
  | CStr s => s | CInt z => fmtZ z | CFloat b => fmtF b
  | CBool true => s2b "true" | CBool false => s2b "false"
  | _ => []
  end.
(* an entry the code cannot take *)
Definition bad_entry (k : ckey) (v : cval) : Prop :=
  (exists n, k = KOther n) \/
  (exists s, k = KStr s /\ In s (map s2b ["protocol"; "host"; "path"; "group"]%string) /\ v <> CNil /\ forall t, v <> CStr t) \/
  (k = KStr (s2b "port") /\ forall z, v <> CInt z).
Definition first_of (a b : bs) : bs := match a with [] => b | _ => a end.

(* ---- C69: filters *)
Definition text (u : url) (k : bs) : bs := match param u k with Some v => v | None => [] end.
(* the names in a comma separated text, see C49 *)
Definition names (s : bs) : list bs := trimSplit s (s2b ",").
Definition wanted (agent : option url) (env : bs) (calls : list bs) (u : url) (f : bs) : Prop :=
  (exists a, agent = Some a /\ In f (names (text a (s2b "defaultFilter"))) /\ ~ In f (names (text u (s2b "disableDefaultFilter")))) \/
  (exists a, agent = Some a /\ In f (names (text a (s2b "globalFilter"))) /\ ~ In f (names (text u (s2b "disableGlobalFilter")))) \/
  In f (names env) \/
  (exists call, In call calls /\ In f (names (trimSpace call))) \/
  In f (names (text u (s2b "filter"))).

(* ---- C70: groups *)
Definition all_groups (env g : bs) : bs :=
  match env, g with [], _ => g | _, [] => env | _, _ => g ++ s2b "," ++ env end.
Definition in_group (env g x : bs) : Prop :=
  let t := all_groups env g in (contains t (s2b ",") = true /\ In x (names t)) \/ (contains t (s2b ",") = false /\ x = t).
(* [u'] is [u] in group [g] *)
Definition in_other_group (u u' : url) (g : bs) : Prop :=
  uProtocol u' = uProtocol u /\ uHost u' = uHost u /\ uPort u' = uPort u /\ uPath u' = uPath u /\ uGroup u' = g /\
  forall k, param u' k = param u k.
(* no name is another name followed by a dash and a number *)
Definition no_numbered (ks : list bs) : Prop := forall k k' n, In k ks -> In k' ks -> k' <> k ++ s2b "-" ++ fmtN n.
Definition ends_with (suffix g : bs) : Prop := exists p, g = p ++ suffix.
(* the same URL in the group with the suffix *)
Definition regroup (u : url) (g : bs) : url := mkUrl (uProtocol u) (uHost u) (uPort u) (uPath u) g (uParams u).
Definition auto_key (suffix : bs) (kc : bs * curl) : bs := s2b "auto_" ++ fst kc ++ uGroup (cUrl (snd kc)) ++ suffix.
(* the generated names are new and different *)
Definition no_clash (suffix : bs) (m : list (bs * curl)) : Prop :=
  NoDup (map fst m) /\ NoDup (map (auto_key suffix) m) /\ forall kc, In kc m -> ~ In (auto_key suffix kc) (map fst m).
Definition pairs (u : url) : list (bs * bs) := match uParams u with Some m => m | None => [] end.
Definition lacks (suffix : bs) (c : curl) : Prop := ~ ends_with suffix (uGroup (cUrl c)).
(* the identity the URL has in the group with the suffix *)
Definition target (suffix : bs) (c : curl) : bs := identity_of (regroup (cUrl c) (uGroup (cUrl c) ++ suffix)).
(* a URL no identity was asked of yet *)
Definition uncached (c : curl) : Prop := c = fresh (cUrl c).
(* the suffix is added once *)
Definition with_suffix (suffix g : bs) : bs := if hasSuffix g suffix then g else g ++ suffix.
