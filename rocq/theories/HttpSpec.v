(* HttpSpec.v: what C40, C64 and C65 mean. *)
From Verif Require Import Base GoStrings GoStrings2 HttpModel.

(* [x] is the first element of [l] satisfying [P] *)
Definition first_such {A} (P : A -> Prop) (l : list A) (x : A) : Prop :=
  exists a b, l = a ++ x :: b /\ P x /\ (forall y, In y a -> ~ P y).

(* how a location is matched, from its configuration *)
Definition is_exact (path : bs) (l : location) : Prop := l_type l = s2b "exact" /\ l_match l = path.
Definition is_regexp (K : compiler) (path : bs) (l : location) : Prop :=
  exists x, rx_match x path = true /\
    (l_type l = s2b "regexp" /\ K (l_match l) = Some x \/ l_type l = s2b "iregexp" /\ K (s2b "(?i)" ++ l_match l) = Some x).
Definition is_prefix (path : bs) (l : location) : Prop :=
  (l_type l = s2b "start" \/ l_type l = []) /\ l_match l <> [] /\ exists rest, path = l_match l ++ rest.

(* nginx: exact, then the first regular expression, then the longest prefix *)
Definition nginx_choice (K : compiler) (ls : list location) (path : bs) (l : location) : Prop :=
  first_such (is_exact path) ls l \/
  (forall y, In y ls -> ~ is_exact path y) /\ first_such (is_regexp K path) ls l \/
  (forall y, In y ls -> ~ is_exact path y) /\ (forall y, In y ls -> ~ is_regexp K path y) /\
  exists a b, ls = a ++ l :: b /\ is_prefix path l /\
    (forall y, In y a -> is_prefix path y -> length (l_match y) < length (l_match l)) /\
    (forall y, In y b -> is_prefix path y -> length (l_match y) <= length (l_match l)).

(* the words a rule may begin with *)
Definition condition_words : list (bs * ctype) :=
  [(s2b "regexp", CRegexp); (s2b "iregexp", CIRegexp); (s2b "start", CStart); (s2b "exact", CExact); (s2b "regexpVar", CRegexpVar)].

(* a rewrite rule applies to a path: its condition holds and its pattern matches *)
Definition cond_holds (r : rule) (path : bs) : Prop :=
  let m := match r_type r with
           | CExact => path = r_cond r
           | CStart => exists rest, path = r_cond r ++ rest
           | _ => exists x, r_condRx r = Some x /\ rx_match x path = true
           end in
  if r_not r then ~ m else m.
Definition rule_gives (r : rule) (path query : bs) (qget : bs -> bs) (path' : bs) : Prop :=
  cond_holds r path /\ exists u, rx_expand (r_pattern r) (r_replace r) path = Some u /\ path' = rewriteVar (r_type r) u query qget.

(* white space separated fields: a first field, then pieces of white space each followed by a field *)
Definition white : list byte := [x09; x0a; x0c; x0d; x20].     (* tab, line feed, form feed, carriage return, space *)
Definition spaceless (f : bs) : Prop := Forall (fun c => ~ In c white) f.
Definition blank (w : bs) : Prop := w <> [] /\ Forall (fun c => In c white) w.
Fixpoint fields_ok (l : list (bs * bs)) : Prop :=
  match l with
  | [] => True
  | (w, f) :: r => blank w /\ spaceless f /\ (r <> [] -> f <> []) /\ fields_ok r
  end.
Definition text_of (l : list (bs * bs)) : bs := flat_map (fun wf => fst wf ++ snd wf) l.

(* the bytes of a variable's name *)
Definition letters : bs := s2b "0123456789abcdefghijklmnopqrstuvwxyzABCDEFGHIJKLMNOPQRSTUVWXYZ".
(* attachments sent under another name, and attachments not sent *)
Definition motan_names : list (bs * bs) :=
  [(s2b "M_p", s2b "MOTAN-p"); (s2b "M_m", s2b "MOTAN-m"); (s2b "M_md", s2b "MOTAN-md"); (s2b "M_g", s2b "MOTAN-g");
   (s2b "M_pp", s2b "MOTAN-pp"); (s2b "M_v", s2b "MOTAN-v"); (s2b "M_mdu", s2b "MOTAN-mdu"); (s2b "M_s", s2b "MOTAN-s");
   (s2b "M_rid", s2b "MOTAN-rid"); (s2b "M_tmo", s2b "MOTAN-tmo")].
Definition unsent_names : list bs := [s2b "HTTP_PROXY"; s2b "HTTP_Method"; s2b "HTTP_QueryString"; s2b "host"; s2b "Host"].
(* path templates: literals without braces and variables *)
Inductive piece := Lit (s : bs) | Var (k : bs).
Definition piece_ok (p : piece) : Prop :=
  match p with
  | Lit s => ~ In x7b s /\ ~ In x7d s
  | Var k => k <> [] /\ Forall (fun c => isVarChar c = true) k
  end.
Definition piece_text (p : piece) : bs := match p with Lit s => s | Var k => [x7b] ++ k ++ [x7d] end.
Definition piece_value (qget : bs -> bs) (p : piece) : bs := match p with Lit s => s | Var k => qget k end.

(* reading a form: split at '&', cut at the first '=', decode '+' and %XX *)
Definition unhex (c : byte) : option N :=
  let n := b2n c in
  if (N.leb 48 n && N.leb n 57)%N then Some (n - 48)%N
  else if (N.leb 65 n && N.leb n 70)%N then Some (n - 55)%N
  else if (N.leb 97 n && N.leb n 102)%N then Some (n - 87)%N
  else None.
Fixpoint unescape (s : bs) : option bs :=
  match s with
  | [] => Some []
  | c :: r =>
      if byte_eqb c x25 then
        match r with
        | a :: b :: t => match unhex a, unhex b, unescape t with
                         | Some x, Some y, Some u => Some (n2b (16 * x + y) :: u)
                         | _, _, _ => None
                         end
        | _ => None
        end
      else match unescape r with Some u => Some ((if byte_eqb c x2b then x20 else c) :: u) | None => None end
  end.
Fixpoint cut (c : byte) (s : bs) : bs * bs :=
  match s with
  | [] => ([], [])
  | x :: r => if byte_eqb x c then ([], r) else let '(a, b) := cut c r in (x :: a, b)
  end.
Fixpoint all_some {A} (l : list (option A)) : option (list A) :=
  match l with
  | [] => Some []
  | Some x :: r => match all_some r with Some t => Some (x :: t) | None => None end
  | None :: _ => None
  end.
Definition parse_form (s : bs) : option (list (bs * bs)) :=
  all_some (map (fun p => let '(k, v) := cut x3d p in
                          match unescape k, unescape v with Some a, Some b => Some (a, b) | _, _ => None end) (splitOn x26 s)).
(* names that need no escaping *)
Definition plain_name (k : bs) : Prop := ~ In x26 k /\ ~ In x3d k /\ ~ In x25 k /\ ~ In x2b k.
