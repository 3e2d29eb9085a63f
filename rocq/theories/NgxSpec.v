(* NgxSpec.v: the grammar of the configurations tools/nginx/parser.go is meant to read, and what locations mean. *)
From Verif Require Import Base GoStrings GoStrings2 HttpModel NgxModel.

(* ------------------------------------------------------------ grammar *)

Definition Space (c : byte) : Prop := In c [x20; x09; x0d; x0a].
(* white space and comments; a comment ends with the line *)
Inductive blank : bs -> Prop :=
| bl_nil : blank []
| bl_space c t : Space c -> blank t -> blank (c :: t)
| bl_comment b t : ~ In x0a b -> blank t -> blank (x23 :: b ++ x0a :: t).
(* a separator: white space first, since a # inside a word starts no comment *)
Inductive gap : bs -> Prop := gap_intro c t : Space c -> blank t -> gap (c :: t).

(* what \e stands for *)
Definition escapes : list (byte * byte) := [(x22, x22); (x27, x27); (x5c, x5c); (x74, x09); (x72, x0d); (x6e, x0a)].
(* bytes that stand for themselves inside a quoted or a bare word *)
Definition plain (q d : bool) (c : byte) : Prop :=
  c <> x5c /\ c <> x24 /\ (c = x7b -> d = false) /\
  (if q then c <> x22 else ~ Space c /\ c <> x3b /\ c <> x7b).
(* [inside q d t v d']: the text t, inside a word (quoted: q), has the value v; d and d': there is an open dollar sign before t
   and before what follows t, which takes braces into the word *)
Inductive inside (q : bool) : bool -> bs -> bs -> bool -> Prop :=
| in_nil d : inside q d [] [] d
| in_plain d c t v d' : plain q d c -> inside q false t v d' -> inside q d (c :: t) (c :: v) d'
| in_dollar d t v d' : inside q true t v d' -> inside q d (x24 :: t) (x24 :: v) d'
| in_brace t v d' : inside q true t v d' -> inside q true (x7b :: t) (x7b :: v) d'
| in_escape d e c t v d' : In (e, c) escapes -> inside q false t v d' -> inside q d (x5c :: e :: t) (c :: v) d'
| in_other d e t v d' : ~ In e (map fst escapes) -> inside q false t v d' -> inside q d (x5c :: e :: t) (x5c :: e :: v) d'.

(* how a word ends *)
Inductive wend := Bare | Dollar | Quote.
Definition bareEnd (d : bool) : wend := if d then Dollar else Bare.
Inductive word : bs -> bs -> wend -> Prop :=
| w_bare c t v d : ~ Space c -> ~ In c [x3b; x7b; x7d; x23; x5c; x22] -> inside false false t v d -> word (c :: t) (c :: v) (bareEnd d)
| w_back t v d : inside false false (x5c :: t) v d -> word (x5c :: t) v (bareEnd d)
| w_quoted t v d : inside true false t v d -> word (x22 :: t ++ [x22]) v Quote.
(* words are separated; only a closing parenthesis may follow a quoted word at once *)
Inductive words : bs -> list bs -> wend -> Prop :=
| ws_one t v e : word t v e -> words t [v] e
| ws_more t vs e g r v e' : words t vs e -> gap g -> word r v e' -> words (t ++ g ++ r) (vs ++ [v]) e'
| ws_paren t vs r v e' : words t vs Quote -> word (x29 :: r) v e' -> words (t ++ x29 :: r) (vs ++ [v]) e'.
(* directives: words and a semicolon, or words and a block *)
Inductive dirs : bs -> list dir -> Prop :=
| d_end b : blank b -> dirs b []
| d_simple b t n a e b' r ds : blank b -> words t (n :: a) e -> (b' = [] \/ gap b') -> dirs r ds ->
    dirs (b ++ t ++ b' ++ x3b :: r) (Dir n a None :: ds)
| d_block b t n a e b' i xs r ds : blank b -> words t (n :: a) e -> (b' = [] /\ e <> Dollar \/ gap b') -> dirs i xs -> dirs r ds ->
    dirs (b ++ t ++ b' ++ x7b :: i ++ x7d :: r) (Dir n a (Some xs) :: ds).
(* no directive is complete in the text *)
Definition unfinished (t : bs) : Prop := forall p k d, t = p ++ k -> ~ dirs p [d].

(* ------------------------------------------------------------ printing *)

(* a word in quotes *)
Fixpoint quoteBody (w : bs) : bs :=
  match w with [] => [] | c :: r => (if byte_eqb c x22 || byte_eqb c x5c then [x5c; c] else [c]) ++ quoteBody r end.
Definition showWord (w : bs) : bs := x22 :: quoteBody w ++ [x22].
Fixpoint showWords (ws : list bs) : bs :=
  match ws with [] => [] | w :: r => x20 :: showWord w ++ showWords r end.
Fixpoint showDir (d : dir) : bs :=
  match d with
  | Dir n a s =>
      showWord n ++ showWords a ++
      match s with None => [x3b; x0a] | Some ds => x7b :: x0a :: concat (map showDir ds) ++ [x7d; x0a] end
  end.
Definition show (ds : list dir) : bs := concat (map showDir ds).

(* ------------------------------------------------------------ locations *)

(* the location directives of a configuration that are in no other location, in order *)
Fixpoint locsOf (d : dir) : list (list bs * list dir) :=
  match d with
  | Dir n a s => if bs_eqb n (s2b "location") then [(a, match s with Some l => l | None => [] end)]
                 else match s with Some ds => flat_map locsOf ds | None => [] end
  end.
(* how nginx writes a match, and how motan names it *)
Inductive matches : list bs -> bs -> bs -> Prop :=
| m_exact p : matches [s2b "="; p] (s2b "exact") p
| m_regexp p : matches [s2b "~"; p] (s2b "regexp") p
| m_iregexp p : matches [s2b "~*"; p] (s2b "iregexp") p
| m_exact1 p : matches [x3d :: p] (s2b "exact") p
| m_regexp1 c p : c <> x2a -> matches [x7e :: c :: p] (s2b "regexp") (c :: p)
| m_iregexp1 p : matches [x7e :: x2a :: p] (s2b "iregexp") p
| m_prefix c p : ~ In c [x3d; x5e; x7e] -> matches [c :: p] (s2b "start") (c :: p).
(* a condition on the request's path: operator, negated, kind *)
Inductive condition : bs -> bool -> ctype -> Prop :=
| c_match : condition (s2b "~") false CRegexp
| c_imatch : condition (s2b "~*") false CIRegexp
| c_not : condition (s2b "!~") true CRegexp
| c_inot : condition (s2b "!~*") true CIRegexp.
(* a word without white space that can be part of a rule *)
Definition solid (w : bs) : Prop := w <> [] /\ Forall (fun c => ~ In c [x20; x09; x0a; x0c; x0d]) w.
(* what stands in a location: an upstream, a rewrite, a rewrite under a condition (whose opening, closing parenthesis may stand
   apart), anything else *)
Inductive item := IPass (up : bs) | IRewrite (m p : bs) (flag : list bs) | IIf (o c : bool) (op re m p : bs) (flag : list bs) | IOther (n : bs) (a : list bs) (s : option (list dir)).
Definition itemDir (i : item) : dir :=
  match i with
  | IPass up => Dir (s2b "proxy_pass") [s2b "http://" ++ up] None
  | IRewrite m p f => Dir (s2b "rewrite") (m :: p :: f) None
  | IIf o c op re m p f => Dir (s2b "if") ((if o then [s2b "("; s2b "$request_uri"] else [s2b "($request_uri"]) ++ op ::
                              (if c then [re; s2b ")"] else [re ++ s2b ")"])) (Some [Dir (s2b "rewrite") (m :: p :: f) None])
  | IOther n a s => Dir n a s
  end.
Definition itemOk (i : item) : Prop :=
  match i with
  | IPass up => True
  | IRewrite m p _ => solid m /\ solid p
  | IIf _ _ op re m p _ => (exists b t, condition op b t) /\ solid re /\ solid m /\ solid p
  | IOther n _ _ => ~ In n [s2b "proxy_pass"; s2b "rewrite"; s2b "if"]
  end.
(* the rules of a location as motan holds them: an unconditional rewrite tests that the path starts with a slash *)
Definition itemRule (K : compiler) (i : item) (r : rule) : Prop :=
  match i with
  | IRewrite m p _ => exists x, K m = Some x /\ r = mkRule false CStart (s2b "/") None x p
  | IIf _ _ op re m p _ => exists b t x y, condition op b t /\ K (match t with CIRegexp => s2b "(?i)" ++ re | _ => re end) = Some y /\ K m = Some x /\ r = mkRule b t re (Some y) x p
  | _ => False
  end.
Definition isRule (i : item) : bool := match i with IRewrite _ _ _ | IIf _ _ _ _ _ _ _ => true | _ => false end.
Definition lastPass (is : list item) : bs := fold_left (fun u i => match i with IPass up => up | _ => u end) is [].
(* a location as it is meant: kind and value of the match, and what stands in it *)
Record intended := mkInt { i_type : bs; i_match : bs; i_items : list item }.
(* a location directive, given by its arguments and its block, reads so *)
Definition reads (l : list bs * list dir) (n : intended) : Prop :=
  matches (fst l) (i_type n) (i_match n) /\ snd l = map itemDir (i_items n) /\ Forall itemOk (i_items n).
(* the location of motan is the intended one: the last upstream named, and a rule for each rewrite, in order, each of
   which motan compiles to that rewrite or, when a regular expression does not compile, refuses *)
Definition renders (n : intended) (l : location) : Prop :=
  l_type l = i_type n /\ l_match l = i_match n /\ l_up l = lastPass (i_items n) /\
  Forall2 (fun i text => text <> [] /\ forall K r, newRewriteRule K text = Some r <-> itemRule K i r) (filter isRule (i_items n)) (l_rules l).
(* only locations with an upstream are of use *)
Definition served (n : intended) : bool := negb (bs_empty (lastPass (i_items n))).
