(* NgxProps.v: tools/nginx/parser.go, reading nginx configurations (C90) and turning them into http locations (C91). *)
From Verif Require Import Base GoStrings GoStrings2 HttpModel NgxModel NgxSpec NgxProofs.

(* ------------------------------------------------------------ C90 *)

(* A text of the grammar is read as the directives it stands for. *)
Theorem C90_parse : forall t ds, dirs t ds -> parse t = POk ds [].
Proof. exact parse_grammar. Qed.
Print Assumptions C90_parse.

(* Nothing else is read: directives are only returned for a text of the grammar, up to a tail in which no directive is complete. *)
Theorem C90_only : forall l ds rest, parse l = POk ds rest -> rest = [] /\ exists t tail, l = t ++ tail /\ dirs t ds /\ unfinished tail.
Proof. exact parse_only. Qed.
Print Assumptions C90_only.

(* No text makes the parser index out of range, and it ends on every text. *)
Theorem C90_total : forall l, parse l <> PPanic /\ parse l <> PFuel.
Proof. exact parse_total. Qed.
Print Assumptions C90_total.

(* The grammar is unambiguous. *)
Theorem C90_unambiguous : forall t ds1 ds2, dirs t ds1 -> dirs t ds2 -> ds1 = ds2.
Proof. intros t ds1 ds2 A B. apply parse_grammar in A, B. rewrite A in B. injection B as ->. reflexivity. Qed.
Print Assumptions C90_unambiguous.

(* Any directives, with any bytes in their words, can be written: printed with quoted words they are read back. *)
Theorem C90_print : forall ds, dirs (show ds) ds /\ parse (show ds) = POk ds [].
Proof. intro ds. split; [apply show_dirs|apply parse_grammar, show_dirs]. Qed.
Print Assumptions C90_print.

(* A configuration that ends inside a directive at the outer level is accepted without it; inside a block it is an error. *)
Theorem C90_cut_accepted_refuted :
  ~ (forall l ds rest, parse l = POk ds rest -> dirs l ds).
Proof.
  intro H. assert (P : parse (s2b "a b; listen 80") = POk [Dir (s2b "a") [s2b "b"] None] []) by reflexivity. specialize (H _ _ _ P).
  destruct (one_simple _ _ H) as [(u & r & E & B)|(u & r & E)].
  - do 14 (destruct u as [|? u]; [try discriminate E; injection E as <-; inversion B as [|? ? _ B'|]; inversion B' as [|? ? X _|]; cbn in X; intuition discriminate|]; cbn in E; injection E as ? E; subst).
    destruct u; discriminate E.
  - do 14 (destruct u as [|? u]; [discriminate E|]; cbn in E; injection E as ? E; subst). destruct u; discriminate E.
Qed.
Print Assumptions C90_cut_accepted_refuted.

(* Single quotes do not quote, though the reader has a flag for them. *)
Theorem C90_single_quotes_refuted :
  parse (s2b "log_format 'a b';") = POk [Dir (s2b "log_format") [s2b "'a"; s2b "b'"] None] [].
Proof. reflexivity. Qed.
Print Assumptions C90_single_quotes_refuted.

(* A variable in braces is taken into the word it stands in, but not at the start of one, where it opens a block. *)
Theorem C90_leading_variable_refuted :
  parse (s2b "set a${b}c;") = POk [Dir (s2b "set") [s2b "a${b}c"] None] [] /\
  parse (s2b "set ${b}c;") = PErr (EEnd 1) /\
  parse (s2b "set ${b} c;}") = POk [Dir (s2b "set") [s2b "$"] (Some [Dir (s2b "b}") [s2b "c"] None])] [].
Proof. vm_compute. auto. Qed.
Print Assumptions C90_leading_variable_refuted.

Definition exText : bs := s2b "http { # upstreams
  server { location ~* /a { proxy_pass http://up;
      if ($request_uri !~ ""^/b\\d"") { rewrite ^/a(.*) /c$1 break; } } }
  empty ""; {"" ;
}
".
Example C90_example : parse exText = POk [Dir (s2b "http") [] (Some
  [Dir (s2b "server") [] (Some [Dir (s2b "location") [s2b "~*"; s2b "/a"] (Some
     [Dir (s2b "proxy_pass") [s2b "http://up"] None;
      Dir (s2b "if") [s2b "($request_uri"; s2b "!~"; s2b "^/b\d"; s2b ")"] (Some [Dir (s2b "rewrite") [s2b "^/a(.*)"; s2b "/c$1"; s2b "break"] None])])]);
   Dir (s2b "empty") [s2b "; {"] None])] [].
Proof. vm_compute. reflexivity. Qed.
(* a text of the grammar with a comment, a bare and a quoted word and blocks *)
Example C90_grammar_example : dirs (s2b "server { # c
 location / { pass ""a b"" ; } }")
  [Dir (s2b "server") [] (Some [Dir (s2b "location") [s2b "/"] (Some [Dir (s2b "pass") [s2b "a b"] None])])].
Proof.
  assert (W : forall c t, existsb (byte_eqb c) [x20; x09; x0d; x0a; x3b; x7b; x7d; x23; x5c; x22] = false ->
    forallb (fun c => negb (ngSpace c || existsb (byte_eqb c) [x3b; x7b; x5c; x24])) t = true -> word (c :: t) (c :: t) Bare).
  { intros c t H1 H2. assert (N : ~ In c [x20; x09; x0d; x0a; x3b; x7b; x7d; x23; x5c; x22]).
    { intro X. assert (existsb (byte_eqb c) [x20; x09; x0d; x0a; x3b; x7b; x7d; x23; x5c; x22] = true) by (apply existsb_exists; exists c; split; [exact X|apply byte_eqb_spec; reflexivity]). congruence. }
    apply plain_word; [|intro X; apply N; cbn in *; tauto|exact H2]. unfold Space. intro X. apply N. cbn in *. tauto. }
  assert (SP : Space x20) by (left; reflexivity). assert (B1 : blank (s2b " ")) by (apply bl_space; [exact SP|apply bl_nil]). assert (G1 : gap (s2b " ")) by (constructor; [exact SP|apply bl_nil]).
  apply (d_block [] (s2b "server") (s2b "server") [] Bare (s2b " ") (s2b " # c
 location / { pass ""a b"" ; } ") _ [] []).
  - apply bl_nil.
  - apply ws_one. apply W; reflexivity.
  - right. exact G1.
  - apply (d_block (s2b " # c
 ") (s2b "location /") (s2b "location") [s2b "/"] Bare (s2b " ") (s2b " pass ""a b"" ; ") _ (s2b " ") []).
    + apply bl_space; [exact SP|]. apply (bl_comment (s2b " c") (s2b " ")); [cbn; intuition discriminate|exact B1].
    + apply (ws_more (s2b "location") [s2b "location"] Bare (s2b " ") (s2b "/") (s2b "/") Bare); [apply ws_one; apply W; reflexivity|exact G1|apply W; reflexivity].
    + right. exact G1.
    + apply (d_simple (s2b " ") (s2b "pass ""a b""") (s2b "pass") [s2b "a b"] Quote (s2b " ") (s2b " ") []).
      * exact B1.
      * apply (ws_more (s2b "pass") [s2b "pass"] Bare (s2b " ") (s2b """a b""") (s2b "a b") Quote); [apply ws_one; apply W; reflexivity|exact G1|].
        apply (w_quoted (s2b "a b") (s2b "a b") false). repeat (apply in_plain; [repeat split; discriminate|]). apply in_nil.
      * right. exact G1.
      * apply d_end. exact B1.
    + apply d_end. exact B1.
  - apply d_end. apply bl_nil.
Qed.

(* ------------------------------------------------------------ C91 *)

(* A configuration whose locations are written in the supported ways is turned into the intended locations: all of them, those
   in blocks of any depth too, in the order of the text, with their kind, match, upstream and rewrites; locations without an
   upstream are left out. *)
Theorem C91_convert : forall t ds ns, dirs t ds -> Forall2 reads (flat_map locsOf ds) ns ->
  exists out, convert t = Some out /\ Forall2 renders (filter served ns) out.
Proof. exact convert_reads. Qed.
Print Assumptions C91_convert.

(* What the rules made of the rewrites do with a path: the pattern's replacement where the pattern matches, and for a rewrite
   under a condition only if the condition holds of the path. *)
Theorem C91_rewrite : forall K i r path query qget, itemRule K i r -> hasPrefix path (s2b "/") = true ->
  match i with
  | IRewrite m p _ => exists x, K m = Some x /\
      rewrite r path query qget = match rx_expand x p path with Some u => (u, true) | None => (path, false) end
  | IIf _ _ op re m p _ => exists x b t y, K m = Some x /\ condition op b t /\ K (match t with CIRegexp => s2b "(?i)" ++ re | _ => re end) = Some y /\
      rewrite r path query qget = if Bool.eqb (rx_match y path) b then (path, false)
                                  else match rx_expand x p path with Some u => (u, true) | None => (path, false) end
  | _ => False
  end.
Proof.
  intros K i r path query qget H P. destruct i as [u|m p f|o c op re m p f|n a s]; cbn [itemRule] in H; try contradiction.
  - destruct H as (x & KX & ->). exists x. split; [exact KX|]. unfold rewrite. cbn [r_type r_cond r_not r_pattern r_replace]. rewrite P. destruct (rx_expand x p path); reflexivity.
  - destruct H as (b & t & x & y & C & KY & KX & ->). exists x, b, t, y. repeat (split; [assumption|]). unfold rewrite. cbn [r_type r_cond r_not r_pattern r_replace r_condRx].
    destruct C; destruct (rx_match y path); cbn; destruct (rx_expand x p path); reflexivity.
Qed.
Print Assumptions C91_rewrite.

Definition exInt : list intended :=
  [mkInt (s2b "iregexp") (s2b "/a") [IPass (s2b "up"); IIf false true (s2b "!~") (s2b "^/b\d") (s2b "^/a(.*)") (s2b "/c$1") [s2b "break"]]].
Example C91_example : exists ds, Forall2 reads (flat_map locsOf ds) exInt /\ parse exText = POk ds [] /\ filter served exInt = exInt /\
  convert exText = Some [mkLoc (s2b "up") (s2b "/a") (s2b "iregexp") [s2b "!regexp ^/b\d ^/a(.*) /c$1"]].
Proof.
  eexists. split; [|split; [exact C90_example|split; vm_compute; reflexivity]]. cbn [flat_map locsOf app].
  constructor; [|constructor]. split; [constructor|]. split; [reflexivity|]. cbn [exInt i_items]. constructor; [exact Logic.I|]. constructor; [|constructor].
  split; [do 2 eexists; constructor|]. repeat split; try discriminate; repeat constructor; cbn; intuition discriminate.
Qed.

(* A rewrite whose quoted pattern has a blank is turned into a rule motan refuses, under any compiler. *)
Theorem C91_blank_refuted : exists l, convert (s2b "location / { proxy_pass http://up; rewrite ""^/a b"" /c; }") = Some [l] /\
  l_rules l = [s2b "start / ^/a b /c"] /\ forall K, newRewriteRule K (s2b "start / ^/a b /c") = None.
Proof. eexists. split; [vm_compute; reflexivity|]. split; reflexivity. Qed.
Print Assumptions C91_blank_refuted.

(* Every upstream loses seven bytes, so the name behind https:// keeps a slash. *)
Theorem C91_https_refuted : forall up, bodyOf [Dir (s2b "proxy_pass") [s2b "https://" ++ up] None] [] [] = Some (s2b "/" ++ up, []).
Proof. reflexivity. Qed.
Print Assumptions C91_https_refuted.

(* nginx's ^~ modifier and words that are too short stop the whole conversion. *)
Theorem C91_panics_refuted :
  convert (s2b "location ^~ /a { proxy_pass http://up; }") = None /\ convert (s2b "location ^ { proxy_pass http://up; }") = None /\
  convert (s2b "location / { proxy_pass up; }") = None /\ convert (s2b "location / { proxy_pass http://up; if ($request_uri = /x) { break; } }") = None.
Proof. repeat split; vm_compute; reflexivity. Qed.
Print Assumptions C91_panics_refuted.

(* An unconditional rewrite under a last or break flag and one without are the same rule. *)
Theorem C91_flag_refuted : forall m p f g up rules, bodyOf [Dir (s2b "rewrite") (m :: p :: f) None] up rules = bodyOf [Dir (s2b "rewrite") (m :: p :: g) None] up rules.
Proof. reflexivity. Qed.
Print Assumptions C91_flag_refuted.
