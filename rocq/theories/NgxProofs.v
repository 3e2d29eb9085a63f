(* NgxProofs.v *)
From Verif Require Import Base GoStrings GoStrings2 HttpModel NgxModel NgxSpec.
From Verif Require HttpSpec HttpProofs HttpProps.

(* ------------------------------------------------------------ bytes *)

Lemma bneq {a b} : a <> b -> byte_eqb a b = false.
Proof. intro N. destruct (byte_eqb a b) eqn:E; [|reflexivity]. apply byte_eqb_spec in E. contradiction. Qed.
Lemma byes {a b} : byte_eqb a b = true -> a = b.
Proof. apply byte_eqb_spec. Qed.
Lemma bno a b : byte_eqb a b = false -> a <> b.
Proof. intros E ->. rewrite (proj2 (byte_eqb_spec b b) eq_refl) in E. discriminate E. Qed.
Lemma ngSpace_spec c : ngSpace c = true <-> Space c.
Proof.
  unfold ngSpace, Space. cbn [In]. rewrite !orb_true_iff, !byte_eqb_spec. intuition congruence.
Qed.
Lemma ngSpace_no c : ngSpace c = false <-> ~ Space c.
Proof. rewrite <- ngSpace_spec. destruct (ngSpace c); intuition congruence. Qed.
Lemma space_cases {c} : Space c -> c = x20 \/ c = x09 \/ c = x0d \/ c = x0a.
Proof. unfold Space. cbn. intuition congruence. Qed.

(* ------------------------------------------------------------ states *)

Definition A (args : list bs) : rst := mkRst [] false false false false true false args.
Definition B (q : bool) (buf : bs) (d : bool) (args : list bs) : rst := mkRst buf false false q false false d args.
Definition N0 (args : list bs) : rst := mkRst [] false false false true false false args.

Lemma A_space args c k : Space c -> readLoop (A args) (c :: k) = readLoop (A args) k.
Proof. intro S. destruct (space_cases S) as [-> | [-> | [-> | ->]]]; reflexivity. Qed.
Lemma in_comment args b k : ~ In x0a b -> readLoop (mkRst [] true false false false true false args) (b ++ x0a :: k) = readLoop (A args) k.
Proof.
  induction b as [|c b IH]; intro N; [reflexivity|]. cbn [app readLoop]. unfold readStep at 1. cbn [r_cmt]. unfold LF.
  rewrite (bneq (a := c) (b := x0a)) by (intros ->; apply N; left; reflexivity). cbn. apply IH. intro I. apply N. right. exact I.
Qed.
Lemma A_blank args {b} : blank b -> forall k, readLoop (A args) (b ++ k) = readLoop (A args) k.
Proof.
  induction 1 as [|c t S H IH|b t N H IH]; intro k; [reflexivity| |].
  - cbn [app]. rewrite A_space by exact S. apply IH.
  - cbn [app]. rewrite <- app_assoc. cbn [app]. transitivity (readLoop (mkRst [] true false false false true false args) (b ++ x0a :: t ++ k)); [reflexivity|]. rewrite in_comment by exact N. apply IH.
Qed.

(* inside a word *)
Lemma inside_unescape {q d t v d'} : inside q d t v d' -> unescapeWord t = Some v.
Proof.
  induction 1 as [d|d c t v d' P H IH|d t v d' H IH|t v d' H IH|d e c t v d' E H IH|d e t v d' E H IH]; try reflexivity.
  - cbn [unescapeWord]. destruct P as [P _]. rewrite (bneq P), IH. reflexivity.
  - cbn [unescapeWord]. rewrite IH. reflexivity.
  - cbn [unescapeWord]. rewrite IH. reflexivity.
  - cbn [In escapes] in E. destruct E as [E|[E|[E|[E|[E|[E|[]]]]]]]; injection E as <- <-; cbn; rewrite IH; reflexivity.
  - cbn [map fst escapes In] in E. cbn [unescapeWord]. change (byte_eqb x5c x5c) with true. cbv iota.
    rewrite !(fun x N => bneq (a := e) (b := x) N) by (intros ->; apply E; tauto). cbn [orb].
    destruct (byte_eqb e x5c) eqn:X; [apply byes in X; subst e; exfalso; apply E; tauto|]. rewrite IH. reflexivity.
Qed.
Lemma inside_run {q d t v d'} : inside q d t v d' -> forall buf args k, readLoop (B q buf d args) (t ++ k) = readLoop (B q (buf ++ t) d' args) k.
Proof.
  assert (ADD : forall (buf : bs) c t, (buf ++ [c]) ++ t = buf ++ c :: t) by (intros; rewrite <- app_assoc; reflexivity).
  induction 1 as [d|d c t v d' P H IH|d t v d' H IH|t v d' H IH|d e c t v d' E H IH|d e t v d' E H IH]; intros buf args k.
  - rewrite app_nil_r. reflexivity.
  - cbn [app readLoop]. rewrite <- ADD, <- IH. destruct P as (P1 & P2 & P3 & P4).
    assert (R : readStep (B q buf d args) c = Go (B q (buf ++ [c]) false args)); [|rewrite R; reflexivity].
    unfold readStep, B. cbn [r_buf r_cmt r_quoted r_dq r_need r_last r_var r_args]. replace (if byte_eqb c LF then false else false) with false by (destruct (byte_eqb c LF); reflexivity). cbv iota.
    unfold inWord. cbn [r_buf r_cmt r_quoted r_dq r_need r_last r_var r_args]. rewrite (bneq P1), (bneq P2).
    assert (X : byte_eqb c x7b && d = false) by (destruct (byte_eqb c x7b) eqn:Y; [apply byes in Y; rewrite (P3 Y); reflexivity|reflexivity]). rewrite X. cbv iota.
    destruct q.
    + rewrite (bneq P4). reflexivity.
    + destruct P4 as (S & P4 & P5). apply ngSpace_no in S. rewrite S, (bneq P4), (bneq P5). reflexivity.
  - cbn [app]. rewrite <- ADD, <- IH. cbn [readLoop]. unfold readStep, B, inWord. cbn. destruct q; reflexivity.
  - cbn [app]. rewrite <- ADD, <- IH. cbn [readLoop]. unfold readStep, B, inWord. cbn. destruct q; reflexivity.
  - cbn [app]. rewrite <- ADD, <- ADD, <- IH. cbn [readLoop]. unfold readStep at 1, B, inWord. cbn [r_buf r_cmt r_quoted r_dq r_need r_last r_var r_args]. change (byte_eqb x5c LF) with false. change (byte_eqb x5c x7b) with false. change (byte_eqb x5c x5c) with true. cbn [andb]. cbv iota.
    unfold readStep at 1. cbn [r_buf r_cmt r_quoted r_dq r_need r_last r_var r_args]. destruct (byte_eqb e LF); reflexivity.
  - cbn [app]. rewrite <- ADD, <- ADD, <- IH. cbn [readLoop]. unfold readStep at 1, B, inWord. cbn [r_buf r_cmt r_quoted r_dq r_need r_last r_var r_args]. change (byte_eqb x5c LF) with false. change (byte_eqb x5c x7b) with false. change (byte_eqb x5c x5c) with true. cbn [andb]. cbv iota.
    unfold readStep at 1. cbn [r_buf r_cmt r_quoted r_dq r_need r_last r_var r_args]. destruct (byte_eqb e LF); reflexivity.
Qed.

(* a state in which a word has just ended, the words so far being [args] *)
Definition ended (e : wend) (s : rst) (args : list bs) : Prop :=
  match e with
  | Quote => s = N0 args
  | _ => exists buf args0 v, s = B false buf (match e with Dollar => true | _ => false end) args0 /\ unescapeWord buf = Some v /\ args = args0 ++ [v]
  end.
Lemma bare_ended {buf} args {v} d : unescapeWord buf = Some v -> ended (bareEnd d) (B false buf d args) (args ++ [v]).
Proof. intro U. destruct d; exists buf, args, v; auto. Qed.
Lemma word_run {t v e} args : word t v e -> exists s, ended e s (args ++ [v]) /\ forall k, readLoop (A args) (t ++ k) = readLoop s k.
Proof.
  intros [c t0 v0 d S C H|t0 v0 d H|t0 v0 d H].
  - exists (B false (c :: t0) d args). split.
    + apply bare_ended. cbn [unescapeWord]. rewrite bneq by (intros ->; apply C; cbn; tauto). rewrite (inside_unescape H). reflexivity.
    + intro k. cbn [app readLoop]. assert (R : readStep (A args) c = Go (B false [c] false args)).
      { unfold readStep, A. cbn [r_buf r_cmt r_quoted r_dq r_need r_last r_var r_args]. replace (if byte_eqb c LF then false else false) with false by (destruct (byte_eqb c LF); reflexivity). cbv iota.
        unfold atSpace. cbn [r_buf r_cmt r_quoted r_dq r_need r_last r_var r_args]. apply ngSpace_no in S. rewrite S. cbn [In] in C.
        rewrite (bneq (a := c) (b := x3b)), (bneq (a := c) (b := x7b)), (bneq (a := c) (b := x7d)), (bneq (a := c) (b := x23)), (bneq (a := c) (b := x5c)), (bneq (a := c) (b := x22)) by (intros ->; apply C; tauto). reflexivity. }
      rewrite R. exact (inside_run H [c] args k).
  - exists (B false (x5c :: t0) d args). split; [apply bare_ended, (inside_unescape H)|].
    intro k. transitivity (readLoop (B false [] false args) ((x5c :: t0) ++ k)); [reflexivity|exact (inside_run H [] args k)].
  - exists (N0 (args ++ [v0])). split; [reflexivity|]. intro k. cbn [app]. rewrite <- app_assoc. cbn [app].
    transitivity (readLoop (B true [] false args) (t0 ++ x22 :: k)); [reflexivity|]. rewrite (inside_run H [] args). cbn [app readLoop].
    unfold readStep, B, inWord. cbn [r_buf r_cmt r_quoted r_dq r_need r_last r_var r_args]. change (byte_eqb x22 LF) with false. cbn [byte_eqb andb]. cbv iota.
    rewrite (inside_unescape H). reflexivity.
Qed.
Lemma ended_space {e s args} c k : ended e s args -> Space c -> readLoop s (c :: k) = readLoop (A args) k.
Proof.
  intros E S. destruct e; cbn [ended] in E; [destruct E as (buf & a0 & v & -> & U & ->)|destruct E as (buf & a0 & v & -> & U & ->)|subst s];
    destruct (space_cases S) as [-> | [-> | [-> | ->]]]; cbn; rewrite ?U; reflexivity.
Qed.
Lemma ended_gap {e s args g} k : ended e s args -> gap g -> readLoop s (g ++ k) = readLoop (A args) k.
Proof. intros E [c t S H]. cbn [app]. rewrite (ended_space c _ E) by exact S. apply A_blank, H. Qed.
Lemma ended_semi {e s args} k : ended e s args -> readLoop s (x3b :: k) = Some (TOk, args, k).
Proof. intro E. destruct e; cbn [ended] in E; [destruct E as (buf & a0 & v & -> & U & ->)|destruct E as (buf & a0 & v & -> & U & ->)|subst s]; cbn; rewrite ?U; reflexivity. Qed.
Lemma ended_brace {e s args} k : ended e s args -> e <> Dollar -> readLoop s (x7b :: k) = Some (TStart, args, k).
Proof. intros E D. destruct e; cbn [ended] in E; [destruct E as (buf & a0 & v & -> & U & ->)|contradiction|subst s]; cbn; rewrite ?U; reflexivity. Qed.
Lemma words_run {t vs e} args : words t vs e -> exists s, ended e s (args ++ vs) /\ forall k, readLoop (A args) (t ++ k) = readLoop s k.
Proof.
  induction 1 as [t v e H|t vs e g r v e' H IH G W|t vs r v e' H IH W].
  - apply word_run, H.
  - destruct IH as (s & E & R). destruct (word_run (args ++ vs) W) as (s' & E' & R'). exists s'. rewrite app_assoc. split; [exact E'|].
    intro k. rewrite <- !app_assoc, R, (ended_gap _ E G). apply R'.
  - destruct IH as (s & E & R). destruct (word_run (args ++ vs) W) as (s' & E' & R'). exists s'. rewrite app_assoc. split; [exact E'|].
    intro k. rewrite <- !app_assoc, R. cbn [ended] in E. subst s. rewrite <- R'. reflexivity.
Qed.

(* ------------------------------------------------------------ tokens of a configuration *)

Lemma tok_simple {b t vs e b'} k : blank b -> words t vs e -> b' = [] \/ gap b' -> readToken [] (b ++ t ++ b' ++ x3b :: k) = Some (TOk, vs, k).
Proof.
  intros H W G. unfold readToken. change (rinit []) with (A []). rewrite (A_blank _ H). destruct (words_run [] W) as (s & E & R). rewrite R.
  destruct G as [-> |G]; [exact (ended_semi _ E)|]. rewrite (ended_gap _ E G). cbn [app]. destruct vs as [|v vs]; [|reflexivity]. exfalso.
  inversion W; subst; match goal with X : _ ++ [_] = [] |- _ => symmetry in X; exact (app_cons_not_nil _ _ _ X) end.
Qed.
Lemma tok_block {b t vs e b'} k : blank b -> words t vs e -> b' = [] /\ e <> Dollar \/ gap b' -> readToken [] (b ++ t ++ b' ++ x7b :: k) = Some (TStart, vs, k).
Proof.
  intros H W G. unfold readToken. change (rinit []) with (A []). rewrite (A_blank _ H). destruct (words_run [] W) as (s & E & R). rewrite R.
  destruct G as [[-> D]|G]; [exact (ended_brace _ E D)|]. rewrite (ended_gap _ E G). cbn [app]. destruct vs as [|v vs]; [|reflexivity]. exfalso.
  inversion W; subst; match goal with X : _ ++ [_] = [] |- _ => symmetry in X; exact (app_cons_not_nil _ _ _ X) end.
Qed.
Lemma tok_close {b} k : blank b -> readToken [] (b ++ x7d :: k) = Some (TDone, [], k).
Proof. intro H. unfold readToken. change (rinit []) with (A []). rewrite (A_blank _ H). reflexivity. Qed.
Lemma tok_eof {b} : blank b -> readToken [] b = Some (TEof, [], []).
Proof. intro H. rewrite <- (app_nil_r b). unfold readToken. change (rinit []) with (A []). rewrite (A_blank _ H). reflexivity. Qed.

Lemma dirs_run {t ds} : dirs t ds -> forall fuel depth acc,
  (length t < fuel -> depth = 0 -> parseFrom fuel depth acc t = POk (acc ++ ds) []) /\
  (forall k, length t < fuel -> 0 < depth -> parseFrom fuel depth acc (t ++ x7d :: k) = POk (acc ++ ds) k).
Proof.
  induction 1 as [b H|b t n a e b' r ds H W G D IH|b t n a e b' i xs r ds H W G I IHI D IH]; intros fuel depth acc.
  - rewrite app_nil_r. split; [intros F ->|intros k F P]; (destruct fuel as [|f]; [lia|]); cbn [parseFrom].
    + rewrite (tok_eof H). reflexivity.
    + rewrite (tok_close _ H). destruct depth; [lia|reflexivity].
  - assert (E : acc ++ Dir n a None :: ds = (acc ++ [Dir n a None]) ++ ds) by (rewrite <- app_assoc; reflexivity). rewrite E. set (acc' := acc ++ [Dir n a None]).
    split; [intros F Z|intros k F P]; rewrite !app_length in F; cbn [length] in F; (destruct fuel as [|f]; [lia|]); cbn [parseFrom].
    + rewrite (tok_simple _ H W G). apply (proj1 (IH f depth acc')); [lia|exact Z].
    + rewrite <- !app_assoc. cbn [app]. rewrite (tok_simple _ H W G). apply (proj2 (IH f depth acc')); [lia|exact P].
  - assert (E : acc ++ Dir n a (Some xs) :: ds = (acc ++ [Dir n a (Some xs)]) ++ ds) by (rewrite <- app_assoc; reflexivity). rewrite E. set (acc' := acc ++ [Dir n a (Some xs)]).
    split; [intros F Z|intros k F P]; rewrite !app_length in F; cbn [length] in F; rewrite app_length in F; cbn [length] in F; (destruct fuel as [|f]; [lia|]); cbn [parseFrom].
    + rewrite (tok_block _ H W G). destruct (IHI f (S depth) []) as [_ R]. rewrite R by lia. cbn [app]. apply (proj1 (IH f depth acc')); [lia|exact Z].
    + rewrite <- !app_assoc. cbn [app]. rewrite <- app_assoc. cbn [app]. rewrite (tok_block _ H W G). destruct (IHI f (S depth) []) as [_ R]. rewrite R by lia. cbn [app]. apply (proj2 (IH f depth acc')); [lia|exact P].
Qed.
Lemma parse_grammar t ds : dirs t ds -> parse t = POk ds [].
Proof. intro D. destruct (dirs_run D (S (length t)) 0 []) as [R _]. apply R; [lia|reflexivity]. Qed.

(* ------------------------------------------------------------ only the grammar is read *)

(* what readToken has read when it is in state s *)
Inductive atgap : bs -> list bs -> Prop :=
| ag_none b : blank b -> atgap b []
| ag_words b t vs e g : blank b -> words t vs e -> gap g -> atgap (b ++ t ++ g) vs.
(* words read so far, and a place where the next word may start with byte c *)
Inductive start : bs -> list bs -> byte -> Prop :=
| st_gap p vs c : atgap p vs -> start p vs c
| st_paren b t vs : blank b -> words t vs Quote -> start (b ++ t) vs x29.
Inductive reading : bs -> rst -> Prop :=
| rd_gap p vs : atgap p vs -> reading p (A vs)
| rd_comment p vs b : atgap p vs -> ~ In x0a b -> reading (p ++ x23 :: b) (mkRst [] true false false false true false vs)
| rd_bare p vs c t v d : start p vs c -> word (c :: t) v (bareEnd d) -> reading (p ++ c :: t) (B false (c :: t) d vs)
| rd_back p vs : atgap p vs -> reading (p ++ [x5c]) (mkRst [x5c] false true false false false false vs)
| rd_bareq p vs c t v d : start p vs c -> word (c :: t) v (bareEnd d) -> reading (p ++ c :: t ++ [x5c]) (mkRst (c :: t ++ [x5c]) false true false false false false vs)
| rd_quoted p vs t v d : atgap p vs -> inside true false t v d -> reading (p ++ x22 :: t) (B true t d vs)
| rd_quotedq p vs t v d : atgap p vs -> inside true false t v d -> reading (p ++ x22 :: t ++ [x5c]) (mkRst (t ++ [x5c]) false true true false false false vs)
| rd_need b t vs : blank b -> words t vs Quote -> reading (b ++ t) (N0 vs).

(* one more byte inside a word *)
Lemma inside_app {q d t v d1} : inside q d t v d1 -> forall {t' v' d2}, inside q d1 t' v' d2 -> inside q d (t ++ t') (v ++ v') d2.
Proof.
  induction 1; intros t' v' d2 H2; cbn [app]; [exact H2|apply in_plain; auto|apply in_dollar; auto|apply in_brace; auto|apply (in_escape _ _ _ c); auto|apply in_other; auto].
Qed.
Lemma word_bare_app {t v d t' v' d'} : word t v (bareEnd d) -> inside false d t' v' d' -> word (t ++ t') (v ++ v') (bareEnd d').
Proof.
  intros W H. inversion W as [c t0 v0 d0 S C I E1 E2 E3|t0 v0 d0 I E1 E2 E3|t0 v0 d0 I E1 E2 E3]; subst.
  - assert (d0 = d) by (destruct d0, d; try reflexivity; discriminate E3). subst d0. cbn [app]. apply w_bare; [exact S|exact C|]. exact (inside_app I H).
  - assert (d0 = d) by (destruct d0, d; try reflexivity; discriminate E3). subst d0. cbn [app]. apply w_back. exact (inside_app I H).
  - destruct d; discriminate E3.
Qed.
Lemma word_value {t v d} : word t v (bareEnd d) -> unescapeWord t = Some v.
Proof.
  intro W. inversion W as [c t0 v0 d0 S C I E1 E2 E3|t0 v0 d0 I E1 E2 E3|t0 v0 d0 I E1 E2 E3]; subst.
  - cbn [unescapeWord]. rewrite bneq by (intros ->; apply C; cbn; tauto). rewrite (inside_unescape I). reflexivity.
  - exact (inside_unescape I).
  - destruct d; discriminate E3.
Qed.
Lemma blank_app b b' : blank b -> blank b' -> blank (b ++ b').
Proof.
  induction 1 as [|c t S H IH|b t N H IH]; intro H'; cbn [app]; [exact H'|apply bl_space; auto|]. rewrite <- app_assoc. cbn [app]. apply bl_comment; auto.
Qed.
Lemma gap_app g b : gap g -> blank b -> gap (g ++ b).
Proof. intros [c t S H] H'. cbn [app]. constructor; [exact S|apply blank_app; assumption]. Qed.
Lemma atgap_app p vs b : atgap p vs -> blank b -> atgap (p ++ b) vs.
Proof.
  intros [b0 H|b0 t vs0 e g H W G] H'; [constructor; apply blank_app; assumption|]. rewrite <- !app_assoc. econstructor; eauto using gap_app.
Qed.
(* the words when a word that started at [start] is over *)
Lemma start_words p vs c t v e : start p vs c -> word (c :: t) v e -> exists b w, p ++ c :: t = b ++ w /\ blank b /\ words w (vs ++ [v]) e.
Proof.
  intros [p0 vs0 c0 [b H|b t0 vs1 e0 g H W G]|b t0 vs0 H W] X.
  - exists b, (c0 :: t). repeat split; [exact H|]. cbn [app]. constructor. exact X.
  - exists b, (t0 ++ g ++ c0 :: t). rewrite <- !app_assoc. repeat split; [exact H|]. exact (ws_more _ _ _ _ _ _ _ W G X).
  - exists b, (t0 ++ x29 :: t). rewrite <- !app_assoc. repeat split; [exact H|]. exact (ws_paren _ _ _ _ _ W X).
Qed.

Definition good (p : bs) (x : round) : Prop :=
  match x with
  | Go s => reading p s
  | Ret TOk vs => exists b t e b' , p = b ++ t ++ b' ++ [x3b] /\ blank b /\ words t vs e /\ (b' = [] \/ gap b')
  | Ret TStart vs => exists b t e b', p = b ++ t ++ b' ++ [x7b] /\ blank b /\ words t vs e /\ (b' = [] /\ e <> Dollar \/ gap b')
  | Ret TDone vs => vs = [] /\ exists b, p = b ++ [x7d] /\ blank b
  | Ret (TErr _) _ => True
  | Ret TEof _ => False
  | Boom => False
  end.
Lemma snoc2 {T} (a : list T) x y : (a ++ x) ++ y = a ++ x ++ y.
Proof. symmetry. apply app_assoc. Qed.
Lemma atSpace_good p vs s ch : start p vs ch -> (forall c, ch = c -> c <> x29 -> atgap p vs) -> s = A vs \/ s = N0 vs /\ ch = x29 -> good (p ++ [ch]) (atSpace s ch).
Proof.
  intros ST AG Hs.
  assert (E : atSpace s ch = atSpace (A vs) ch) by (destruct Hs as [-> |[-> _]]; reflexivity). rewrite E. clear E Hs s.
  unfold atSpace, A. cbn [r_buf r_cmt r_quoted r_dq r_need r_last r_var r_args app].
  destruct (ngSpace ch) eqn:SP.
  { apply ngSpace_spec in SP. assert (G : atgap p vs) by (apply (AG ch eq_refl); intros ->; destruct (space_cases SP) as [X|[X|[X|X]]]; discriminate X).
    apply (rd_gap _ vs). apply atgap_app; [exact G|]. apply bl_space; [exact SP|apply bl_nil]. }
  destruct (byte_eqb ch x3b) eqn:E1.
  { apply byes in E1. subst ch. assert (G : atgap p vs) by (apply (AG _ eq_refl); discriminate). cbn [orb]. destruct G as [b H|b t vs0 e g H W G]; [exact I|].
    destruct vs0; [exact I|]. change (byte_eqb x3b x7b) with false. cbv iota. exists b, t, e, g. rewrite <- !app_assoc. auto. }
  destruct (byte_eqb ch x7b) eqn:E2.
  { apply byes in E2. subst ch. assert (G : atgap p vs) by (apply (AG _ eq_refl); discriminate). cbn [orb]. destruct G as [b H|b t vs0 e g H W G]; [exact I|].
    destruct vs0; [exact I|]. exists b, t, e, g. rewrite <- !app_assoc. auto. }
  cbn [orb]. destruct (byte_eqb ch x7d) eqn:E3.
  { apply byes in E3. subst ch. assert (G : atgap p vs) by (apply (AG _ eq_refl); discriminate). destruct G as [b H|b t vs0 e g H W G].
    - cbn [good]. split; [reflexivity|]. exists b. auto.
    - destruct vs0; [|exact I]. exfalso. inversion W; subst; match goal with X : _ ++ [_] = [] |- _ => symmetry in X; exact (app_cons_not_nil _ _ _ X) end. }
  destruct (byte_eqb ch x23) eqn:E4.
  { apply byes in E4. subst ch. assert (G : atgap p vs) by (apply (AG _ eq_refl); discriminate). apply (rd_comment p vs []); [exact G|intros []]. }
  destruct (byte_eqb ch x5c) eqn:E5.
  { apply byes in E5. subst ch. assert (G : atgap p vs) by (apply (AG _ eq_refl); discriminate). apply rd_back. exact G. }
  destruct (byte_eqb ch x22) eqn:E6.
  { apply byes in E6. subst ch. assert (G : atgap p vs) by (apply (AG _ eq_refl); discriminate). apply (rd_quoted p vs [] [] false); [exact G|constructor]. }
  apply (rd_bare p vs ch [] [ch] false); [exact ST|]. apply (w_bare ch [] [] false); [apply ngSpace_no; exact SP| |constructor].
  cbn [In]. intros [X|[X|[X|[X|[X|[X|[]]]]]]]; subst ch; discriminate.
Qed.
Lemma step_good {p s} ch : reading p s -> good (p ++ [ch]) (readStep s ch).
Proof.
  intros [p0 vs G|p0 vs b G N|p0 vs c t v d ST W|p0 vs G|p0 vs c t v d ST W|p0 vs t v d G H|p0 vs t v d G H|b t vs H W].
  - unfold readStep, A. cbn [r_buf r_cmt r_quoted r_dq r_need r_last r_var r_args]. replace (if byte_eqb ch LF then false else false) with false by (destruct (byte_eqb ch LF); reflexivity). cbv iota.
    apply (atSpace_good p0 vs); [constructor; exact G|intros; exact G|left; reflexivity].
  - unfold readStep. cbn [r_buf r_cmt r_quoted r_dq r_need r_last r_var r_args]. unfold LF. destruct (byte_eqb ch x0a) eqn:E.
    + apply byes in E. subst ch. change (good ((p0 ++ x23 :: b) ++ [x0a]) (Go (A vs))). cbn [good]. constructor. rewrite snoc2. cbn [app]. apply atgap_app; [exact G|]. apply bl_comment; [exact N|apply bl_nil].
    + cbn [good]. rewrite snoc2. cbn [app]. apply rd_comment; [exact G|]. intro I. apply in_app_or in I as [I|[I|[]]]; [exact (N I)|]. subst ch. discriminate E.
  - unfold readStep, B. cbn [r_buf r_cmt r_quoted r_dq r_need r_last r_var r_args]. replace (if byte_eqb ch LF then false else false) with false by (destruct (byte_eqb ch LF); reflexivity). cbv iota.
    unfold inWord. cbn [r_buf r_cmt r_quoted r_dq r_need r_last r_var r_args].
    assert (ADD : forall v1 d1, inside false d [ch] v1 d1 -> good ((p0 ++ c :: t) ++ [ch]) (Go (B false ((c :: t) ++ [ch]) d1 vs))).
    { intros v1 d1 I. cbn [good]. rewrite snoc2. cbn [app]. apply (rd_bare p0 vs c (t ++ [ch]) (v ++ v1) d1); [exact ST|]. exact (word_bare_app W I). }
    destruct (byte_eqb ch x7b && d) eqn:E1.
    { apply andb_true_iff in E1 as [E1 D]. apply byes in E1. subst ch d. apply (ADD [x7b] true). apply in_brace. constructor. }
    destruct (byte_eqb ch x5c) eqn:E2.
    { apply byes in E2. subst ch. cbn [good]. rewrite snoc2. cbn [app]. exact (rd_bareq p0 vs c t v d ST W). }
    destruct (byte_eqb ch x24) eqn:E3.
    { apply byes in E3. subst ch. apply (ADD [x24] true). apply in_dollar. constructor. }
    rewrite (word_value W). destruct (start_words _ _ _ _ _ _ ST W) as (b & w & EQ & Hb & Hw).
    destruct (ngSpace ch) eqn:SP.
    { cbn [orb]. rewrite !bneq by (intros ->; discriminate SP). cbn [good]. rewrite EQ, snoc2. apply ngSpace_spec in SP. apply rd_gap. econstructor; [exact Hb|exact Hw|]. constructor; [exact SP|constructor]. }
    destruct (byte_eqb ch x3b) eqn:E4.
    { apply byes in E4. subst ch. cbn [orb good]. exists b, w, (bareEnd d), []. rewrite EQ, snoc2. auto. }
    destruct (byte_eqb ch x7b) eqn:E5.
    { apply byes in E5. subst ch. cbn [orb good]. exists b, w, (bareEnd d), []. rewrite EQ, snoc2. cbn [andb] in E1. change (byte_eqb x7b x7b) with true in E1. cbn [andb] in E1. subst d. repeat split; auto. left. split; [reflexivity|discriminate]. }
    cbn [orb]. apply (ADD [ch] false). apply in_plain; [|constructor]. split; [exact (bno _ _ E2)|]. split; [exact (bno _ _ E3)|]. split; [intros ->; discriminate E5|]. split; [apply ngSpace_no; exact SP|]. split; [exact (bno _ _ E4)|exact (bno _ _ E5)].
  - unfold readStep. cbn [r_buf r_cmt r_quoted r_dq r_need r_last r_var r_args]. replace (if byte_eqb ch LF then false else false) with false by (destruct (byte_eqb ch LF); reflexivity). cbn [good app]. rewrite snoc2. cbn [app].
    destruct (in_dec Byte.byte_eq_dec ch (map fst escapes)) as [I|I].
    + apply in_map_iff in I as ((e & x) & X & I). cbn [fst] in X. subst e. apply (rd_bare p0 vs x5c [ch] [x] false); [constructor; exact G|]. apply (w_back [ch] [x] false). apply (in_escape _ _ _ x); [exact I|constructor].
    + apply (rd_bare p0 vs x5c [ch] [x5c; ch] false); [constructor; exact G|]. apply (w_back [ch] [x5c; ch] false). apply in_other; [exact I|constructor].
  - unfold readStep. cbn [r_buf r_cmt r_quoted r_dq r_need r_last r_var r_args]. replace (if byte_eqb ch LF then false else false) with false by (destruct (byte_eqb ch LF); reflexivity). cbn [good]. rewrite snoc2. cbn [app]. rewrite snoc2. cbn [app].
    destruct (in_dec Byte.byte_eq_dec ch (map fst escapes)) as [I|I].
    + apply in_map_iff in I as ((e & x) & X & I). cbn [fst] in X. subst e. apply (rd_bare p0 vs c (t ++ [x5c; ch]) (v ++ [x]) false); [exact ST|]. refine (word_bare_app (t' := [x5c; ch]) W _). apply (in_escape _ _ _ x); [exact I|constructor].
    + apply (rd_bare p0 vs c (t ++ [x5c; ch]) (v ++ [x5c; ch]) false); [exact ST|]. refine (word_bare_app (t' := [x5c; ch]) W _). apply in_other; [exact I|constructor].
  - unfold readStep, B. cbn [r_buf r_cmt r_quoted r_dq r_need r_last r_var r_args]. replace (if byte_eqb ch LF then false else false) with false by (destruct (byte_eqb ch LF); reflexivity). cbv iota.
    unfold inWord. cbn [r_buf r_cmt r_quoted r_dq r_need r_last r_var r_args].
    assert (ADD : forall v1 d1, inside true d [ch] v1 d1 -> good ((p0 ++ x22 :: t) ++ [ch]) (Go (B true (t ++ [ch]) d1 vs))).
    { intros v1 d1 I. cbn [good]. rewrite snoc2. cbn [app]. apply (rd_quoted p0 vs (t ++ [ch]) (v ++ v1) d1); [exact G|]. exact (inside_app H I). }
    destruct (byte_eqb ch x7b && d) eqn:E1.
    { apply andb_true_iff in E1 as [E1 D]. apply byes in E1. subst ch d. apply (ADD [x7b] true). apply in_brace. constructor. }
    destruct (byte_eqb ch x5c) eqn:E2.
    { apply byes in E2. subst ch. cbn [good]. rewrite snoc2. cbn [app]. exact (rd_quotedq p0 vs t v d G H). }
    destruct (byte_eqb ch x24) eqn:E3.
    { apply byes in E3. subst ch. apply (ADD [x24] true). apply in_dollar. constructor. }
    destruct (byte_eqb ch x22) eqn:E4.
    { apply byes in E4. subst ch. rewrite (inside_unescape H). change (byte_eqb x22 x3b) with false. change (byte_eqb x22 x7b) with false. cbv iota. cbn [good]. rewrite snoc2. cbn [app].
      assert (ST : start p0 vs x22) by (constructor; exact G). assert (WQ : word (x22 :: t ++ [x22]) v Quote) by (econstructor; exact H).
      destruct (start_words _ _ _ _ _ _ ST WQ) as (b & w & EQ & Hb & Hw). rewrite EQ. apply rd_need; assumption. }
    apply (ADD [ch] false). apply in_plain; [|constructor]. split; [exact (bno _ _ E2)|]. split; [exact (bno _ _ E3)|]. split; [intros ->; exact E1|exact (bno _ _ E4)].
  - unfold readStep. cbn [r_buf r_cmt r_quoted r_dq r_need r_last r_var r_args]. replace (if byte_eqb ch LF then false else false) with false by (destruct (byte_eqb ch LF); reflexivity). cbn [good]. rewrite snoc2. cbn [app]. rewrite snoc2. cbn [app].
    destruct (in_dec Byte.byte_eq_dec ch (map fst escapes)) as [I|I].
    + apply in_map_iff in I as ((e & x) & X & I). cbn [fst] in X. subst e. apply (rd_quoted p0 vs (t ++ [x5c; ch]) (v ++ [x]) false); [exact G|]. refine (inside_app H _). apply (in_escape _ _ _ x); [exact I|constructor].
    + apply (rd_quoted p0 vs (t ++ [x5c; ch]) (v ++ [x5c; ch]) false); [exact G|]. refine (inside_app H _). apply in_other; [exact I|constructor].
  - unfold readStep, N0. cbn [r_buf r_cmt r_quoted r_dq r_need r_last r_var r_args]. replace (if byte_eqb ch LF then false else false) with false by (destruct (byte_eqb ch LF); reflexivity). cbv iota.
    destruct (ngSpace ch) eqn:SP.
    { cbn [good]. rewrite snoc2. apply ngSpace_spec in SP. apply rd_gap. econstructor; [exact H|exact W|]. constructor; [exact SP|constructor]. }
    destruct (byte_eqb ch x3b) eqn:E1.
    { apply byes in E1. subst ch. cbn [good]. exists b, t, Quote, []. rewrite snoc2. auto. }
    destruct (byte_eqb ch x7b) eqn:E2.
    { apply byes in E2. subst ch. cbn [good]. exists b, t, Quote, []. rewrite snoc2. repeat split; auto. left. split; [reflexivity|discriminate]. }
    destruct (byte_eqb ch x29) eqn:E3; [|exact I].
    apply byes in E3. subst ch. apply (atSpace_good (b ++ t) vs); [apply st_paren; assumption|intros c <- X; contradiction|right; split; reflexivity].
Qed.
Lemma loop_good l : forall p s, reading p s ->
  match readLoop s l with
  | None => False
  | Some (tk, args, r) => tk = TEof /\ r = [] \/ tk <> TEof /\ exists u, l = u ++ r /\ u <> [] /\ good (p ++ u) (Ret tk args)
  end.
Proof.
  induction l as [|ch l IH]; intros p s R; cbn [readLoop]; [left; auto|]. pose proof (step_good ch R) as G. destruct (readStep s ch) as [s'|tk args|]; cbn [good] in G.
  - specialize (IH _ _ G). destruct (readLoop s' l) as [[[tk args] r]|]; [|exact IH]. destruct IH as [IH|(T & u & -> & U & IH)]; [left; exact IH|]. right. split; [exact T|]. exists (ch :: u). split; [reflexivity|]. split; [discriminate|]. rewrite snoc2 in IH. exact IH.
  - right. split; [destruct tk; [discriminate|discriminate|contradiction|discriminate|discriminate]|]. exists [ch]. split; [reflexivity|]. split; [discriminate|exact G].
  - exact G.
Qed.
Lemma token_good l :
  match readToken [] l with
  | None => False
  | Some (tk, args, r) => tk = TEof /\ r = [] \/ tk <> TEof /\ exists u, l = u ++ r /\ u <> [] /\ good u (Ret tk args)
  end.
Proof. apply (loop_good l [] (A [])). apply rd_gap. apply ag_none. constructor. Qed.

Lemma eof_unfinished l a : readToken [] l = Some (TEof, a, []) -> unfinished l.
Proof.
  intros R p k d -> D. inversion D as [|b t n a0 e b' r ds H W G D0|b t n a0 e b' i xs r ds H W G D1 D0]; subst.
  - rewrite <- !app_assoc in R. cbn [app] in R. rewrite (tok_simple _ H W G) in R. discriminate R.
  - rewrite <- !app_assoc in R. cbn [app] in R. rewrite (tok_block _ H W G) in R. discriminate R.
Qed.
Lemma parse_good fuel : forall depth acc l,
  match parseFrom fuel depth acc l with
  | POk ds r => exists ds', ds = acc ++ ds' /\
      match depth with
      | O => r = [] /\ exists t tail, l = t ++ tail /\ dirs t ds' /\ unfinished tail
      | S _ => exists t, l = t ++ x7d :: r /\ dirs t ds'
      end
  | PErr _ => True
  | PPanic => False
  | PFuel => fuel <= length l
  end.
Proof.
  induction fuel as [|f IH]; intros depth acc l; cbn [parseFrom]; [lia|].
  pose proof (token_good l) as T. destruct (readToken [] l) as [[[tk args] r]|] eqn:R; [|exact T].
  destruct tk as [| | | |c]; [| | | |exact I].
  - destruct T as [[T _]|(_ & u & -> & U & b & t & e & b' & -> & Hb & W & G)]; [discriminate T|]. destruct args as [|n a].
    { exfalso. inversion W; subst; match goal with X : _ ++ [_] = [] |- _ => symmetry in X; exact (app_cons_not_nil _ _ _ X) end. }
    assert (LU : length r < length ((b ++ t ++ b' ++ [x7b]) ++ r)) by (rewrite !app_length; cbn [length]; lia).
    specialize (IH (S depth) [] r) as I1. destruct (parseFrom f (S depth) [] r) as [xs r'|e0| |]; [|exact I|exact I1|lia].
    destruct I1 as (ds1 & X & i & -> & D1). cbn [app] in X. subst xs. specialize (IH depth (acc ++ [Dir n a (Some ds1)]) r'). rewrite app_length in LU. cbn [length] in LU.
    destruct (parseFrom f depth (acc ++ [Dir n a (Some ds1)]) r') as [ds r2|e0| |]; [|exact I|exact IH|rewrite !app_length in *; cbn [length] in *; lia].
    destruct IH as (ds2 & -> & IH). exists (Dir n a (Some ds1) :: ds2). split; [rewrite <- app_assoc; reflexivity|]. destruct depth.
    + destruct IH as (Z & t2 & tail & -> & D2 & UF). split; [exact Z|]. exists (b ++ t ++ b' ++ x7b :: i ++ x7d :: t2), tail. split; [repeat (rewrite <- !app_assoc; cbn [app]); reflexivity|]. split; [exact (d_block _ _ _ _ _ _ _ _ _ _ Hb W G D1 D2)|exact UF].
    + destruct IH as (t2 & -> & D2). exists (b ++ t ++ b' ++ x7b :: i ++ x7d :: t2). split; [repeat (rewrite <- !app_assoc; cbn [app]); reflexivity|]. exact (d_block _ _ _ _ _ _ _ _ _ _ Hb W G D1 D2).
  - destruct T as [[T _]|(_ & u & -> & U & -> & b & -> & Hb)]; [discriminate T|]. destruct depth; [exact I|]. exists []. split; [rewrite app_nil_r; reflexivity|]. exists b. split; [rewrite <- app_assoc; reflexivity|]. constructor. exact Hb.
  - destruct T as [[_ ->]|(T & _)]; [|contradiction]. destruct depth; [|exact I]. exists []. split; [rewrite app_nil_r; reflexivity|]. split; [reflexivity|]. exists [], l. split; [reflexivity|]. split; [constructor; constructor|exact (eof_unfinished _ _ R)].
  - destruct T as [[T _]|(_ & u & -> & U & b & t & e & b' & -> & Hb & W & G)]; [discriminate T|]. destruct args as [|n a].
    { exfalso. inversion W; subst; match goal with X : _ ++ [_] = [] |- _ => symmetry in X; exact (app_cons_not_nil _ _ _ X) end. }
    assert (LU : length r < length ((b ++ t ++ b' ++ [x3b]) ++ r)) by (rewrite !app_length; cbn [length]; lia).
    specialize (IH depth (acc ++ [Dir n a None]) r).
    destruct (parseFrom f depth (acc ++ [Dir n a None]) r) as [ds r2|e0| |]; [|exact I|exact IH|lia].
    destruct IH as (ds2 & -> & IH). exists (Dir n a None :: ds2). split; [rewrite <- app_assoc; reflexivity|]. destruct depth.
    + destruct IH as (Z & t2 & tail & -> & D2 & UF). split; [exact Z|]. exists (b ++ t ++ b' ++ x3b :: t2), tail. split; [repeat (rewrite <- !app_assoc; cbn [app]); reflexivity|]. split; [exact (d_simple _ _ _ _ _ _ _ _ Hb W G D2)|exact UF].
    + destruct IH as (t2 & -> & D2). exists (b ++ t ++ b' ++ x3b :: t2). split; [repeat (rewrite <- !app_assoc; cbn [app]); reflexivity|]. exact (d_simple _ _ _ _ _ _ _ _ Hb W G D2).
Qed.
Lemma parse_only l ds rest : parse l = POk ds rest -> rest = [] /\ exists t tail, l = t ++ tail /\ dirs t ds /\ unfinished tail.
Proof. intro P. pose proof (parse_good (S (length l)) 0 [] l) as G. unfold parse in P. rewrite P in G. destruct G as (ds' & -> & G). exact G. Qed.
Lemma parse_total l : parse l <> PPanic /\ parse l <> PFuel.
Proof. pose proof (parse_good (S (length l)) 0 [] l) as G. fold (parse l) in G. destruct (parse l); split; try discriminate; intros _; [contradiction|lia]. Qed.

(* ------------------------------------------------------------ printing *)

Lemma quote_inside w : forall d, exists d', inside true d (quoteBody w) w d'.
Proof.
  induction w as [|c w IH]; intro d; [exists d; constructor|]. cbn [quoteBody]. destruct (byte_eqb c x22) eqn:E1.
  { apply byes in E1. subst c. destruct (IH false) as [d' H]. exists d'. cbn. apply (in_escape _ _ _ x22); [cbn; tauto|exact H]. }
  destruct (byte_eqb c x5c) eqn:E2.
  { apply byes in E2. subst c. destruct (IH false) as [d' H]. exists d'. cbn. apply (in_escape _ _ _ x5c); [cbn; tauto|exact H]. }
  cbn [orb app]. destruct (byte_eqb c x24) eqn:E3.
  { apply byes in E3. subst c. destruct (IH true) as [d' H]. exists d'. apply in_dollar. exact H. }
  destruct (byte_eqb c x7b && d) eqn:E4.
  { apply andb_true_iff in E4 as [E4 ->]. apply byes in E4. subst c. destruct (IH true) as [d' H]. exists d'. apply in_brace. exact H. }
  destruct (IH false) as [d' H]. exists d'. apply in_plain; [|exact H]. split; [exact (bno _ _ E2)|]. split; [exact (bno _ _ E3)|]. split; [intros ->; exact E4|exact (bno _ _ E1)].
Qed.
Lemma show_word w : word (showWord w) w Quote.
Proof. destruct (quote_inside w false) as [d H]. exact (w_quoted _ _ _ H). Qed.
Lemma show_words a : forall t vs, words t vs Quote -> words (t ++ showWords a) (vs ++ a) Quote.
Proof.
  induction a as [|w a IH]; intros t vs W; cbn [showWords]; [rewrite !app_nil_r; exact W|].
  replace (t ++ x20 :: showWord w ++ showWords a) with ((t ++ [x20] ++ showWord w) ++ showWords a) by (repeat (rewrite <- !app_assoc; cbn [app]); reflexivity).
  replace (vs ++ w :: a) with ((vs ++ [w]) ++ a) by (rewrite <- app_assoc; reflexivity).
  apply IH. apply (ws_more _ _ Quote); [exact W|constructor; [unfold Space; cbn; tauto|constructor]|apply show_word].
Qed.
Lemma dirs_nl r ds : dirs r ds -> dirs (x0a :: r) ds.
Proof.
  assert (S : forall b, blank b -> blank (x0a :: b)) by (intros b H; apply bl_space; [unfold Space; cbn; tauto|exact H]).
  intros [b H|b t n a e b' r0 ds0 H W G D|b t n a e b' i xs r0 ds0 H W G I D].
  - constructor. apply S, H.
  - exact (d_simple (x0a :: b) t n a e b' r0 ds0 (S _ H) W G D).
  - exact (d_block (x0a :: b) t n a e b' i xs r0 ds0 (S _ H) W G I D).
Qed.
Fixpoint show_dir (d : dir) : forall r ds, dirs r ds -> dirs (showDir d ++ r) (d :: ds).
Proof.
  destruct d as [n a s]. intros r ds D.
  assert (W : words (showWord n ++ showWords a) (n :: a) Quote) by (apply (show_words a (showWord n) [n]); constructor; apply show_word).
  destruct s as [xs|]; cbn [showDir].
  - assert (L : dirs (concat (map showDir xs)) xs).
    { clear - show_dir. induction xs as [|x xs IH]; [constructor; constructor|]. cbn [map concat]. apply show_dir. exact IH. }
    replace ((showWord n ++ showWords a ++ x7b :: x0a :: concat (map showDir xs) ++ [x7d; x0a]) ++ r)
      with ([] ++ (showWord n ++ showWords a) ++ [] ++ x7b :: (x0a :: concat (map showDir xs)) ++ x7d :: x0a :: r) by (repeat (rewrite <- ?app_assoc; cbn [app]); reflexivity).
    apply (d_block [] _ n a Quote [] _ xs _ ds); [constructor|exact W|left; split; [reflexivity|discriminate]|apply dirs_nl, L|apply dirs_nl, D].
  - replace ((showWord n ++ showWords a ++ [x3b; x0a]) ++ r) with ([] ++ (showWord n ++ showWords a) ++ [] ++ x3b :: x0a :: r) by (repeat (rewrite <- ?app_assoc; cbn [app]); reflexivity).
    apply (d_simple [] _ n a Quote [] _ ds); [constructor|exact W|left; reflexivity|apply dirs_nl, D].
Qed.
Lemma show_dirs ds : dirs (show ds) ds.
Proof. induction ds as [|d ds IH]; [constructor; constructor|]. unfold show in *. cbn [map concat]. apply show_dir, IH. Qed.

(* ------------------------------------------------------------ locations *)

Lemma match_of a t m : matches a t m -> matchOf a = Some (t, m).
Proof.
  intros [p|p|p|p|c p H|p|c p H]; [reflexivity|reflexivity|reflexivity|reflexivity| |reflexivity|]; cbn [matchOf].
  { change (byte_eqb x7e x3d) with false. change (byte_eqb x7e x5e) with false. change (byte_eqb x7e x7e) with true. cbv iota.
    destruct (byte_eqb c x2a) eqn:E; [apply byes in E; contradiction|reflexivity]. }
  destruct (byte_eqb c x3d) eqn:E1; [apply byes in E1; subst; exfalso; apply H; cbn; auto|].
  destruct (byte_eqb c x5e) eqn:E2; [apply byes in E2; subst; exfalso; apply H; cbn; auto|].
  destruct (byte_eqb c x7e) eqn:E3; [apply byes in E3; subst; exfalso; apply H; cbn; auto|]. reflexivity.
Qed.
Definition visitAll : list location -> list (list bs * list dir) -> option (list location) :=
  fix go ls ps := match ps with [] => Some ls | (a, s) :: r => match visitLocation ls a s with Some ls' => go ls' r | None => None end end.
Lemma visitAll_app xs : forall ls ys, visitAll ls (xs ++ ys) = match visitAll ls xs with Some ls' => visitAll ls' ys | None => None end.
Proof. induction xs as [|[a s] xs IH]; intros ls ys; [reflexivity|]. cbn [app visitAll]. destruct (visitLocation ls a s); [apply IH|reflexivity]. Qed.
Fixpoint visitDir_all (d : dir) : forall ls, visitDir ls d = visitAll ls (locsOf d).
Proof.
  destruct d as [n a s]. intro ls. cbn [visitDir locsOf]. change locName with (s2b "location"). destruct (bs_eqb n (s2b "location")).
  - cbn [visitAll]. unfold subs. destruct (visitLocation ls a _); reflexivity.
  - destruct s as [ds|]; [|reflexivity]. revert ls. induction ds as [|d ds IH]; intro ls; [reflexivity|]. cbn [flat_map]. rewrite visitAll_app, <- visitDir_all.
    destruct (visitDir ls d) as [ls'|]; [apply IH|reflexivity].
Qed.
Lemma visit_all ds : forall ls, visitDirectives ls ds = visitAll ls (flat_map locsOf ds).
Proof.
  induction ds as [|d ds IH]; intro ls; [reflexivity|]. cbn [visitDirectives flat_map]. rewrite visitAll_app, <- visitDir_all. destruct (visitDir ls d); [apply IH|reflexivity].
Qed.
Lemma hasSuffix_paren re : hasSuffix (re ++ s2b ")") (s2b ")") = true.
Proof. apply hasSuffix_spec. exists re. reflexivity. Qed.
(* the text of an item's rule *)
Definition ruleText (i : item) : bs :=
  match i with
  | IRewrite m p _ => sp4 (s2b "start") (s2b "/") m p
  | IIf _ _ op re m p _ => sp4 (match condType op with Some ct => ct | None => [] end) re m p
  | _ => []
  end.
Lemma item_body i r up rules : itemOk i ->
  bodyOf (itemDir i :: r) up rules =
  bodyOf r (match i with IPass u => u | _ => up end) (rules ++ (if isRule i then [ruleText i] else [])).
Proof.
  destruct i as [u|m p f|o c op re m p f|n a s]; intro H; cbn [itemDir isRule].
  - rewrite app_nil_r. reflexivity.
  - reflexivity.
  - destruct H as ((b & t & C) & S1 & S2 & S3). destruct S1 as [N1 _], S2 as [N2 _]. destruct re as [|c0 re]; [contradiction|]. destruct m as [|c1 m]; [contradiction|].
    cbn [bodyOf]. change (bs_eqb (s2b "if") (s2b "proxy_pass")) with false. change (bs_eqb (s2b "if") (s2b "if")) with true. cbn iota. cbn [subs].
    assert (W : condWords true ((if o then [s2b "("; s2b "$request_uri"] else [s2b "($request_uri"]) ++ op :: (if c then [c0 :: re; s2b ")"] else [(c0 :: re) ++ s2b ")"])) = Some [s2b "$request_uri"; op; c0 :: re]).
    { change (s2b "($request_uri") with (x28 :: s2b "$request_uri"). destruct c; [destruct o; reflexivity|].
      assert (W1 : condWords false [op; (c0 :: re) ++ s2b ")"] = Some [op; c0 :: re]).
      { cbn [condWords]. rewrite hasSuffix_paren, andb_true_r.
        replace (bs_eqb ((c0 :: re) ++ s2b ")") (s2b ")")) with false.
        2:{ symmetry. apply bs_eqb_neq. intro X. apply (f_equal (@length byte)) in X. rewrite app_length in X. cbn in X. lia. }
        cbn iota. cbn [negb]. rewrite app_length. change (length (s2b ")")) with 1. rewrite Nat.add_sub, firstn_app_exact. reflexivity. }
      destruct o; cbn [app].
      - assert (W2 : condWords false [s2b "$request_uri"; op; (c0 :: re) ++ s2b ")"] = Some [s2b "$request_uri"; op; c0 :: re]).
        { change (condWords false [s2b "$request_uri"; op; (c0 :: re) ++ s2b ")"]) with (match condWords false [op; (c0 :: re) ++ s2b ")"] with Some l => Some (s2b "$request_uri" :: l) | None => None end). rewrite W1. reflexivity. }
        change (match condWords false [s2b "$request_uri"; op; (c0 :: re) ++ s2b ")"] with Some l => Some l | None => None end = Some [s2b "$request_uri"; op; c0 :: re]). rewrite W2. reflexivity.
      - change (match condWords false [op; (c0 :: re) ++ s2b ")"] with Some l => Some (s2b "$request_uri" :: l) | None => None end = Some [s2b "$request_uri"; op; c0 :: re]). rewrite W1. reflexivity. }
    unfold ifRules. match goal with |- context [condWords true ?a] => replace (condWords true a) with (Some [s2b "$request_uri"; op; c0 :: re]) by (symmetry; exact W) end. change (bs_eqb (s2b "$request_uri") (s2b "$request_uri")) with true. cbn [negb]. cbn iota. cbn [lastRewrite]. change (bs_eqb (s2b "rewrite") (s2b "rewrite")) with true. cbn iota. cbn [bs_empty].
    unfold ruleText. destruct C; reflexivity.
  - cbn [bodyOf itemOk] in *.
    destruct (bs_eqb n (s2b "proxy_pass")) eqn:E1; [apply bs_eqb_spec in E1; exfalso; apply H; left; auto|].
    destruct (bs_eqb n (s2b "if")) eqn:E2; [apply bs_eqb_spec in E2; exfalso; apply H; right; right; left; auto|].
    destruct (bs_eqb n (s2b "rewrite")) eqn:E3; [apply bs_eqb_spec in E3; exfalso; apply H; right; left; auto|]. reflexivity.
Qed.
Lemma items_body is : Forall itemOk is -> forall up rules,
  bodyOf (map itemDir is) up rules = Some (fold_left (fun u i => match i with IPass up => up | _ => u end) is up, rules ++ map ruleText (filter isRule is)).
Proof.
  induction 1 as [|i is H _ IH]; intros up rules; [cbn; rewrite app_nil_r; reflexivity|]. cbn [map]. rewrite (item_body i _ up rules H), IH. cbn [fold_left filter].
  destruct (isRule i); cbn [map]; [rewrite <- app_assoc; reflexivity|rewrite app_nil_r; reflexivity].
Qed.
Lemma solid_spaceless w : solid w -> w <> [] /\ HttpSpec.spaceless w.
Proof. intros [N S]. split; [exact N|]. unfold HttpSpec.spaceless. eapply Forall_impl; [|exact S]. cbn. intros c H X. apply H. tauto. Qed.
Lemma rule_text K ct re m p neg t : ct <> [] -> HttpSpec.spaceless ct -> solid re -> solid m -> solid p ->
  (match ct with c :: _ => byte_eqb c x21 | [] => false end) = neg -> condTypeOf (if neg then tl ct else ct) = Some t ->
  newRewriteRule K (sp4 ct re m p) =
  match K m with
  | Some x => match t with
              | CExact | CStart => Some (mkRule neg t re None x p)
              | CIRegexp => match K (s2b "(?i)" ++ re) with Some c => Some (mkRule neg t re (Some c) x p) | None => None end
              | _ => match K re with Some c => Some (mkRule neg t re (Some c) x p) | None => None end
              end
  | None => None
  end.
Proof.
  intros N0 S0 R M P E T. apply solid_spaceless in R as [N1 S1], M as [N2 S2], P as [N3 S3].
  assert (B : HttpSpec.blank (s2b " ")) by (split; [discriminate|constructor; [cbn; tauto|constructor]]).
  unfold sp4. replace (ct ++ s2b " " ++ re ++ s2b " " ++ m ++ s2b " " ++ p) with (ct ++ (s2b " " ++ re) ++ (s2b " " ++ m) ++ (s2b " " ++ p)) by (rewrite <- !app_assoc; reflexivity).
  rewrite (HttpProps.C40_rule_text K ct _ re _ m _ p N0 N1 N2 S0 S1 S2 S3 B B B). cbv zeta. rewrite E, T. destruct t, (K m); reflexivity.
Qed.
Lemma sl_lit w : forallb (fun c => negb (isWs c)) w = true -> HttpSpec.spaceless w.
Proof. intro H. apply Forall_forall. intros c I. rewrite forallb_forall in H. specialize (H c I). intro X. apply HttpProofs.isWs_white in X. rewrite X in H. discriminate H. Qed.
Lemma item_rule i : itemOk i -> isRule i = true -> ruleText i <> [] /\ forall K r, newRewriteRule K (ruleText i) = Some r <-> itemRule K i r.
Proof.
  destruct i as [u|m p f|o c op re m p f|n a s]; intros H R; try discriminate R; cbn [itemOk] in H.
  - destruct H as [M P]. split; [discriminate|]. intros K r. cbn [ruleText itemRule]. rewrite (rule_text K (s2b "start") (s2b "/") m p false CStart);
      [|discriminate|apply sl_lit; reflexivity|split; [discriminate|repeat constructor; cbn; intuition discriminate]|exact M|exact P|reflexivity|reflexivity].
    destruct (K m) as [x|]; split; intro H.
    + injection H as <-. exists x. auto.
    + destruct H as (x' & X & ->). injection X as ->. reflexivity.
    + discriminate H.
    + destruct H as (x' & X & _). discriminate X.
  - destruct H as ((b & t & C) & RE & M & P). split.
    { unfold ruleText, sp4. destruct C; discriminate. }
    intros K r. cbn [ruleText itemRule].
    assert (Q : forall ct neg t0, condType op = Some ct -> ct <> [] -> HttpSpec.spaceless ct -> (match ct with c :: _ => byte_eqb c x21 | [] => false end) = neg ->
      condTypeOf (if neg then tl ct else ct) = Some t0 -> condition op neg t0 -> (forall b' t', condition op b' t' -> b' = neg /\ t' = t0) -> t0 = CRegexp \/ t0 = CIRegexp ->
      newRewriteRule K (sp4 (match condType op with Some ct => ct | None => [] end) re m p) = Some r <->
      exists b t x y, condition op b t /\ K (match t with CIRegexp => s2b "(?i)" ++ re | _ => re end) = Some y /\ K m = Some x /\ r = mkRule b t re (Some y) x p).
    { intros ct neg t0 E N0 S0 EN ET CO U T0. rewrite E, (rule_text K ct re m p neg t0 N0 S0 RE M P EN ET). split.
      - destruct (K m) as [x|] eqn:KM; [|discriminate]. destruct T0 as [-> | ->].
        + destruct (K re) as [y|] eqn:KR; [|discriminate]. intro H. injection H as <-. exists neg, CRegexp, x, y. auto.
        + destruct (K (s2b "(?i)" ++ re)) as [y|] eqn:KR; [|discriminate]. intro H. injection H as <-. exists neg, CIRegexp, x, y. auto.
      - intros (b0 & t1 & x & y & C0 & KY & KX & ->). destruct (U _ _ C0) as [-> ->]. rewrite KX. destruct T0 as [-> | ->]; rewrite KY; reflexivity. }
    assert (U : forall op b t b' t', condition op b t -> condition op b' t' -> b' = b /\ t' = t).
    { clear. intros op b t b' t' C C'. inversion C; subst; inversion C'; subst; split; reflexivity. }
    destruct C.
    + apply (Q (s2b "regexp") false CRegexp); [reflexivity|discriminate|apply sl_lit; reflexivity|reflexivity|reflexivity|constructor|intros ? ?; apply U; constructor|auto].
    + apply (Q (s2b "iregexp") false CIRegexp); [reflexivity|discriminate|apply sl_lit; reflexivity|reflexivity|reflexivity|constructor|intros ? ?; apply U; constructor|auto].
    + apply (Q (s2b "!regexp") true CRegexp); [reflexivity|discriminate|apply sl_lit; reflexivity|reflexivity|reflexivity|constructor|intros ? ?; apply U; constructor|auto].
    + apply (Q (s2b "!iregexp") true CIRegexp); [reflexivity|discriminate|apply sl_lit; reflexivity|reflexivity|reflexivity|constructor|intros ? ?; apply U; constructor|auto].
Qed.
Lemma visit_reads ps ns : Forall2 reads ps ns -> forall ls, exists out, visitAll ls ps = Some (ls ++ out) /\ Forall2 renders (filter served ns) out.
Proof.
  induction 1 as [|[a s] [t m is] ps ns (M & E & O) _ IH]; intro ls; [exists []; split; [cbn; rewrite app_nil_r; reflexivity|constructor]|].
  cbn [fst snd i_type i_match i_items] in *. subst s. cbn [visitAll]. unfold visitLocation. rewrite (match_of _ _ _ M), (items_body _ O). cbn [app].
  fold (lastPass is). cbn [filter]. unfold served at 1. cbn [i_items]. destruct (bs_empty (lastPass is)); cbn [negb].
  - exact (IH ls).
  - destruct (IH (ls ++ [mkLoc (lastPass is) m t (map ruleText (filter isRule is))])) as (out & V & F). exists (mkLoc (lastPass is) m t (map ruleText (filter isRule is)) :: out).
    split; [rewrite V, <- app_assoc; reflexivity|]. constructor; [|exact F]. repeat split. cbn [l_rules i_items]. clear - O.
    induction O as [|i is H _ IH]; [constructor|]. cbn [filter]. destruct (isRule i) eqn:R; [|exact IH]. cbn [map]. constructor; [apply item_rule; assumption|exact IH].
Qed.
Lemma convert_reads t ds ns : dirs t ds -> Forall2 reads (flat_map locsOf ds) ns -> exists out, convert t = Some out /\ Forall2 renders (filter served ns) out.
Proof.
  intros D F. unfold convert. rewrite (parse_grammar _ _ D), visit_all. exact (visit_reads _ _ F []).
Qed.

(* ------------------------------------------------------------ examples *)

Lemma plain_inside t : forallb (fun c => negb (ngSpace c || existsb (byte_eqb c) [x3b; x7b; x5c; x24])) t = true -> inside false false t t false.
Proof.
  induction t as [|c t IH]; intro H; [constructor|]. cbn [forallb] in H. apply andb_true_iff in H as [H1 H2]. apply negb_true_iff, orb_false_iff in H1 as [H0 H1].
  cbn [existsb] in H1. repeat (apply orb_false_iff in H1 as [?H H1]). apply in_plain; [|exact (IH H2)].
  repeat split; try (apply bno; assumption). apply ngSpace_no. assumption.
Qed.
Lemma plain_word c t : ~ Space c -> ~ In c [x3b; x7b; x7d; x23; x5c; x22] ->
  forallb (fun c => negb (ngSpace c || existsb (byte_eqb c) [x3b; x7b; x5c; x24])) t = true -> word (c :: t) (c :: t) Bare.
Proof. intros S N H. exact (w_bare c t t false S N (plain_inside t H)). Qed.
Lemma one_simple t d : dirs t [d] -> (exists u r, t = u ++ x3b :: r /\ blank r) \/ (exists u r, t = u ++ x7d :: r).
Proof.
  intro D. inversion D as [|b t0 n a e b' r ds H W G D0|b t0 n a e b' i xs r ds H W G D1 D0]; subst.
  - left. exists (b ++ t0 ++ b'), r. split; [repeat (rewrite <- !app_assoc; cbn [app]); reflexivity|]. inversion D0; assumption.
  - right. exists (b ++ t0 ++ b' ++ x7b :: i), r. repeat (rewrite <- !app_assoc; cbn [app]). reflexivity.
Qed.
