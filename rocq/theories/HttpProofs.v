(* HttpProofs.v: lemmas for C40, C64, C65. *)
From Verif Require Import Base GoStrings GoStrings2 HttpModel HttpSpec.
Ltac Zify.zify_post_hook ::= idtac.

(* ------------------------------------------------------------ locations *)

Section Flat.
Context {A B : Type} (o : A -> option B).
Let f l := opt_list (o l).

Lemma flat_split : forall ls a c b, flat_map f ls = a ++ c :: b ->
  exists a' l b', ls = a' ++ l :: b' /\ flat_map f a' = a /\ o l = Some c /\ flat_map f b' = b.
Proof.
  induction ls as [|l ls IH]; intros a c b H; [destruct a; discriminate H|].
  cbn [flat_map] in H. unfold f at 1 in H. destruct (o l) as [x|] eqn:E; cbn [opt_list app] in H.
  - destruct a as [|y a]; cbn in H; injection H as H1 H2.
    + subst x. exists [], l, ls. auto.
    + destruct (IH a c b H2) as (a' & l' & b' & -> & H3 & H4 & H5). exists (l :: a'), l', b'.
      repeat split; auto. cbn [flat_map]. unfold f at 1. rewrite E, H3, H1. reflexivity.
  - destruct (IH a c b H) as (a' & l' & b' & -> & H3 & H4 & H5). exists (l :: a'), l', b'.
    repeat split; auto. cbn [flat_map]. unfold f at 1. rewrite E. exact H3.
Qed.

Lemma flat_In ls l c : In l ls -> o l = Some c -> In c (flat_map f ls).
Proof. intros H E. apply in_flat_map. exists l. split; [exact H|]. unfold f. rewrite E. left. reflexivity. Qed.

Lemma find_first (p : B -> bool) : forall l c, find p l = Some c -> exists a b, l = a ++ c :: b /\ p c = true /\ (forall y, In y a -> p y = false).
Proof.
  induction l as [|x l IH]; intros c H; [discriminate H|]. cbn in H. destruct (p x) eqn:E.
  - injection H as <-. exists [], l. repeat split; auto. intros y [].
  - destruct (IH c H) as (a & b & -> & H1 & H2). exists (x :: a), b. repeat split; auto. intros y [<-|Hy]; auto.
Qed.

Lemma find_flat (p : B -> bool) ls :
  match find p (flat_map f ls) with
  | Some c => exists l, first_such (fun l => exists c, o l = Some c /\ p c = true) ls l /\ o l = Some c
  | None => forall l, In l ls -> ~ exists c, o l = Some c /\ p c = true
  end.
Proof.
  destruct (find p (flat_map f ls)) as [c|] eqn:E.
  - apply find_first in E as (a & b & H & Hp & Hn). apply flat_split in H as (a' & l & b' & -> & <- & Ho & _).
    exists l. split; [|exact Ho]. exists a', b'. split; [reflexivity|]. split; [eauto|]. intros y Hy (d & Hd & Hpd).
    rewrite (Hn d) in Hpd; [discriminate Hpd|]. apply flat_In with y; assumption.
  - intros l Hl (c & Hc & Hp). pose proof (find_none _ _ E c (flat_In _ _ _ Hl Hc)) as H. congruence.
Qed.
End Flat.

Definition effType (l : location) : option mtype := matchTypeOf (if bs_empty (l_type l) then s2b "start" else l_type l).
Definition exO (K : compiler) (l : location) : option cloc :=
  match effType l with Some MExact => Some (mkCloc (l_up l) (l_match l) None (compileRules K (l_rules l))) | _ => None end.
Definition stO (K : compiler) (l : location) : option cloc :=
  match effType l with Some MStart => Some (mkCloc (l_up l) (l_match l) None (compileRules K (l_rules l))) | _ => None end.
Definition rxO (K : compiler) (l : location) : option cloc :=
  match effType l with
  | Some MRegexp => match K (l_match l) with Some x => Some (mkCloc (l_up l) (l_match l) (Some x) (compileRules K (l_rules l))) | None => None end
  | Some MIRegexp => match K (s2b "(?i)" ++ l_match l) with Some x => Some (mkCloc (l_up l) (l_match l) (Some x) (compileRules K (l_rules l))) | None => None end
  | _ => None
  end.

Lemma addLocation_parts K m l :
  m_exact (addLocation K m l) = m_exact m ++ opt_list (exO K l) /\
  m_start (addLocation K m l) = m_start m ++ opt_list (stO K l) /\
  m_regexp (addLocation K m l) = m_regexp m ++ opt_list (rxO K l).
Proof.
  unfold addLocation, exO, stO, rxO, effType. cbv zeta.
  destruct (matchTypeOf _) as [[]|]; cbn [opt_list m_exact m_start m_regexp]; rewrite ?app_nil_r; auto;
  destruct (K _); cbn [opt_list m_exact m_start m_regexp]; rewrite ?app_nil_r; auto.
Qed.

Lemma matcher_parts K ls : forall m,
  m_exact (fold_left (addLocation K) ls m) = m_exact m ++ flat_map (fun l => opt_list (exO K l)) ls /\
  m_start (fold_left (addLocation K) ls m) = m_start m ++ flat_map (fun l => opt_list (stO K l)) ls /\
  m_regexp (fold_left (addLocation K) ls m) = m_regexp m ++ flat_map (fun l => opt_list (rxO K l)) ls.
Proof.
  induction ls as [|l ls IH]; intro m; cbn [fold_left flat_map]; [rewrite !app_nil_r; auto|].
  destruct (IH (addLocation K m l)) as (-> & -> & ->). destruct (addLocation_parts K m l) as (-> & -> & ->).
  rewrite <- !app_assoc. auto.
Qed.

(* the type of a location *)
Lemma effType_exact l : effType l = Some MExact <-> l_type l = s2b "exact".
Proof.
  unfold effType, matchTypeOf. destruct (bs_empty (l_type l)) eqn:E.
  - apply bs_empty_spec in E. rewrite E. split; [intro H; discriminate H|discriminate].
  - destruct (bs_eqb (l_type l) (s2b "regexp")) eqn:E1; [apply bs_eqb_spec in E1; rewrite E1; split; [intro H; discriminate H|discriminate]|].
    destruct (bs_eqb (l_type l) (s2b "iregexp")) eqn:E2; [apply bs_eqb_spec in E2; rewrite E2; split; [intro H; discriminate H|discriminate]|].
    destruct (bs_eqb (l_type l) (s2b "start")) eqn:E3; [apply bs_eqb_spec in E3; rewrite E3; split; [intro H; discriminate H|discriminate]|].
    rewrite <- bs_eqb_spec. destruct (bs_eqb (l_type l) (s2b "exact")); split; congruence.
Qed.
Lemma effType_start l : effType l = Some MStart <-> l_type l = s2b "start" \/ l_type l = [].
Proof.
  unfold effType, matchTypeOf. destruct (bs_empty (l_type l)) eqn:E.
  - apply bs_empty_spec in E. rewrite E. split; [auto|reflexivity].
  - assert (NE : l_type l <> []) by (intro K; apply bs_empty_spec in K; congruence).
    destruct (bs_eqb (l_type l) (s2b "regexp")) eqn:E1; [apply bs_eqb_spec in E1; rewrite E1; split; [intro H; discriminate H|intros [H|H]; discriminate H]|].
    destruct (bs_eqb (l_type l) (s2b "iregexp")) eqn:E2; [apply bs_eqb_spec in E2; rewrite E2; split; [intro H; discriminate H|intros [H|H]; discriminate H]|].
    destruct (bs_eqb (l_type l) (s2b "start")) eqn:E3; [apply bs_eqb_spec in E3; split; [auto|reflexivity]|].
    destruct (bs_eqb (l_type l) (s2b "exact")); split; try (intro H; discriminate H);
    intros [H|H]; try contradiction; apply bs_eqb_spec in H; congruence.
Qed.
Lemma effType_regexp l : (effType l = Some MRegexp <-> l_type l = s2b "regexp") /\ (effType l = Some MIRegexp <-> l_type l = s2b "iregexp").
Proof.
  unfold effType, matchTypeOf. destruct (bs_empty (l_type l)) eqn:E.
  - apply bs_empty_spec in E. rewrite E. split; (split; [intro H; discriminate H|discriminate]).
  - destruct (bs_eqb (l_type l) (s2b "regexp")) eqn:E1.
    { apply bs_eqb_spec in E1. rewrite E1. split; split; auto; intro H; discriminate H. }
    destruct (bs_eqb (l_type l) (s2b "iregexp")) eqn:E2.
    { apply bs_eqb_spec in E2. rewrite E2. split; split; auto; intro H; discriminate H. }
    apply bs_eqb_neq in E1, E2.
    split; (split; [|intro H; contradiction]); intro H; destruct (bs_eqb (l_type l) (s2b "start")); try discriminate H;
    destruct (bs_eqb (l_type l) (s2b "exact")); discriminate H.
Qed.

Lemma exO_iff K path l : (exists c, exO K l = Some c /\ bs_eqb path (c_match c) = true) <-> is_exact path l.
Proof.
  unfold exO, is_exact. rewrite <- effType_exact. split.
  - intros (c & H & E). destruct (effType l) as [[]|]; try discriminate H. injection H as <-. apply bs_eqb_spec in E. auto.
  - intros [-> E]. eexists. split; [reflexivity|]. apply bs_eqb_spec. symmetry. exact E.
Qed.
Lemma rxO_iff K path l :
  (exists c, rxO K l = Some c /\ match c_rx c with Some x => rx_match x path | None => false end = true) <-> is_regexp K path l.
Proof.
  unfold rxO, is_regexp. destruct (effType_regexp l) as [T1 T2]. split.
  - intros (c & H & E). destruct (effType l) as [[]|]; try discriminate H.
    + destruct (K (l_match l)) as [x|] eqn:EK; [|discriminate H]. injection H as <-. exists x. split; [exact E|]. left. split; [apply T1; reflexivity|reflexivity].
    + destruct (K (_ ++ _)) as [x|] eqn:EK; [|discriminate H]. injection H as <-. exists x. split; [exact E|]. right. split; [apply T2; reflexivity|reflexivity].
  - intros (x & E & [[H1 H2]|[H1 H2]]).
    + apply T1 in H1. rewrite H1, H2. eexists. split; [reflexivity|exact E].
    + apply T2 in H1. rewrite H1, H2. eexists. split; [reflexivity|exact E].
Qed.
Definition prefC (path : bs) (c : cloc) : Prop := c_match c <> [] /\ hasPrefix path (c_match c) = true.
Lemma stO_iff K path l : (exists c, stO K l = Some c /\ prefC path c) <-> is_prefix path l.
Proof.
  unfold stO, is_prefix, prefC. rewrite <- effType_start. split.
  - intros (c & H & E1 & E2). destruct (effType l) as [[]|]; try discriminate H. injection H as <-. cbn in *. apply hasPrefix_spec in E2. auto.
  - intros (-> & E1 & E2). eexists. split; [reflexivity|]. cbn. rewrite hasPrefix_spec. auto.
Qed.

Lemma longest_spec path : forall cs best len,
  (forall c, best = Some c -> len = length (c_match c)) -> (best = None -> len = 0) ->
  match longest cs path best len with
  | Some c => (best = Some c /\ forall y, In y cs -> prefC path y -> length (c_match y) <= len) \/
              exists a b, cs = a ++ c :: b /\ prefC path c /\ len < length (c_match c) /\
                (forall y, In y a -> prefC path y -> length (c_match y) < length (c_match c)) /\
                (forall y, In y b -> prefC path y -> length (c_match y) <= length (c_match c))
  | None => best = None /\ forall y, In y cs -> ~ prefC path y
  end.
Proof.
  induction cs as [|l cs IH]; intros best len H1 H2; cbn [longest].
  - destruct best as [c|]; [left; split; [reflexivity|intros y []]|split; [reflexivity|intros y []]].
  - destruct (hasPrefix path (c_match l) && (len <? length (c_match l))) eqn:E.
    + apply andb_true_iff in E as [E1 E2]. apply Nat.ltb_lt in E2.
      assert (PL : prefC path l) by (split; [intro K; rewrite K in E2; cbn in E2; lia|exact E1]).
      specialize (IH (Some l) (length (c_match l))). destruct (longest cs path _ _) as [c|].
      * right. destruct IH as [[IH1 IH2]|(a & b & -> & P & L & Ha & Hb)].
        -- intros c' H. injection H as <-. reflexivity.
        -- intro H. discriminate H.
        -- injection IH1 as <-. exists [], cs. split; [reflexivity|]. split; [exact PL|]. split; [exact E2|]. split; [intros y []|exact IH2].
        -- exists (l :: a), b. split; [reflexivity|]. split; [exact P|]. split; [lia|]. split; [|exact Hb].
           intros y [<-|Hy] Py; [exact L|apply Ha; assumption].
      * destruct IH as [IH _]; [intros c' H; injection H as <-; reflexivity|intro H; discriminate H|discriminate IH].
    + specialize (IH best len H1 H2).
      assert (PL : prefC path l -> length (c_match l) <= len).
      { intros [_ P]. rewrite P in E. cbn in E. apply Nat.ltb_ge in E. exact E. }
      destruct (longest cs path best len) as [c|].
      * destruct IH as [[IH1 IH2]|(a & b & -> & P & L & Ha & Hb)].
        -- left. split; [exact IH1|]. intros y [<-|Hy] Py; [apply PL, Py|apply IH2; assumption].
        -- right. exists (l :: a), b. split; [reflexivity|]. split; [exact P|]. split; [exact L|]. split; [|exact Hb].
           intros y [<-|Hy] Py; [specialize (PL Py); lia|apply Ha; assumption].
      * destruct IH as [IH1 IH2]. split; [exact IH1|]. intros y [<-|Hy] Py; [|exact (IH2 y Hy Py)].
        specialize (PL Py). rewrite (H2 IH1) in PL. destruct Py as [Py _]. destruct (c_match l); [contradiction|cbn in PL; lia].
Qed.

Lemma first_such_ext {A} (P Q : A -> Prop) l x : (forall y, P y <-> Q y) -> first_such P l x -> first_such Q l x.
Proof. intros H (a & b & E & Hx & Ha). exists a, b. split; [exact E|]. split; [apply H, Hx|]. intros y Hy K. apply (Ha y Hy), H, K. Qed.

Lemma pick_choice K ls path query qget rw :
  match pick (newLocationMatcher K ls) path query qget rw with
  | Some (up, p) => exists l, nginx_choice K ls path l /\ up = l_up l /\ p = determinePath (compileRules K (l_rules l)) path query qget rw
  | None => forall l, ~ nginx_choice K ls path l
  end.
Proof.
  unfold pick, newLocationMatcher. destruct (matcher_parts K ls (mkMatcher [] [] [] false)) as (-> & -> & ->). cbn [m_exact m_start m_regexp app].
  pose proof (find_flat (exO K) (fun l => bs_eqb path (c_match l)) ls) as FE.
  pose proof (find_flat (rxO K) (fun l => match c_rx l with Some x => rx_match x path | None => false end) ls) as FR.
  pose proof (longest_spec path (flat_map (fun l => opt_list (stO K l)) ls) None 0 (fun c H => ltac:(discriminate H)) (fun _ => eq_refl)) as FS.
  destruct (find _ (flat_map (fun l => opt_list (exO K l)) ls)) as [c|].
  { destruct FE as (l & H & Ho). exists l. split.
    - left. eapply first_such_ext; [|exact H]. intro y. apply exO_iff.
    - unfold exO in Ho. destruct (effType l) as [[]|]; try discriminate Ho. injection Ho as <-. auto. }
  assert (NE : forall y, In y ls -> ~ is_exact path y) by (intros y Hy Hx; apply (FE y Hy), exO_iff, Hx). clear FE.
  destruct (find _ (flat_map (fun l => opt_list (rxO K l)) ls)) as [c|].
  { destruct FR as (l & H & Ho). exists l. split.
    - right. left. split; [exact NE|]. eapply first_such_ext; [|exact H]. intro y. apply rxO_iff.
    - unfold rxO in Ho. destruct (effType l) as [[]|]; try discriminate Ho.
      + destruct (K (l_match l)); [injection Ho as <-; auto|discriminate Ho].
      + destruct (K (_ ++ l_match l)); [injection Ho as <-; auto|discriminate Ho]. }
  assert (NR : forall y, In y ls -> ~ is_regexp K path y) by (intros y Hy Hx; apply (FR y Hy), rxO_iff, Hx). clear FR.
  assert (TR : forall y l, In y l -> is_prefix path y -> exists c, In c (flat_map (fun l => opt_list (stO K l)) l) /\ prefC path c /\ c_match c = l_match y).
  { intros y l Hy Hp. apply (stO_iff K) in Hp as (c & Hc & Pc). exists c. split; [exact (flat_In (stO K) l y c Hy Hc)|]. split; [exact Pc|].
    unfold stO in Hc. destruct (effType y) as [[]|]; try discriminate Hc. injection Hc as <-. reflexivity. }
  destruct (longest _ path None 0) as [c|].
  - destruct FS as [[FS _]|(a & b & H & P & L & Ha & Hb)]; [discriminate FS|].
    apply flat_split in H as (a' & l & b' & -> & <- & Ho & <-).
    assert (PL : is_prefix path l) by (apply (stO_iff K); eauto).
    unfold stO in Ho. destruct (effType l) as [[]|]; try discriminate Ho. injection Ho as <-. cbn [c_up c_match c_rules] in *.
    exists l. split; [|auto]. right. right. split; [exact NE|]. split; [exact NR|]. exists a', b'. split; [reflexivity|]. split; [exact PL|].
    split; intros y Hy Py; destruct (TR y _ Hy Py) as (c & Hc & Pc & <-); [apply Ha|apply Hb]; assumption.
  - destruct FS as [_ FS]. intros l [(a & b & -> & Hx & _)|[(_ & a & b & -> & Hx & _)|(_ & _ & a & b & -> & Hx & _)]].
    + apply (NE l); [apply in_elt|exact Hx].
    + apply (NR l); [apply in_elt|exact Hx].
    + destruct (TR l _ (in_elt l a b) Hx) as (c & Hc & Pc & _). exact (FS c Hc Pc).
Qed.

(* ------------------------------------------------------------ rewriting *)

Lemma rewrite_spec r path query qget :
  match rewrite r path query qget with
  | (p, true) => rule_gives r path query qget p
  | (_, false) => forall p, ~ rule_gives r path query qget p
  end.
Proof.
  unfold rewrite, rule_gives, cond_holds. cbv zeta.
  set (m := match r_type r with CExact => bs_eqb (r_cond r) path | _ => _ end).
  set (M := match r_type r with CExact => path = r_cond r | _ => _ end).
  assert (HM : m = true <-> M).
  { subst m M. destruct (r_type r); try (destruct (r_condRx r) as [x|]; split; [intro H; exists x; auto|intros (y & Hy & H); congruence|intro H; discriminate H|intros (y & Hy & _); discriminate Hy]).
    - rewrite hasPrefix_spec. reflexivity.
    - rewrite bs_eqb_spec. split; auto. }
  assert (HN : (if r_not r then negb m else m) = true <-> (if r_not r then ~ M else M)).
  { destruct (r_not r); [|exact HM]. rewrite negb_true_iff, <- HM. destruct m; split; intro H; try reflexivity; try discriminate H; try (intro; discriminate); exfalso; apply H; reflexivity. }
  destruct (if r_not r then negb m else m).
  - destruct (rx_expand (r_pattern r) (r_replace r) path) as [u|].
    + split; [apply HN; reflexivity|]. exists u. auto.
    + intros p (_ & u & H & _). discriminate H.
  - intros p (H & _). apply HN in H. discriminate H.
Qed.

Lemma firstRewrite_spec query qget path : forall rs,
  (exists r p, first_such (fun r => exists p, rule_gives r path query qget p) rs r /\ rule_gives r path query qget p /\ firstRewrite rs path query qget = p) \/
  (forall r p, In r rs -> ~ rule_gives r path query qget p) /\ firstRewrite rs path query qget = path.
Proof.
  induction rs as [|r rs IH]; cbn [firstRewrite]; [right; split; [intros r p []|reflexivity]|].
  pose proof (rewrite_spec r path query qget) as R. destruct (rewrite r path query qget) as [s [|]].
  - left. exists r, s. split; [|auto]. exists [], rs. split; [reflexivity|]. split; [eauto|intros y []].
  - destruct IH as [(r' & p & (a & b & -> & H1 & H2) & H3 & H4)|[H1 H2]].
    + left. exists r', p. split; [|auto]. exists (r :: a), b. split; [reflexivity|]. split; [exact H1|].
      intros y [<-|Hy]; [intros (q & Hq); exact (R q Hq)|apply H2, Hy].
    + right. split; [|exact H2]. intros r' p [<-|Hr]; [apply R|apply H1, Hr].
Qed.

(* white space *)
Lemma isWs_white c : isWs c = true <-> In c white.
Proof.
  split.
  - unfold isWs. cbv zeta. rewrite !orb_true_iff, !N.eqb_eq. intro H. cbn [white In].
    rewrite <- (n2b_b2n c). destruct H as [[[[H|H]|H]|H]|H]; rewrite H; vm_compute; auto 10.
  - intros [<-|[<-|[<-|[<-|[<-|[]]]]]]; reflexivity.
Qed.
Lemma isWs_not c : ~ In c white -> isWs c = false.
Proof. intro H. destruct (isWs c) eqn:E; [|reflexivity]. exfalso. apply H. apply isWs_white. exact E. Qed.
Lemma wsRuns_spaceless f : spaceless f -> forall pos x, wsRuns pos None (f ++ x) = wsRuns (pos + length f) None x.
Proof.
  induction 1 as [|c f Hc Hf IH]; intros pos x; cbn [app wsRuns length]; [rewrite Nat.add_0_r; reflexivity|].
  rewrite (isWs_not c Hc), IH. f_equal. lia.
Qed.
Lemma wsRuns_blank w : Forall (fun c => In c white) w -> forall pos b x, wsRuns pos (Some b) (w ++ x) = wsRuns (pos + length w) (Some b) x.
Proof.
  induction 1 as [|c w Hc Hw IH]; intros pos b x; cbn [app wsRuns length]; [rewrite Nat.add_0_r; reflexivity|].
  rewrite (proj2 (isWs_white c) Hc), IH. f_equal. lia.
Qed.
Lemma wsRuns_fields l : fields_ok l -> forall pos, wsRuns pos None (text_of l) =
  match l with
  | [] => []
  | (w, f) :: r => (pos, pos + length w) :: wsRuns (pos + length w + length f) None (text_of r)
  end.
Proof.
  destruct l as [|[w f] r]; intros H pos; [reflexivity|]. cbn [fields_ok] in H. destruct H as ([Hw0 Hw] & Hf & Hne & Hr).
  unfold text_of. cbn [flat_map fst snd]. fold (text_of r). destruct w as [|c w]; [contradiction|]. inversion Hw as [|? ? Hc Hw']; subst.
  rewrite <- app_assoc. cbn [app wsRuns length]. rewrite (proj2 (isWs_white c) Hc), wsRuns_blank by exact Hw'.
  replace (S pos + length w) with (pos + S (length w)) by lia.
  destruct f as [|d f].
  - cbn [app length]. rewrite Nat.add_0_r. destruct r as [|x r]; [reflexivity|]. exfalso. apply Hne; [discriminate|reflexivity].
  - inversion Hf as [|? ? Hd Hf']; subst. cbn [app wsRuns length]. rewrite (isWs_not d Hd). f_equal. rewrite wsRuns_spaceless by exact Hf'. f_equal. lia.
Qed.
Lemma psLoop_fields : forall l pre f0 s acc fin, fields_ok l -> s = pre ++ f0 ++ text_of l -> fin <> length s ->
  psLoop s (wsRuns (length pre + length f0) None (text_of l)) (length pre) fin acc = acc ++ f0 :: map snd l.
Proof.
  induction l as [|[w f] r IH]; intros pre f0 s acc fin H Hs Hfin.
  - cbn [text_of flat_map] in *. rewrite app_nil_r in Hs. subst s. cbn [wsRuns psLoop map]. apply Nat.eqb_neq in Hfin. rewrite Hfin.
    rewrite skipn_app_exact. reflexivity.
  - rewrite wsRuns_fields by exact H. cbn [fields_ok] in H. destruct H as ([Hw0 Hw] & Hf & Hne & Hr).
    assert (Lw : 0 < length w) by (destruct w; [contradiction|cbn; lia]).
    cbn [psLoop]. replace (length pre + length f0 + length w =? 0) with false by (symmetry; apply Nat.eqb_neq; lia).
    replace (length pre + length f0 - length pre) with (length f0) by lia.
    assert (Sk : firstn (length f0) (skipn (length pre) s) = f0).
    { rewrite Hs, skipn_app_exact. apply firstn_app_exact. }
    rewrite Sk. specialize (IH (pre ++ f0 ++ w) f s (acc ++ [f0]) (length pre + length f0) Hr).
    rewrite !app_length in IH. rewrite Nat.add_assoc in IH. rewrite IH.
    + rewrite <- app_assoc. reflexivity.
    + rewrite Hs. unfold text_of. cbn [flat_map fst snd]. rewrite <- !app_assoc. reflexivity.
    + rewrite Hs. unfold text_of. cbn [flat_map fst snd]. rewrite !app_length. lia.
Qed.
Lemma patternSplit_fields f0 l : spaceless f0 -> fields_ok l -> f0 ++ text_of l <> [] -> patternSplit (f0 ++ text_of l) = f0 :: map snd l.
Proof.
  intros H0 Hl Hne. unfold patternSplit. rewrite wsRuns_spaceless by exact H0.
  change 0 with (length (@nil byte)) at 2. change (0 + length f0) with (length (@nil byte) + length f0).
  rewrite (psLoop_fields l [] f0 (f0 ++ text_of l) [] 0 Hl eq_refl); [reflexivity|].
  destruct (f0 ++ text_of l); [contradiction|discriminate].
Qed.

(* ------------------------------------------------------------ variables in paths *)

Lemma varRun_app k x r : Forall (fun c => isVarChar c = true) k -> isVarChar x = false -> varRun (k ++ x :: r) = (k, x :: r).
Proof. induction 1 as [|c k Hc Hk IH]; intro Hx; cbn [app varRun]; [rewrite Hx; reflexivity|]. rewrite Hc, (IH Hx). reflexivity. Qed.
Lemma holders_lit s x : ~ In x7b s -> holders (s ++ x) = holders x.
Proof.
  induction s as [|c s IH]; intro H; [reflexivity|]. cbn [app holders].
  replace (byte_eqb c x7b) with false; [apply IH; intro K; apply H; right; exact K|].
  symmetry. apply byte_eqb_neq. intros ->. apply H. left. reflexivity.
Qed.
Lemma varChar_not_brace c : isVarChar c = true -> c <> x7b /\ c <> x7d.
Proof. intro H. split; intros ->; discriminate H. Qed.
Lemma holders_var k x : k <> [] -> Forall (fun c => isVarChar c = true) k -> holders ([x7b] ++ k ++ [x7d] ++ x) = k :: holders x.
Proof.
  intros Hne Hk. cbn [app holders]. change (byte_eqb x7b x7b) with true. cbn iota. rewrite varRun_app; [|exact Hk|reflexivity].
  destruct k as [|c k]; [contradiction|]. change (byte_eqb x7d x7d) with true. cbn iota. f_equal.
  change ((c :: k) ++ x7d :: x) with ((c :: k) ++ ([x7d] ++ x)). rewrite app_assoc. apply holders_lit. intro K. apply in_app_or in K as [K|[K|[]]]; [|discriminate K].
  rewrite Forall_forall in Hk. destruct (varChar_not_brace _ (Hk _ K)) as [N _]. apply N. reflexivity.
Qed.
Lemma holders_pieces ps : Forall piece_ok ps -> holders (concat (map piece_text ps)) = flat_map (fun p => match p with Var k => [k] | Lit _ => [] end) ps.
Proof.
  induction 1 as [|p ps Hp Hps IH]; [reflexivity|]. cbn [map concat flat_map]. destruct p as [s|k]; cbn [piece_text] in *.
  - rewrite holders_lit by apply Hp. exact IH.
  - rewrite <- !app_assoc. rewrite holders_var by apply Hp. rewrite IH. reflexivity.
Qed.

Lemma joinStr_cons_head new x p t : joinStr new ((x :: p) :: t) = x :: joinStr new (p :: t).
Proof. destruct t; reflexivity. Qed.
Lemma replaceAll_skip old new x r : hasPrefix (x :: r) old = false -> replaceAll old new (x :: r) = x :: replaceAll old new r.
Proof.
  intro H. unfold replaceAll, splitStr. cbn [splitFrom]. rewrite H. destruct (splitFrom old 0 r) as [|p t] eqn:E; [destruct (splitFrom_ne _ _ _ E)|].
  apply joinStr_cons_head.
Qed.
Lemma replaceAll_hit old new r : old <> [] -> replaceAll old new (old ++ r) = new ++ replaceAll old new r.
Proof.
  intro Hne. destruct old as [|c old]; [contradiction|]. unfold replaceAll, splitStr. cbn [app splitFrom].
  replace (hasPrefix (c :: old ++ r) (c :: old)) with true by (symmetry; apply hasPrefix_spec; exists r; reflexivity).
  cbn [length]. replace (S (length old) - 1) with (length old) by lia. rewrite splitFrom_skip by (rewrite app_length; lia). rewrite skipn_app_exact.
  destruct (splitFrom (c :: old) 0 r) as [|p t] eqn:E; [destruct (splitFrom_ne _ _ _ E)|reflexivity].
Qed.
Lemma replaceAll_lit k new s x : ~ In x7b s -> replaceAll (holder k) new (s ++ x) = s ++ replaceAll (holder k) new x.
Proof.
  induction s as [|c s IH]; intro H; [reflexivity|]. cbn [app]. rewrite replaceAll_skip.
  - rewrite IH; [reflexivity|]. intro K. apply H. right. exact K.
  - destruct (hasPrefix (c :: s ++ x) (holder k)) eqn:E; [|reflexivity]. apply hasPrefix_spec in E as (t & E). unfold holder in E. cbn in E.
    injection E as -> _. exfalso. apply H. left. reflexivity.
Qed.
Lemma holder_prefix k k' x : Forall (fun c => isVarChar c = true) k -> Forall (fun c => isVarChar c = true) k' ->
  hasPrefix (holder k' ++ x) (holder k) = true -> k = k'.
Proof.
  intros Hk Hk' H. apply hasPrefix_spec in H as (t & H). unfold holder in H. cbn [app] in H. injection H as H.
  rewrite <- !app_assoc in H. cbn [app] in H. pose proof (varRun_app k x7d t Hk eq_refl) as E. pose proof (varRun_app k' x7d x Hk' eq_refl) as E'.
  rewrite H in E'. rewrite E in E'. congruence.
Qed.
Lemma replaceAll_other k k' new x : Forall (fun c => isVarChar c = true) k -> Forall (fun c => isVarChar c = true) k' -> k <> k' ->
  replaceAll (holder k) new (holder k' ++ x) = holder k' ++ replaceAll (holder k) new x.
Proof.
  intros Hk Hk' Hne. assert (HP : hasPrefix (holder k' ++ x) (holder k) = false).
  { destruct (hasPrefix (holder k' ++ x) (holder k)) eqn:E; [|reflexivity]. apply holder_prefix in E; [contradiction|exact Hk|exact Hk']. }
  unfold holder at 2 in HP. unfold holder at 2 4. change (([x7b] ++ k' ++ [x7d]) ++ x) with (x7b :: (k' ++ [x7d]) ++ x) in *.
  rewrite replaceAll_skip by exact HP. rewrite replaceAll_lit; [reflexivity|].
  intro K. apply in_app_or in K as [K|[K|[]]]; [|discriminate K]. rewrite Forall_forall in Hk'.
  destruct (varChar_not_brace _ (Hk' _ K)) as [N _]. apply N. reflexivity.
Qed.

Definition subst1 (k v : bs) (p : piece) : piece :=
  match p with Var k' => if bs_eqb k' k then Lit v else p | Lit _ => p end.
Lemma replaceAll_pieces k v ps : Forall piece_ok ps -> k <> [] -> Forall (fun c => isVarChar c = true) k ->
  replaceAll (holder k) v (concat (map piece_text ps)) = concat (map piece_text (map (subst1 k v) ps)).
Proof.
  intros H Hne Hk. induction H as [|p ps Hp Hps IH]; [reflexivity|]. cbn [map concat]. destruct p as [s|k']; cbn [piece_text subst1] in *.
  - rewrite replaceAll_lit by apply Hp. rewrite IH. reflexivity.
  - destruct Hp as [Hne' Hk']. destruct (bs_eqb k' k) eqn:E.
    + apply bs_eqb_spec in E. subst k'. change ([x7b] ++ k ++ [x7d]) with (holder k). rewrite replaceAll_hit by discriminate. rewrite IH. reflexivity.
    + apply bs_eqb_neq in E. change ([x7b] ++ k' ++ [x7d]) with (holder k'). rewrite replaceAll_other by (try assumption; congruence). rewrite IH. reflexivity.
Qed.

Definition substAll (qget : bs -> bs) (ks : list bs) (p : piece) : piece :=
  match p with Var k => if existsb (bs_eqb k) ks then Lit (qget k) else p | Lit _ => p end.
Lemma fold_replace qget : forall ks ps, Forall piece_ok ps -> (forall k, In k ks -> k <> [] /\ Forall (fun c => isVarChar c = true) k) ->
  (forall k, ~ In x7b (qget k) /\ ~ In x7d (qget k)) ->
  fold_left (fun u k => replaceAll (holder k) (qget k) u) ks (concat (map piece_text ps)) = concat (map piece_text (map (substAll qget ks) ps)).
Proof.
  induction ks as [|k ks IH]; intros ps Hps Hks Hq; cbn [fold_left].
  - f_equal. f_equal. rewrite <- (map_id ps) at 1. apply map_ext. intros [s|k]; reflexivity.
  - destruct (Hks k (or_introl eq_refl)) as [K1 K2]. rewrite replaceAll_pieces by assumption. rewrite IH.
    + f_equal. f_equal. rewrite map_map. apply map_ext. intros [s|k']; cbn [subst1 substAll]; [reflexivity|]. cbn [existsb].
      destruct (bs_eqb k' k) eqn:E; cbn [substAll orb]; [apply bs_eqb_spec in E; subst; reflexivity|reflexivity].
    + clear -Hps Hq. induction Hps as [|p ps Hp Hps IH]; cbn [map]; constructor; [|exact IH]. destruct p as [s|k']; cbn [subst1]; [exact Hp|].
      destruct (bs_eqb k' k); [exact (Hq k)|exact Hp].
    + intros k' Hk'. apply Hks. right. exact Hk'.
    + exact Hq.
Qed.
Lemma rewriteVar_pieces qget query ps : Forall piece_ok ps -> (forall k, ~ In x7b (qget k) /\ ~ In x7d (qget k)) -> query <> [] ->
  rewriteVar CRegexpVar (concat (map piece_text ps)) query qget = concat (map (piece_value qget) ps).
Proof.
  intros Hps Hq Hne. unfold rewriteVar. destruct query as [|c q]; [contradiction|]. cbn [bs_empty]. rewrite holders_pieces by exact Hps.
  rewrite fold_replace; [|exact Hps| |exact Hq].
  - f_equal. rewrite map_map. apply map_ext_in. intros [s|k] Hin; cbn [substAll piece_text piece_value]; [reflexivity|].
    replace (existsb (bs_eqb k) _) with true; [reflexivity|]. symmetry. apply existsb_exists. exists k. split; [|apply bs_eqb_refl].
    apply in_flat_map. exists (Var k). split; [exact Hin|left; reflexivity].
  - intros k Hk. apply in_flat_map in Hk as ([s|k'] & Hin & Hk'); [destruct Hk'|]. destruct Hk' as [<-|[]].
    rewrite Forall_forall in Hps. exact (Hps _ Hin).
Qed.

(* ------------------------------------------------------------ forms *)

Lemma all_bytes (P : byte -> bool) : forallb P (map n2b (map N.of_nat (seq 0 256))) = true -> forall c, P c = true.
Proof.
  intros H c. rewrite forallb_forall in H. apply H. rewrite <- (n2b_b2n c). apply in_map. pose proof (b2n_lt c) as L.
  rewrite <- (N2Nat.id (b2n c)). apply in_map. apply in_seq. lia.
Qed.
Definition opt_bs_eqb (a b : option bs) : bool :=
  match a, b with Some x, Some y => bs_eqb x y | None, None => true | _, _ => false end.
Lemma opt_bs_eqb_eq a b : opt_bs_eqb a b = true -> a = b.
Proof. destruct a, b; cbn; intro H; try discriminate H; [apply bs_eqb_spec in H; subst|]; reflexivity. Qed.
Lemma escapeByte_ok c : unescape (escapeByte c) = Some [c] /\ ~ In x26 (escapeByte c) /\ ~ In x3d (escapeByte c).
Proof.
  assert (H : opt_bs_eqb (unescape (escapeByte c)) (Some [c]) && negb (existsb (byte_eqb x26) (escapeByte c)) && negb (existsb (byte_eqb x3d) (escapeByte c)) = true).
  { revert c. apply all_bytes. vm_compute. reflexivity. }
  apply andb_true_iff in H as [H H3]. apply andb_true_iff in H as [H1 H2]. apply opt_bs_eqb_eq in H1. apply negb_true_iff in H2, H3.
  split; [exact H1|]. split; intro K.
  - rewrite (proj2 (existsb_exists (byte_eqb x26) (escapeByte c)) (ex_intro _ x26 (conj K (byte_eqb_refl x26)))) in H2. discriminate H2.
  - rewrite (proj2 (existsb_exists (byte_eqb x3d) (escapeByte c)) (ex_intro _ x3d (conj K (byte_eqb_refl x3d)))) in H3. discriminate H3.
Qed.
Lemma unescape_byte c r : unescape (escapeByte c ++ r) = match unescape r with Some u => Some (c :: u) | None => None end.
Proof.
  destruct (escapeByte_ok c) as [H _]. unfold escapeByte in *. destruct (unreserved c).
  - cbn [app unescape] in *. destruct (byte_eqb c x25); [discriminate H|]. destruct (unescape r); [|reflexivity]. injection H as ->. reflexivity.
  - destruct (byte_eqb c x20); cbn [app unescape] in *.
    + change (byte_eqb x2b x25) with false in *. change (byte_eqb x2b x2b) with true in *. cbn iota in *. injection H as <-. reflexivity.
    + change (byte_eqb x25 x25) with true in *. cbn iota in *. destruct (unhex _) as [x|]; [|discriminate H]. destruct (unhex _) as [y|]; [|discriminate H].
      apply (f_equal (fun o => match o with Some (z :: _) => z | _ => c end)) in H. cbv beta iota in H. rewrite H. reflexivity.
Qed.
Lemma unescape_escape s : unescape (queryEscape s) = Some s.
Proof. unfold queryEscape. induction s as [|c s IH]; [reflexivity|]. cbn [flat_map]. rewrite unescape_byte, IH. reflexivity. Qed.
Lemma queryEscape_clean s : ~ In x26 (queryEscape s) /\ ~ In x3d (queryEscape s).
Proof.
  unfold queryEscape. split; intro H; apply in_flat_map in H as (c & _ & H); destruct (escapeByte_ok c) as (_ & H1 & H2); contradiction.
Qed.
Lemma unescape_plain k : ~ In x25 k -> ~ In x2b k -> unescape k = Some k.
Proof.
  induction k as [|c k IH]; intros H1 H2; [reflexivity|]. cbn [unescape].
  replace (byte_eqb c x25) with false by (symmetry; apply byte_eqb_neq; intros ->; apply H1; left; reflexivity).
  rewrite IH by (intro K; first [apply H1; right; exact K|apply H2; right; exact K]).
  replace (byte_eqb c x2b) with false by (symmetry; apply byte_eqb_neq; intros ->; apply H2; left; reflexivity). reflexivity.
Qed.
Lemma cut_app c a b : ~ In c a -> cut c (a ++ c :: b) = (a, b).
Proof.
  induction a as [|x a IH]; intro H; cbn [app cut]; [rewrite byte_eqb_refl; reflexivity|].
  replace (byte_eqb x c) with false by (symmetry; apply byte_eqb_neq; intros ->; apply H; left; reflexivity).
  rewrite IH; [reflexivity|]. intro K. apply H. right. exact K.
Qed.
Definition formPart (kv : bs * bs) : bs := fst kv ++ x3d :: queryEscape (snd kv).
Lemma formBody_parts m : formBody m = flat_map (fun kv => x26 :: formPart kv) m.
Proof. unfold formBody, formPart. apply flat_map_ext. intros [k v]. reflexivity. Qed.
Lemma split_parts ls : forall first, Forall (fun p => ~ In x26 p) (first :: ls) -> splitOn x26 (first ++ flat_map (fun p => x26 :: p) ls) = first :: ls.
Proof.
  induction ls as [|p ls IH]; intros first H; inversion H as [|? ? H1 H2]; subst; cbn [flat_map].
  - rewrite app_nil_r. apply splitOn_none, H1.
  - cbn [app]. rewrite splitOn_app by exact H1. rewrite (IH p H2). reflexivity.
Qed.
Lemma parse_parts m : Forall (fun kv => plain_name (fst kv)) m ->
  all_some (map (fun p => let '(k, v) := cut x3d p in
                          match unescape k, unescape v with Some a, Some b => Some (a, b) | _, _ => None end) (map formPart m)) = Some m.
Proof.
  induction 1 as [|[k v] m Hk Hm IH]; [reflexivity|]. cbn [map all_some]. unfold formPart at 1. cbn [fst snd] in *. destruct Hk as (K1 & K2 & K3 & K4).
  rewrite cut_app by exact K2. rewrite unescape_plain by assumption. rewrite unescape_escape. cbn [all_some]. rewrite IH. reflexivity.
Qed.
Lemma form_roundtrip kv m : Forall (fun kv => plain_name (fst kv)) (kv :: m) ->
  exists body, formBody (kv :: m) = x26 :: body /\ parse_form body = Some (kv :: m).
Proof.
  intro H. rewrite formBody_parts. cbn [flat_map app]. eexists. split; [reflexivity|]. unfold parse_form.
  rewrite <- (parse_parts (kv :: m) H). f_equal. f_equal.
  replace (flat_map (fun kv => x26 :: formPart kv) m) with (flat_map (fun p => x26 :: p) (map formPart m)).
  - rewrite split_parts; [reflexivity|]. rewrite <- map_cons. rewrite Forall_forall in *. intros p Hp. apply in_map_iff in Hp as (x & <- & Hx).
    specialize (H x Hx). destruct H as (K1 & _). unfold formPart. intro K. apply in_app_or in K as [K|[K|K]]; [contradiction|discriminate K|].
    exact (proj1 (queryEscape_clean (snd x)) K).
  - clear. induction m as [|x m IH]; [reflexivity|]. cbn [map flat_map]. rewrite IH. reflexivity.
Qed.

(* ------------------------------------------------------------ headers *)

Lemma headerCall_cases k v :
  (exists n, aget bs_eqb innerNames k = Some n /\ headerCall (k, v) = Some (HSet n v)) \/
  (aget bs_eqb innerNames k = None /\
   ((In k privateNames /\ headerCall (k, v) = None) \/
    (~ In k privateNames /\
     (headerCall (k, v) = Some (HHost v) \/ headerCall (k, v) = Some (HContentType v) \/
      (exists n, k = HeaderPrefix ++ n /\ headerCall (k, v) = Some (HSet n v)) \/
      (headerCall (k, v) = Some (HSet k v)))))).
Proof.
  unfold headerCall. destruct (aget bs_eqb innerNames k) as [n|]; [left; eauto|right; split; [reflexivity|]].
  destruct (existsb (bs_eqb k) privateNames) eqn:E.
  - left. split; [|reflexivity]. apply (existsb_eqb_In bs_eqb bs_eqb_spec). exact E.
  - right. split. { intro H. apply (existsb_eqb_In bs_eqb bs_eqb_spec) in H. congruence. }
    destruct (bs_eqb k _ || bs_eqb k _); [auto|]. destruct (bs_eqb k (s2b "Content-Type") || bs_eqb k (s2b "content-type")); [auto|].
    destruct (hasPrefix k HeaderPrefix) eqn:P; [|auto]. right. right. left. apply hasPrefix_spec in P as (n & ->). exists n.
    split; [reflexivity|]. rewrite skipn_app_exact. reflexivity.
Qed.

Lemma header_clash k1 v1 k2 v2 n : headerCall (k1, v1) = Some (HSet n v1) -> headerCall (k2, v2) = Some (HSet n v2) ->
  k1 = k2 \/ (k1 = n /\ k2 = HeaderPrefix ++ n) \/ (k2 = n /\ k1 = HeaderPrefix ++ n) \/ In n (map snd innerNames).
Proof.
  intros H1 H2.
  destruct (headerCall_cases k1 v1) as [(m & A & E)|(A & [(_ & E)|(_ & [E|[E|[(m & -> & E)|E]]])])]; rewrite H1 in E; try discriminate E;
  apply (f_equal (fun o => match o with Some (HSet a _) => a | _ => [] end)) in E; cbn beta iota in E; [subst m|subst m|].
  - right. right. right. apply (aget_In bs_eqb bs_eqb_spec) in A. apply in_map_iff. exists (k1, n). auto.
  - destruct (headerCall_cases k2 v2) as [(m & A' & E)|(A' & [(_ & E)|(_ & [E|[E|[(m & -> & E)|E]]])])]; rewrite H2 in E; try discriminate E;
    apply (f_equal (fun o => match o with Some (HSet a _) => a | _ => [] end)) in E; cbn beta iota in E; subst.
    + right. right. right. apply (aget_In bs_eqb bs_eqb_spec) in A'. apply in_map_iff. exists (k2, m). auto.
    + left. reflexivity.
    + right. right. left. auto.
  - subst k1. destruct (headerCall_cases k2 v2) as [(m & A' & E)|(A' & [(_ & E)|(_ & [E|[E|[(m & -> & E)|E]]])])]; rewrite H2 in E; try discriminate E;
    apply (f_equal (fun o => match o with Some (HSet a _) => a | _ => [] end)) in E; cbn beta iota in E; subst.
    + right. right. right. apply (aget_In bs_eqb bs_eqb_spec) in A'. apply in_map_iff. exists (k2, m). auto.
    + right. left. auto.
    + left. reflexivity.
Qed.

Lemma inner_never_plain k v n : In k (map fst innerNames) \/ In k privateNames -> headerCall (k, v) = Some (HSet n v) -> In n (map snd innerNames) /\ In k (map fst innerNames).
Proof.
  intros Hk H. destruct (headerCall_cases k v) as [(m & A & E)|(A & C)].
  - rewrite H in E. apply (f_equal (fun o => match o with Some (HSet a _) => a | _ => [] end)) in E. cbn beta iota in E. subst m.
    apply (aget_In bs_eqb bs_eqb_spec) in A. split; apply in_map_iff; [exists (k, n)|exists (k, n)]; auto.
  - destruct Hk as [Hk|Hk].
    + exfalso. apply (aget_None bs_eqb bs_eqb_spec) in A. contradiction.
    + destruct C as [(_ & E)|(N & _)]; [rewrite H in E; discriminate E|contradiction].
Qed.

(* ------------------------------------------------------------ the choice is unique *)

Lemma split_cmp {A} : forall (a1 a2 b1 b2 : list A) x1 x2, a1 ++ x1 :: b1 = a2 ++ x2 :: b2 ->
  x1 = x2 \/ (In x1 a2 /\ In x2 b1) \/ (In x2 a1 /\ In x1 b2).
Proof.
  induction a1 as [|y a1 IH]; intros a2 b1 b2 x1 x2 H; destruct a2 as [|z a2]; cbn in H; injection H as E H.
  - auto.
  - subst. right. left. split; [left; reflexivity|apply in_elt].
  - subst. right. right. split; [left; reflexivity|apply in_elt].
  - subst. destruct (IH _ _ _ _ _ H) as [K|[[K1 K2]|[K1 K2]]]; [auto|right; left; split; [right; exact K1|exact K2]|right; right; split; [right; exact K1|exact K2]].
Qed.
Lemma first_such_unique {A} (P : A -> Prop) l x y : first_such P l x -> first_such P l y -> x = y.
Proof.
  intros (a & b & -> & Px & Ha) (a' & b' & E & Py & Ha'). destruct (split_cmp _ _ _ _ _ _ E) as [K|[[K _]|[K _]]]; [exact K| |].
  - destruct (Ha' _ K Px).
  - destruct (Ha _ K Py).
Qed.
Lemma choice_unique K ls path l1 l2 : nginx_choice K ls path l1 -> nginx_choice K ls path l2 -> l1 = l2.
Proof.
  intros [H1|[[N1 H1]|(N1 & R1 & a1 & b1 & E1 & P1 & A1 & B1)]] [H2|[[N2 H2]|(N2 & R2 & a2 & b2 & E2 & P2 & A2 & B2)]].
  - exact (first_such_unique _ _ _ _ H1 H2).
  - destruct H1 as (a & b & -> & Hx & _). destruct (N2 l1 (in_elt _ _ _) Hx).
  - destruct H1 as (a & b & -> & Hx & _). destruct (N2 l1 (in_elt _ _ _) Hx).
  - destruct H2 as (a & b & -> & Hx & _). destruct (N1 l2 (in_elt _ _ _) Hx).
  - exact (first_such_unique _ _ _ _ H1 H2).
  - destruct H1 as (a & b & -> & Hx & _). destruct (R2 l1 (in_elt _ _ _) Hx).
  - destruct H2 as (a & b & -> & Hx & _). destruct (N1 l2 (in_elt _ _ _) Hx).
  - destruct H2 as (a & b & -> & Hx & _). destruct (R1 l2 (in_elt _ _ _) Hx).
  - rewrite E1 in E2. destruct (split_cmp _ _ _ _ _ _ E2) as [Q|[[Q1 Q2]|[Q1 Q2]]]; [exact Q| |].
    + specialize (A2 _ Q1 P1). specialize (B1 _ Q2 P2). lia.
    + specialize (A1 _ Q1 P2). specialize (B2 _ Q2 P1). lia.
Qed.
