(* MetricProofs.v: proofs for C42 and C61. *)
From Verif Require Import Base Strconv GoStrings GoStrings2 MetricModel MetricSpec.
Ltac Zify.zify_post_hook ::= idtac.

(* ---- escaping *)
Definition safe (s : bs) : Prop := forall b, In b s -> allowed b = true \/ b = x5f.
Lemma escapeFrom_safe s : forall k, safe (escapeFrom k s).
Proof.
  induction s as [|b r IH]; intros k x H; [destruct H|]. cbn [escapeFrom] in H. destruct k as [|k]; [|exact (IH _ _ H)].
  destruct (allowed b) eqn:E; destruct H as [<-|H]; try (exact (IH _ _ H)); [left; exact E|right; reflexivity].
Qed.
Lemma escape_safe s : safe (escape s).
Proof. apply escapeFrom_safe. Qed.
Lemma escape_allowed s : (forall b, In b s -> allowed b = true) -> escape s = s.
Proof.
  unfold escape. induction s as [|b r IH]; intro H; [reflexivity|]. cbn [escapeFrom].
  rewrite (H b (or_introl eq_refl)). f_equal. apply IH. intros x Hx. apply H. right. exact Hx.
Qed.
Lemma safe_no c s : allowed c = false -> c <> x5f -> safe s -> ~ In c s.
Proof. intros H1 H2 S X. destruct (S _ X) as [Y|Y]; [congruence|contradiction]. Qed.
Lemma escape_nodot s : ~ In x2e (escape s).
Proof. apply safe_no; [reflexivity|discriminate|apply escape_safe]. Qed.
Lemma escape_nocolon s : nocolon (escape s).
Proof. apply safe_no; [reflexivity|discriminate|apply escape_safe]. Qed.
Lemma runeLen_safe b r : (allowed b = true \/ b = x5f) -> runeLen (b :: r) = 1%nat.
Proof.
  intro H. destruct r as [|b2 r]; [reflexivity|].
  assert (A : inR 194 223 b = false /\ byte_eqb b xe0 = false /\ byte_eqb b xed = false /\ inR 225 236 b = false /\ inR 238 239 b = false /\
              byte_eqb b xf0 = false /\ byte_eqb b xf4 = false /\ inR 241 243 b = false).
  { destruct H as [H| ->]; [|vm_compute; repeat split].
    destruct b; vm_compute in H; try discriminate H; vm_compute; repeat split. }
  destruct A as [A1 [A2 [A3 [A4 [A5 [A6 [A7 A8]]]]]]]. cbn [runeLen]. rewrite A1, A2, A3, A4, A5, A6, A7, A8. cbn [andb orb].
  destruct r as [|c r]; [reflexivity|]. destruct r; reflexivity.
Qed.
Lemma escape_fixed s : safe s -> escape s = s.
Proof.
  unfold escape. induction s as [|b r IH]; intro H; [reflexivity|]. cbn [escapeFrom].
  assert (R : safe r) by (intros x X; apply H; right; exact X).
  pose proof (H b (or_introl eq_refl)) as B.
  destruct (allowed b) eqn:E; [f_equal; apply IH; exact R|].
  destruct B as [B| ->]; [congruence|]. rewrite runeLen_safe by (right; reflexivity). cbn [Nat.sub]. f_equal. apply IH. exact R.
Qed.
Lemma escape_idem s : escape (escape s) = escape s.
Proof. apply escape_fixed, escape_safe. Qed.

(* ---- keys *)
Lemma metricKey3 a b c sfx : metricKey [a; b; c] sfx = base_key a b c ++ sfx.
Proof. unfold metricKey, base_key. cbn [map joinStr]. rewrite <- !app_assoc. reflexivity. Qed.
Lemma base_nodot a b c : ~ In x2e (base_key a b c).
Proof.
  unfold base_key. intro H. repeat (apply in_app_or in H as [H|H]); try exact (escape_nodot _ H);
  vm_compute in H; destruct H as [H|[]]; discriminate H.
Qed.

Lemma cutAt_spec c s x y : cutAt c s = Some (x, y) <-> s = x ++ c :: y /\ ~ In c x.
Proof.
  revert x y. induction s as [|b r IH]; intros x y; cbn [cutAt].
  - split; [discriminate|]. intros [H _]. destruct x; discriminate H.
  - destruct (byte_eqb b c) eqn:E.
    + apply byte_eqb_spec in E. subst b. split.
      * intro H. injection H as <- <-. split; [reflexivity|intros []].
      * intros [H N]. destruct x as [|z x]; [injection H as ->; reflexivity|]. injection H as <- _. exfalso. apply N. left. reflexivity.
    + apply byte_eqb_neq in E. destruct (cutAt c r) as [[p q]|] eqn:F.
      * destruct (proj1 (IH p q) eq_refl) as [G1 G2]. split.
        -- intro H. injection H as <- <-. split; [cbn; f_equal; exact G1|]. intros [X|X]; [contradiction|contradiction].
        -- intros [H N]. destruct x as [|z x]; [cbn in H; injection H as X _; contradiction|].
           cbn in H. injection H as <- H. assert (K : Some (p, q) = Some (x, y)) by (apply IH; split; [exact H|intro X; apply N; right; exact X]).
           injection K as <- <-. reflexivity.
      * split; [discriminate|]. intros [H N]. destruct x as [|z x]; [cbn in H; injection H as X _; contradiction|].
        cbn in H. injection H as _ H. assert (K : None = Some (x, y)) by (apply IH; split; [exact H|intro X; apply N; right; exact X]). discriminate K.
Qed.
Lemma split3_spec k a b t : split3 k = Some (a, b, t) <-> key_parts k a b t.
Proof.
  unfold split3, key_parts, nocolon. split.
  - destruct (cutAt x3a k) as [[a0 r]|] eqn:E; [|discriminate]. destruct (cutAt x3a r) as [[b0 t0]|] eqn:F; [|discriminate].
    intro H. injection H as <- <- <-. apply cutAt_spec in E as [E1 E2]. apply cutAt_spec in F as [F1 F2].
    split; [|split; assumption]. rewrite E1, F1. reflexivity.
  - intros [H [N1 N2]].
    assert (E : cutAt x3a k = Some (a, b ++ x3a :: t)) by (apply cutAt_spec; split; [rewrite H; reflexivity|exact N1]).
    rewrite E. assert (F : cutAt x3a (b ++ x3a :: t) = Some (b, t)) by (apply cutAt_spec; split; [reflexivity|exact N2]). rewrite F. reflexivity.
Qed.
Lemma split3_None k : split3 k = None <-> forall a b t, ~ key_parts k a b t.
Proof.
  split.
  - intros H a b t X. apply split3_spec in X. congruence.
  - intro H. destruct (split3 k) as [[[a b] t]|] eqn:E; [|reflexivity]. apply split3_spec in E. exfalso. exact (H _ _ _ E).
Qed.

Lemma name_eq ip s a b t : a ++ dot ++ b ++ dot ++ (escape (snGroup s) ++ snGroupSuffix s) ++ s2b ".byhost." ++ ip ++ dot ++ escape (snService s) ++ dot ++ t
  = name_of ip s a b t.
Proof.
  unfold name_of. cbn [joinStr]. change (s2b ".byhost.") with (s2b "." ++ s2b "byhost" ++ s2b "."). unfold dot. rewrite <- !app_assoc. reflexivity.
Qed.
Lemma segment_lines ip s k m a b t : key_parts k a b t -> segment ip s k m = Some (concat (lines_of (name_of ip s a b t) m)).
Proof.
  intro H. apply split3_spec in H. unfold segment. rewrite H, name_eq. f_equal. unfold dot, NL. destruct m as [ps mean|z|z]; cbn [lines_of].
  - rewrite concat_app. f_equal.
    + f_equal. apply map_ext. intros [x y]. unfold line. cbn [fst snd]. rewrite <- !app_assoc. reflexivity.
    + cbn [concat]. unfold line. rewrite app_nil_r, <- !app_assoc. reflexivity.
  - cbn [concat]. unfold line. rewrite app_nil_r. reflexivity.
  - cbn [concat]. unfold line. rewrite app_nil_r. reflexivity.
Qed.

(* ---- packing *)
Lemma blen_app a b : blen (a ++ b) = (blen a + blen b)%N.
Proof. unfold blen. rewrite app_length. lia. Qed.
Lemma blen_0 a : blen a = 0%N -> a = [].
Proof. unfold blen. destruct a; [reflexivity|]. cbn [length]. lia. Qed.

(* the segments of the closed groups, and of the open one *)
Record pack_inv (segs : list (list bs)) (msgs : list bs) (buf : bs) : Prop := {
  pi_ex : exists gs g, msgs = map (fun g => flat g) gs /\ buf = flat g /\ concat gs ++ g = segs /\
          Forall fits gs /\ (fits g \/ g = []) /\ tight (gs ++ [g]) /\ Forall (fun g => g <> []) gs /\ (g = [] -> gs = []) }.

Lemma tight_snoc gs g k : tight (gs ++ [g]) -> (limit < blen (flat g) + blen (concat k))%N -> tight ((gs ++ [g]) ++ [[k]]).
Proof.
  induction gs as [|h gs IH]; intros T L.
  - cbn. constructor; [exact L|constructor].
  - cbn [app] in T |- *. destruct gs as [|h2 gs].
    + cbn [app] in *. inversion T as [|?|? k2 g2 r L2 T2]; subst. constructor; [exact L2|]. apply (IH T2 L).
    + cbn [app] in *. inversion T as [|?|? k2 g2 r L2 T2]; subst. constructor; [exact L2|]. apply (IH T2 L).
Qed.
Lemma tight_grow gs g k : tight (gs ++ [g]) -> (g = [] -> gs = []) -> tight (gs ++ [g ++ [k]]).
Proof.
  induction gs as [|h gs IH]; intros T N; [constructor|].
  cbn [app] in T |- *. destruct gs as [|h2 gs].
  - cbn [app] in *. inversion T as [|?|? k2 g2 r L2 T2]; subst. cbn [app]. constructor; [exact L2|constructor].
  - cbn [app] in *. inversion T as [|?|? k2 g2 r L2 T2]; subst. constructor; [exact L2|]. apply (IH T2). intro X. specialize (N X). discriminate N.
Qed.

Lemma concat_all_nil (g : list (list bs)) : Forall (fun k : list bs => concat k <> []) g -> flat g = [] -> g = [].
Proof.
  intros F H. unfold flat in H. destruct g as [|k g]; [reflexivity|]. inversion F as [|? ? F1 F2]; subst.
  cbn [concat] in H. rewrite concat_app in H. apply app_eq_nil in H as [H _]. contradiction.
Qed.
Lemma pack_step segs msgs buf k : Forall (fun k : list bs => concat k <> []) segs -> pack_inv segs msgs buf ->
  let '(m', b') := addSegment (msgs, buf) (concat k) in pack_inv (segs ++ [k]) m' b'.
Proof.
  intros NE [[gs [g [H1 [H2 [H3 [H4 [H5 [H6 [H7 H8]]]]]]]]]]. unfold addSegment.
  destruct (N.ltb 0 (blen buf) && N.ltb messageMaxLen (blen buf + blen (concat k))) eqn:E.
  - apply andb_true_iff in E as [E1 E2]. apply N.ltb_lt in E1, E2.
    constructor. exists (gs ++ [g]), [k].
    assert (NG : g <> []) by (intro X; subst g; rewrite H2 in E1; cbn in E1; unfold blen in E1; cbn in E1; lia).
    split; [rewrite map_app, H1, H2; reflexivity|]. split; [unfold flat; cbn [concat app]; rewrite app_nil_r; reflexivity|].
    split; [rewrite concat_app; cbn [concat]; rewrite app_nil_r, <- H3; reflexivity|].
    split; [apply Forall_app; split; [exact H4|constructor; [destruct H5 as [H5|H5]; [exact H5|contradiction]|constructor]]|].
    split; [left; right; exists k; reflexivity|].
    split; [apply tight_snoc; [exact H6|]; rewrite H2 in E2; exact E2|].
    split; [apply Forall_app; split; [exact H7|constructor; [exact NG|constructor]]|]. discriminate.
  - constructor. exists gs, (g ++ [k]).
    assert (BB : flat (g ++ [k]) = buf ++ concat k).
    { unfold flat. rewrite concat_app, concat_app. unfold flat in H2. rewrite H2. cbn [concat]. rewrite app_nil_r. reflexivity. }
    split; [exact H1|]. split; [symmetry; exact BB|].
    split; [rewrite <- H3, app_assoc; reflexivity|]. split; [exact H4|].
    split.
    + left. apply andb_false_iff in E as [E|E].
      * apply N.ltb_ge in E. assert (Z0 : buf = []) by (apply blen_0; lia).
        assert (G0 : g = []).
        { apply concat_all_nil; [|rewrite H2 in Z0; exact Z0]. rewrite <- H3 in NE. apply Forall_app in NE. apply NE. }
        subst g. right. exists k. reflexivity.
      * apply N.ltb_ge in E. left. rewrite BB, blen_app. exact E.
    + split; [apply tight_grow; assumption|]. split; [exact H7|]. intro X. destruct g; discriminate X.
Qed.

Lemma line_ne n v t : line n v t <> [].
Proof. unfold line. intro H. apply app_eq_nil in H as [_ H]. discriminate H. Qed.
Lemma lines_ne n m : concat (lines_of n m) <> [].
Proof.
  destruct m as [ps mean|z|z]; cbn [lines_of].
  - rewrite concat_app. intro H. apply app_eq_nil in H as [_ H]. cbn [concat] in H. rewrite app_nil_r in H. exact (line_ne _ _ _ H).
  - cbn [concat]. rewrite app_nil_r. apply line_ne.
  - cbn [concat]. rewrite app_nil_r. apply line_ne.
Qed.
Lemma key_lines_ne ip s es ls : key_lines ip s es ls -> Forall (fun k : list bs => concat k <> []) ls.
Proof. induction 1; [constructor|assumption|]. constructor; [apply lines_ne|assumption]. Qed.
Lemma pack_keys ip s es ls : key_lines ip s es ls -> forall segs msgs buf, Forall (fun k : list bs => concat k <> []) segs -> pack_inv segs msgs buf ->
  let '(m', b') := fold_left (addKey ip s) es (msgs, buf) in pack_inv (segs ++ ls) m' b'.
Proof.
  induction 1 as [s|s k m r l N K IH|s k m r l a b rest P K IH]; intros segs msgs buf NE I.
  - cbn [fold_left]. rewrite app_nil_r. exact I.
  - cbn [fold_left]. unfold addKey at 2. cbn [fst snd]. unfold segment. rewrite (proj2 (split3_None k) N). apply IH; assumption.
  - cbn [fold_left]. unfold addKey at 2. cbn [fst snd]. rewrite (segment_lines _ _ _ _ _ _ _ P).
    pose proof (pack_step _ _ _ (lines_of (name_of ip s a b rest) m) NE I) as Q.
    destruct (addSegment (msgs, buf) (concat (lines_of (name_of ip s a b rest) m))) as [m' b'].
    specialize (IH (segs ++ [lines_of (name_of ip s a b rest) m]) m' b').
    rewrite <- app_assoc in IH. cbn [app] in IH. apply IH; [|exact Q].
    apply Forall_app. split; [exact NE|]. constructor; [apply lines_ne|constructor].
Qed.
Lemma pack_all ip snaps ls : all_lines ip snaps ls -> forall segs msgs buf, Forall (fun k : list bs => concat k <> []) segs -> pack_inv segs msgs buf ->
  let '(m', b') := fold_left (addSnap ip) snaps (msgs, buf) in pack_inv (segs ++ ls) m' b'.
Proof.
  induction 1 as [|s r l R A IH|s r ls l R K A IH]; intros segs msgs buf NE I.
  - cbn [fold_left]. rewrite app_nil_r. exact I.
  - cbn [fold_left]. unfold addSnap at 2. rewrite R. apply IH; assumption.
  - cbn [fold_left]. unfold addSnap at 2. rewrite R. pose proof (pack_keys _ _ _ _ K _ _ _ NE I) as Q.
    destruct (fold_left (addKey ip s) (snEntries s) (msgs, buf)) as [m' b'].
    specialize (IH (segs ++ ls) m' b'). rewrite <- app_assoc in IH. apply IH; [|exact Q].
    apply Forall_app. split; [exact NE|exact (key_lines_ne _ _ _ _ K)].
Qed.
Lemma key_lines_ex ip s es : exists ls, key_lines ip s es ls.
Proof.
  induction es as [|[k m] es [ls IH]]; [exists []; constructor|].
  destruct (split3 k) as [[[a b] t]|] eqn:E.
  - apply split3_spec in E. eexists. eapply kl_key; eassumption.
  - exists ls. apply kl_skip; [apply split3_None; exact E|exact IH].
Qed.
Lemma all_lines_ex ip snaps : exists ls, all_lines ip snaps ls.
Proof.
  induction snaps as [|s r [l IH]]; [exists []; constructor|]. destruct (snReport s) eqn:E.
  - destruct (key_lines_ex ip s (snEntries s)) as [ls K]. eexists. eapply al_snap; eassumption.
  - exists l. apply al_silent; assumption.
Qed.

Lemma packing ip snaps ls : all_lines ip snaps ls ->
  exists groups, sent ip snaps = map (fun g => flat g) groups /\ concat groups = ls /\ Forall fits groups /\ tight groups /\
    Forall (fun g => g <> []) groups.
Proof.
  intro A. assert (I0 : pack_inv [] [] []).
  { constructor. exists [], []. split; [reflexivity|]. split; [reflexivity|]. split; [reflexivity|]. split; [constructor|].
    split; [right; reflexivity|]. split; [constructor|]. split; [constructor|]. reflexivity. }
  assert (LNE : Forall (fun k : list bs => concat k <> []) ls).
  { clear I0. induction A as [|s r l R A IH|s r ls l R K A IH]; [constructor|exact IH|]. apply Forall_app. split; [exact (key_lines_ne _ _ _ _ K)|exact IH]. }
  pose proof (pack_all _ _ _ A _ _ _ (Forall_nil _) I0) as Q. unfold sent, genGraphite.
  match goal with |- context [fold_left ?f ?l ?x] => change (let '(m', b') := fold_left f l x in pack_inv ([] ++ ls) m' b') in Q; destruct (fold_left f l x) as [msgs buf] end.
  destruct Q as [[gs [g [H1 [H2 [H3 [H4 [H5 [H6 [H7 H8]]]]]]]]]]. cbn [app] in H3.
  assert (ALL : Forall (fun g : list (list bs) => flat g <> []) gs).
  { rewrite Forall_forall. intros h Hh X. rewrite Forall_forall in H7. apply (H7 h Hh). apply concat_all_nil; [|exact X].
    rewrite <- H3 in LNE. apply Forall_app in LNE as [LNE _]. rewrite Forall_forall in LNE |- *. intros k Hk. apply LNE.
    apply in_concat. exists h. split; assumption. }
  assert (KEEP : forall l : list (list (list bs)), Forall (fun g => flat g <> []) l ->
     filter (fun m => negb (bs_eqb m [])) (map (fun g => flat g) l) = map (fun g => flat g) l).
  { induction l as [|h l IH]; intro F; [reflexivity|]. inversion F as [|? ? F1 F2]; subst. cbn [map filter].
    destruct (bs_eqb (flat h) []) eqn:X; [apply bs_eqb_spec in X; contradiction|]. cbn [negb]. f_equal. exact (IH F2). }
  destruct g as [|k g].
  - specialize (H8 eq_refl). subst gs. cbn in H1. subst msgs buf. exists []. cbn in H3. subst ls. repeat split; constructor.
  - exists (gs ++ [k :: g]). rewrite filter_app, H1, H2, KEEP by exact ALL.
    change [flat (k :: g)] with (map (fun g => flat g) [k :: g]).
    rewrite KEEP.
    + split; [rewrite map_app; reflexivity|]. split; [rewrite concat_app; cbn [concat]; rewrite app_nil_r; exact H3|].
      split; [apply Forall_app; split; [exact H4|constructor; [destruct H5 as [H5|H5]; [exact H5|discriminate H5]|constructor]]|].
      split; [exact H6|]. apply Forall_app. split; [exact H7|constructor; [discriminate|constructor]].
    + constructor; [|constructor]. intro X. apply concat_all_nil in X; [discriminate X|].
      rewrite <- H3 in LNE. apply Forall_app in LNE. apply LNE.
Qed.
Lemma all_lines_fun ip snaps : forall l1 l2, all_lines ip snaps l1 -> all_lines ip snaps l2 -> l1 = l2.
Proof.
  assert (KF : forall s es l1 l2, key_lines ip s es l1 -> key_lines ip s es l2 -> l1 = l2).
  { intros s es l1 l2 H. revert l2. induction H as [s|s k m r l N K IH|s k m r l a b rest P K IH]; intros l2 H2.
    - inversion H2; reflexivity.
    - inversion H2; subst; [apply IH; assumption|]. exfalso. eapply N. eassumption.
    - inversion H2; subst; [exfalso; match goal with X : forall a b rest, ~ _ |- _ => eapply X; exact P end|].
      match goal with X : key_parts k ?a' ?b' ?r' |- _ => apply split3_spec in P; apply split3_spec in X; rewrite P in X; injection X as <- <- <- end.
      f_equal. apply IH. assumption. }
  intros l1 l2 H. revert l2. induction H as [|s r l R A IH|s r ls l R K A IH]; intros l2 H2; inversion H2; subst; try congruence; try (apply IH; assumption).
  f_equal; [eapply KF; eassumption|apply IH; assumption].
Qed.

(* different keys of one item have different names *)
Lemma dot_split (a1 b1 a2 b2 : bs) : ~ In x2e a1 -> ~ In x2e a2 -> a1 ++ x2e :: b1 = a2 ++ x2e :: b2 -> a1 = a2 /\ b1 = b2.
Proof.
  intros N1 N2 H. assert (E1 : cutAt x2e (a1 ++ x2e :: b1) = Some (a1, b1)) by (apply cutAt_spec; split; [reflexivity|exact N1]).
  assert (E2 : cutAt x2e (a1 ++ x2e :: b1) = Some (a2, b2)) by (apply cutAt_spec; split; [exact H|exact N2]).
  rewrite E1 in E2. injection E2 as <- <-. split; reflexivity.
Qed.
Lemma names_differ ip s k1 k2 a1 b1 t1 a2 b2 t2 : key_parts k1 a1 b1 t1 -> key_parts k2 a2 b2 t2 ->
  ~ In x2e a1 -> ~ In x2e b1 -> ~ In x2e a2 -> ~ In x2e b2 -> name_of ip s a1 b1 t1 = name_of ip s a2 b2 t2 -> k1 = k2.
Proof.
  intros [P1 _] [P2 _] N1 N2 N3 N4 H. unfold name_of in H. cbn [joinStr] in H.
  change (s2b ".") with [x2e] in H. cbn [app] in H. apply dot_split in H as [-> H]; [|exact N1|exact N3].
  apply dot_split in H as [-> H]; [|exact N2|exact N4].
  repeat match type of H with
         | ?x ++ _ = ?x ++ _ => apply app_inv_head in H
         | _ :: _ = _ :: _ => injection H as H
         end.
  rewrite P1, P2, H. reflexivity.
Qed.

(* ---- accounting *)
Definition dotted (s : bs) : Prop := s = [] \/ exists t, s = x2e :: t.
Lemma key_split (a b sa sb : bs) : ~ In x2e a -> ~ In x2e b -> dotted sa -> dotted sb -> a ++ sa = b ++ sb -> a = b /\ sa = sb.
Proof.
  intros Na Nb [->|[ta ->]] [->|[tb ->]] H.
  - rewrite !app_nil_r in H. split; [exact H|reflexivity].
  - rewrite app_nil_r in H. subst a. exfalso. apply Na. apply in_or_app. right. left. reflexivity.
  - rewrite app_nil_r in H. subst b. exfalso. apply Nb. apply in_or_app. right. left. reflexivity.
  - apply dot_split in H as [-> ->]; [split; reflexivity|exact Na|exact Nb].
Qed.
Lemma key_eqb (a b sa sb : bs) : ~ In x2e a -> ~ In x2e b -> dotted sa -> dotted sb -> bs_eqb (a ++ sa) (b ++ sb) = bs_eqb a b && bs_eqb sa sb.
Proof.
  intros Na Nb Da Db. destruct (bs_eqb (a ++ sa) (b ++ sb)) eqn:E.
  - apply bs_eqb_spec in E. destruct (key_split _ _ _ _ Na Nb Da Db E) as [-> ->]. rewrite !bs_eqb_refl. reflexivity.
  - symmetry. apply andb_false_iff. destruct (bs_eqb a b) eqn:Ea; [|left; reflexivity]. right.
    apply bs_eqb_spec in Ea. subst b. destruct (bs_eqb sa sb) eqn:Es; [|reflexivity]. apply bs_eqb_spec in Es. subst sb.
    rewrite bs_eqb_refl in E. discriminate E.
Qed.

Definition sfxs (cost : Z) (exc : option Z) : list bs :=
  [s2b ".total_count"] ++
  (match exc with Some t => if Z.eqb t BizException then [s2b ".biz_error_count"] else [s2b ".other_error_count"] | None => [] end) ++
  [elapseSuffix cost] ++ (if Z.ltb 200 cost then [s2b ".slow_count"] else []).
Lemma addMetric_events g gs sv keys cost exc :
  addMetric g gs sv keys cost (Some exc) = (map (fun s => mkEv KCounter g gs sv keys s 1) (sfxs cost exc) ++ [mkEv KHist g gs sv keys [] cost], true).
Proof.
  unfold addMetric, sfxs. f_equal. destruct exc as [t|]; [destruct (Z.eqb t BizException)|]; destruct (Z.ltb 200 cost); reflexivity.
Qed.
Lemma sfxs_dotted cost exc s : In s (sfxs cost exc) -> dotted s.
Proof.
  unfold sfxs, elapseSuffix. intro H. right.
  repeat (apply in_app_or in H as [H|H]);
    repeat match type of H with context [if ?b then _ else _] => destruct b | context [match ?o with Some _ => _ | None => _ end] => destruct o end;
    try (destruct H as [<-|[]]; eexists; reflexivity); destruct H.
Qed.
Definition one_rec (r : rec) (evs : list event) : Prop :=
  exists g gs sv a b c, rItem r = itemKey g gs sv /\ rKey r = base_key a b c /\
    evs = map (fun s => mkEv KCounter g gs sv [a; b; c] s 1) (sfxs (rCost r) (rExc r)) ++ [mkEv KHist g gs sv [a; b; c] [] (rCost r)].
Inductive rec_events : list rec -> list event -> Prop :=
| re_nil : rec_events [] []
| re_cons r rs e evs : one_rec r e -> rec_events rs evs -> rec_events (r :: rs) (e ++ evs).
Lemma re_app rs1 e1 rs2 e2 : rec_events rs1 e1 -> rec_events rs2 e2 -> rec_events (rs1 ++ rs2) (e1 ++ e2).
Proof. induction 1; intro H2; [exact H2|]. cbn [app]. rewrite <- app_assoc. constructor; [assumption|]. apply IHrec_events. exact H2. Qed.

Definition occurs (s : bs) (r : rec) : Z := sumZ (map (fun x => if bs_eqb x s then 1%Z else 0%Z) (sfxs (rCost r) (rExc r))).
Lemma sumZ_app a b : sumZ (a ++ b) = (sumZ a + sumZ b)%Z.
Proof. unfold sumZ. induction a as [|x a IH]; [reflexivity|]. cbn [app fold_right]. rewrite IH. lia. Qed.
Lemma counted_app e1 e2 i k : counted (e1 ++ e2) i k = (counted e1 i k + counted e2 i k)%Z.
Proof. unfold counted. rewrite filter_app, map_app, sumZ_app. reflexivity. Qed.
Lemma counted_none e i k : (forall x, In x e -> evKind x = KCounter -> at_key i k x = false) -> counted e i k = 0%Z.
Proof.
  intro H. unfold counted. induction e as [|x e IH]; [reflexivity|]. cbn [filter].
  assert (IH' := IH (fun y Y => H y (or_intror Y))). pose proof (H x (or_introl eq_refl)) as Hx.
  destruct (evKind x); [rewrite (Hx eq_refl)| |]; exact IH'.
Qed.
Lemma counted_rec r e i k s : one_rec r e -> ~ In x2e k -> dotted s -> s <> [] ->
  counted e i (k ++ s) = if bs_eqb (rItem r) i && bs_eqb (rKey r) k then occurs s r else 0%Z.
Proof.
  intros [g [gs [sv [a [b [c [H1 [H2 H3]]]]]]]] Nk Ds Ns. rewrite H3, counted_app.
  assert (Z0 : counted [mkEv KHist g gs sv [a; b; c] [] (rCost r)] i (k ++ s) = 0%Z) by (apply counted_none; intros x [<-|[]] X; discriminate X).
  rewrite Z0, Z.add_0_r. clear Z0 H3. unfold occurs.
  assert (D : forall x, In x (sfxs (rCost r) (rExc r)) -> dotted x) by (intros x X; exact (sfxs_dotted _ _ _ X)).
  induction (sfxs (rCost r) (rExc r)) as [|x l IH].
  - cbn. destruct (_ && _); reflexivity.
  - assert (IH' := IH (fun y Y => D y (or_intror Y))). clear IH.
    change (map (fun s0 => mkEv KCounter g gs sv [a; b; c] s0 1) (x :: l)) with ([mkEv KCounter g gs sv [a; b; c] x 1] ++ map (fun s0 => mkEv KCounter g gs sv [a; b; c] s0 1) l).
    rewrite counted_app, IH'. unfold counted, at_key. cbn [filter evKind evGroup evGroupSuffix evService evKeys evKeySuffix].
    rewrite metricKey3, <- H1, <- H2, key_eqb; [|rewrite H2; apply base_nodot|exact Nk|apply D; left; reflexivity|exact Ds].
    cbn [map]. change (sumZ (?x :: ?l)) with (x + sumZ l)%Z.
    destruct (bs_eqb (rItem r) i), (bs_eqb (rKey r) k), (bs_eqb x s); cbn [andb map]; unfold sumZ; cbn [fold_right evValue]; lia.
Qed.
Lemma observed_rec r e i k : one_rec r e -> ~ In x2e k ->
  observed e i k = if bs_eqb (rItem r) i && bs_eqb (rKey r) k then [rCost r] else [].
Proof.
  intros [g [gs [sv [a [b [c [H1 [H2 H3]]]]]]]] Nk. rewrite H3. unfold observed. rewrite filter_app, map_app.
  assert (Z0 : forall l, filter (fun e => match evKind e with KHist => at_key i k e | _ => false end) (map (fun s => mkEv KCounter g gs sv [a; b; c] s 1) l) = []).
  { induction l as [|x l IH]; [reflexivity|]. cbn [map filter evKind]. exact IH. }
  rewrite Z0. cbn [map app]. cbn [filter evKind]. unfold at_key. cbn [evGroup evGroupSuffix evService evKeys evKeySuffix].
  rewrite metricKey3, app_nil_r, <- H1, <- H2.
  destruct (bs_eqb (rItem r) i && bs_eqb (rKey r) k); reflexivity.
Qed.
Lemma counted_recs rs evs i k s : rec_events rs evs -> ~ In x2e k -> dotted s -> s <> [] ->
  counted evs i (k ++ s) = sumZ (map (occurs s) (under i k rs)).
Proof.
  intros H Nk Ds Ns. induction H as [|r rs e evs O H IH]; [reflexivity|].
  rewrite counted_app, IH, (counted_rec _ _ _ _ _ O Nk Ds Ns). unfold under. cbn [filter].
  destruct (bs_eqb (rItem r) i && bs_eqb (rKey r) k); [|reflexivity]. cbn [map]. reflexivity.
Qed.
Lemma observed_recs rs evs i k : rec_events rs evs -> ~ In x2e k -> observed evs i k = map rCost (under i k rs).
Proof.
  intros H Nk. induction H as [|r rs e evs O H IH]; [reflexivity|].
  unfold observed in *. rewrite filter_app, map_app, IH. pose proof (observed_rec _ _ i k O Nk) as X. unfold observed in X. rewrite X.
  unfold under. cbn [filter]. destruct (bs_eqb (rItem r) i && bs_eqb (rKey r) k); reflexivity.
Qed.
Lemma sum_how_many (f : rec -> Z) (p : rec -> bool) rs : (forall r, f r = if p r then 1%Z else 0%Z) -> sumZ (map f rs) = how_many p rs.
Proof.
  intro H. unfold how_many. induction rs as [|r rs IH]; [reflexivity|]. cbn [map filter]. change (sumZ (?x :: ?l)) with (x + sumZ l)%Z.
  rewrite IH, H. destruct (p r); cbn [length]; lia.
Qed.
Lemma occ_if (l : list bs) s : sumZ (map (fun x => if bs_eqb x s then 1%Z else 0%Z) l) = Z.of_nat (length (filter (fun x => bs_eqb x s) l)).
Proof. induction l as [|x l IH]; [reflexivity|]. cbn [map filter]. change (sumZ (?x :: ?l)) with (x + sumZ l)%Z. rewrite IH. destruct (bs_eqb x s); cbn [length]; lia. Qed.

Ltac occ := unfold occurs, sfxs, elapseSuffix, biz, other, took, BizException;
  repeat (match goal with
          | |- context [Z.ltb (rCost ?r) ?n] => destruct (Z.ltb_spec (rCost r) n)
          | |- context [Z.ltb ?n (rCost ?r)] => destruct (Z.ltb_spec n (rCost r))
          | |- context [Z.leb ?n (rCost ?r)] => destruct (Z.leb_spec n (rCost r))
          end; try (exfalso; lia));
  match goal with |- context [rExc ?r] => destruct (rExc r) as [t|]; [destruct (Z.eqb t 2)|] end; vm_compute; reflexivity.
Lemma accounts_ok rs evs : rec_events rs evs -> accounts evs rs.
Proof.
  intros H i k Nk. cbv zeta.
  assert (C : forall s, dotted (s2b s) -> s2b s <> [] -> counted evs i (k ++ s2b s) = sumZ (map (occurs (s2b s)) (under i k rs)))
    by (intros s D N; apply counted_recs; assumption).
  assert (DD : forall t, dotted (x2e :: t)) by (intro t; right; exists t; reflexivity).
  repeat split; try (rewrite C; [|apply DD|discriminate]).
  - rewrite (sum_how_many _ (fun _ => true)); [unfold how_many; f_equal; f_equal; clear C; induction (under i k rs) as [|r l IH]; [reflexivity|cbn [filter]; f_equal; exact IH]|].
    intro r. occ.
  - apply sum_how_many. intro r. occ.
  - apply sum_how_many. intro r. occ.
  - apply sum_how_many. intro r. occ.
  - apply sum_how_many. intro r. occ.
  - apply sum_how_many. intro r. occ.
  - apply sum_how_many. intro r. occ.
  - apply sum_how_many. intro r. occ.
  - apply sum_how_many. intro r. occ.
  - apply observed_recs; assumption.
Qed.

Lemma roleOf_spec c : roleOf c = role_spec (is_server c) (via_agent c).
Proof. unfold roleOf, role_spec, is_server, via_agent. destruct (fcCaller c), (fcProxy c); reflexivity. Qed.
Lemma one_mk g gs sv a b c cost exc it : it = itemKey g gs sv ->
  one_rec (mkRec it (base_key a b c) cost exc) (fst (addMetric g gs sv [a; b; c] cost (Some exc))).
Proof. intros ->. exists g, gs, sv, a, b, c. rewrite addMetric_events. repeat split. Qed.
Lemma rec_one r e : one_rec r e -> rec_events [r] e.
Proof. intro H. rewrite <- (app_nil_r e). constructor; [exact H|constructor]. Qed.
Lemma filter_recs sw c exc : fcResp c = Some exc -> rec_events (recs sw exc c) (fst (metricsFilter sw c)) /\ snd (metricsFilter sw c) = true.
Proof.
  intro H. unfold metricsFilter, recs. rewrite H, roleOf_spec. change (isProvider c) with (is_server c).
  replace (negb (is_server c) && sw && negb (bs_eqb (fcApp c) (fcReqApp c))) with (sw && negb (is_server c) && negb (bs_eqb (fcApp c) (fcReqApp c)))
    by (destruct (is_server c), sw; reflexivity).
  destruct (sw && negb (is_server c) && negb (bs_eqb (fcApp c) (fcReqApp c))).
  - unfold twice. split.
    + replace (snd (addMetric (fcGroup c) [] (fcService c) [role_spec (is_server c) (via_agent c); fcReqApp c; fcMethod c] (fcCost1 c) (Some exc))) with true
        by (rewrite addMetric_events; reflexivity). cbn [fst].
      apply re_app; apply rec_one; apply one_mk; reflexivity.
    + rewrite !addMetric_events. reflexivity.
  - split; [apply rec_one; apply one_mk; reflexivity|rewrite addMetric_events; reflexivity].
Qed.
Lemma cluster_filter_recs sw c exc : fcResp c = Some exc -> rec_events (cluster_recs sw exc c) (fst (clusterMetricsFilter sw c)) /\ snd (clusterMetricsFilter sw c) = true.
Proof.
  intro H. unfold clusterMetricsFilter, cluster_recs. rewrite H. replace (clusterRole c) with (role_spec false (fcProxy c)) by (unfold clusterRole, role_spec; destruct (fcProxy c); reflexivity).
  destruct (sw && negb (bs_eqb (fcApp c) (fcReqApp c))).
  - unfold twice. split.
    + replace (snd (addMetric (fcGroup c) (s2b ".cluster") (fcService c) [role_spec false (fcProxy c); fcReqApp c; fcMethod c] (fcCost1 c) (Some exc))) with true
        by (rewrite addMetric_events; reflexivity). cbn [fst].
      apply re_app; apply rec_one; apply one_mk; reflexivity.
    + rewrite !addMetric_events. reflexivity.
  - split; [apply rec_one; apply one_mk; reflexivity|rewrite addMetric_events; reflexivity].
Qed.
Lemma all_rec_events (f : fcall -> list event * bool) (g : option Z -> fcall -> list rec) calls :
  (forall c exc, fcResp c = Some exc -> rec_events (g exc c) (fst (f c))) -> Forall answered calls -> rec_events (all_recs g calls) (all_events f calls).
Proof.
  intros H F. unfold all_recs, all_events. induction F as [|c calls A F IH]; [constructor|]. cbn [map concat].
  apply re_app; [|exact IH]. unfold answered in A. unfold exc_of. destruct (fcResp c) as [e|] eqn:E; [|contradiction]. apply H. exact E.
Qed.
Lemma filter_accounts sw calls : Forall answered calls -> accounts (all_events (metricsFilter sw) calls) (all_recs (recs sw) calls).
Proof. intro F. apply accounts_ok. apply all_rec_events; [|exact F]. intros c exc E. exact (proj1 (filter_recs sw c exc E)). Qed.
Lemma cluster_accounts sw calls : Forall answered calls -> accounts (all_events (clusterMetricsFilter sw) calls) (all_recs (cluster_recs sw) calls).
Proof. intro F. apply accounts_ok. apply all_rec_events; [|exact F]. intros c exc E. exact (proj1 (cluster_filter_recs sw c exc E)). Qed.

(* the name decides the kind *)
Lemma rec_kinds rs evs : rec_events rs evs -> forall e, In e evs ->
  (evKind e = KHist /\ ~ In x2e (metricKey (evKeys e) (evKeySuffix e))) \/ (evKind e = KCounter /\ In x2e (metricKey (evKeys e) (evKeySuffix e))).
Proof.
  induction 1 as [|r rs e evs O H IH]; intros x X; [destruct X|]. apply in_app_or in X as [X|X]; [|exact (IH _ X)].
  destruct O as [g [gs [sv [a [b [c [H1 [H2 ->]]]]]]]]. apply in_app_or in X as [X|[<-|[]]].
  - right. apply in_map_iff in X as [s [<- X]]. cbn [evKind evKeys evKeySuffix]. split; [reflexivity|]. rewrite metricKey3. apply in_or_app. right.
    destruct (sfxs_dotted _ _ _ X) as [->|[t ->]]; [|left; reflexivity]. exfalso.
    clear -X. unfold sfxs, elapseSuffix in X.
    repeat (apply in_app_or in X as [X|X]);
    repeat match type of X with context [if ?b then _ else _] => destruct b | context [match ?o with Some _ => _ | None => _ end] => destruct o end;
    try (destruct X as [X|[]]; discriminate X); destruct X.
  - left. cbn [evKind evKeys evKeySuffix]. split; [reflexivity|]. rewrite metricKey3, app_nil_r. apply base_nodot.
Qed.
Lemma no_kind_clash rs evs e1 e2 : rec_events rs evs -> In e1 evs -> In e2 evs ->
  metricKey (evKeys e1) (evKeySuffix e1) = metricKey (evKeys e2) (evKeySuffix e2) -> evKind e1 = evKind e2.
Proof.
  intros H I1 I2 E. destruct (rec_kinds _ _ H _ I1) as [[K1 N1]|[K1 N1]], (rec_kinds _ _ H _ I2) as [[K2 N2]|[K2 N2]];
  rewrite K1, K2; try reflexivity; rewrite E in N1; contradiction.
Qed.
(* what the events of a filter are called in graphite *)
Lemma event_parts a b c sfx : key_parts (metricKey [a; b; c] sfx) (escape a) (escape b) (escape c ++ sfx).
Proof. rewrite metricKey3. unfold base_key, key_parts. rewrite <- !app_assoc. split; [reflexivity|]. split; apply escape_nocolon. Qed.

(* ------------------------------------------------------------ escaping text *)
Section Escaping.
Local Open Scope N_scope.
Ltac Zify.zify_post_hook ::= Z.div_mod_to_equations.
Lemma inR_n2b lo hi n : n < 256 -> inR lo hi (n2b n) = (lo <=? n) && (n <=? hi).
Proof. intro H. unfold inR. rewrite b2n_n2b_small by exact H. reflexivity. Qed.
Lemma eqb_n2b n k : n < 256 -> byte_eqb (n2b n) k = (n =? b2n k).
Proof.
  intro H. destruct (N.eqb_spec n (b2n k)) as [E|E].
  - subst n. rewrite n2b_b2n. apply byte_eqb_refl.
  - apply byte_eqb_neq. intro X. apply E. rewrite <- X. symmetry. apply b2n_n2b_small. exact H.
Qed.
Lemma escapeFrom_skip k l r : length l = k -> escapeFrom k (l ++ r) = escapeFrom 0 r.
Proof. revert k. induction l as [|a l IH]; intros k H; cbn in H; subst k; [reflexivity|]. cbn [app escapeFrom]. apply IH. reflexivity. Qed.

Lemma allowed_high a : 128 <= a -> a < 256 -> allowed (n2b a) = false.
Proof.
  intros H1 H2. unfold allowed. rewrite !inR_n2b, eqb_n2b by exact H2. change (b2n x2d) with 45.
  replace (a <=? 122) with false by (symmetry; apply N.leb_gt; lia). replace (a <=? 90) with false by (symmetry; apply N.leb_gt; lia).
  replace (a <=? 57) with false by (symmetry; apply N.leb_gt; lia). replace (a =? 45) with false by (symmetry; apply N.eqb_neq; lia).
  rewrite !andb_false_r. reflexivity.
Qed.
Lemma kept_high n : 128 <= n -> kept_char n = false.
Proof.
  intros H1. unfold kept_char.
  replace (n <=? 122) with false by (symmetry; apply N.leb_gt; lia). replace (n <=? 90) with false by (symmetry; apply N.leb_gt; lia).
  replace (n <=? 57) with false by (symmetry; apply N.leb_gt; lia). replace (n =? 45) with false by (symmetry; apply N.eqb_neq; lia).
  rewrite !andb_false_r. reflexivity.
Qed.
Lemma inR_yes lo hi n : n < 256 -> lo <= n -> n <= hi -> inR lo hi (n2b n) = true.
Proof. intros H H1 H2. rewrite inR_n2b by exact H. apply andb_true_intro. split; apply N.leb_le; assumption. Qed.
Lemma inR_below lo hi n : n < 256 -> n < lo -> inR lo hi (n2b n) = false.
Proof. intros H H1. rewrite inR_n2b by exact H. apply andb_false_iff. left. apply N.leb_gt. exact H1. Qed.
Lemma inR_above lo hi n : n < 256 -> hi < n -> inR lo hi (n2b n) = false.
Proof. intros H H1. rewrite inR_n2b by exact H. apply andb_false_iff. right. apply N.leb_gt. exact H1. Qed.

Lemma rune2 a b r : 194 <= a <= 223 -> 128 <= b <= 191 -> runeLen (n2b a :: n2b b :: r) = 2%nat.
Proof. intros A B. unfold runeLen. rewrite (inR_yes 194 223 a), (inR_yes 128 191 b) by lia. reflexivity. Qed.
Lemma rune3 a b c r : 224 <= a <= 239 -> 128 <= b <= 191 -> 128 <= c <= 191 -> (a = 224 -> 160 <= b) -> (a = 237 -> b <= 159) ->
  runeLen (n2b a :: n2b b :: n2b c :: r) = 3%nat.
Proof.
  intros A B C L U. unfold runeLen. rewrite (inR_above 194 223 a), (inR_yes 128 191 b), (inR_yes 128 191 c) by lia. rewrite !andb_true_r.
  assert (X : (byte_eqb (n2b a) xe0 && inR 160 191 (n2b b) || byte_eqb (n2b a) xed && inR 128 159 (n2b b) || (inR 225 236 (n2b a) || inR 238 239 (n2b a))) = true).
  { rewrite !eqb_n2b by lia. change (b2n xe0) with 224. change (b2n xed) with 237. destruct (N.eqb_spec a 224) as [E|E].
    - rewrite (inR_yes 160 191 b) by lia. reflexivity.
    - destruct (N.eqb_spec a 237) as [F|F].
      + rewrite (inR_yes 128 159 b) by lia. reflexivity.
      + cbn [andb orb]. apply orb_true_iff. destruct (N.le_gt_cases a 236); [left|right]; apply inR_yes; lia. }
  rewrite X. reflexivity.
Qed.
Lemma rune4 a b c d r : 240 <= a <= 244 -> 128 <= b <= 191 -> 128 <= c <= 191 -> 128 <= d <= 191 -> (a = 240 -> 144 <= b) -> (a = 244 -> b <= 143) ->
  runeLen (n2b a :: n2b b :: n2b c :: n2b d :: r) = 4%nat.
Proof.
  intros A B C D L U. unfold runeLen. rewrite (inR_above 194 223 a), (inR_yes 128 191 b), (inR_yes 128 191 c), (inR_yes 128 191 d) by lia. rewrite !andb_true_r.
  assert (Y : (byte_eqb (n2b a) xe0 && inR 160 191 (n2b b) || byte_eqb (n2b a) xed && inR 128 159 (n2b b) || (inR 225 236 (n2b a) || inR 238 239 (n2b a))) = false).
  { rewrite !eqb_n2b by lia. change (b2n xe0) with 224. change (b2n xed) with 237.
    replace (a =? 224) with false by (symmetry; apply N.eqb_neq; lia). replace (a =? 237) with false by (symmetry; apply N.eqb_neq; lia).
    rewrite (inR_above 225 236 a), (inR_above 238 239 a) by lia. reflexivity. }
  rewrite Y.
  assert (X : (byte_eqb (n2b a) xf0 && inR 144 191 (n2b b) || byte_eqb (n2b a) xf4 && inR 128 143 (n2b b) || inR 241 243 (n2b a)) = true).
  { rewrite !eqb_n2b by lia. change (b2n xf0) with 240. change (b2n xf4) with 244. destruct (N.eqb_spec a 240) as [E|E].
    - rewrite (inR_yes 144 191 b) by lia. reflexivity.
    - destruct (N.eqb_spec a 244) as [F|F].
      + rewrite (inR_yes 128 143 b) by lia. reflexivity.
      + cbn [andb orb]. apply inR_yes; lia. }
  rewrite X. reflexivity.
Qed.

Lemma escape_one n r : scalar n -> escapeFrom 0 (utf8 n ++ r) = escaped n :: escapeFrom 0 r.
Proof.
  intro S. unfold utf8, escaped.
  destruct (N.ltb_spec n 0x80) as [H1|H1]; [|destruct (N.ltb_spec n 0x800) as [H2|H2]; [|destruct (N.ltb_spec n 0x10000) as [H3|H3]]].
  - cbn [app escapeFrom]. assert (A : allowed (n2b n) = kept_char n).
    { unfold allowed, kept_char. rewrite !inR_n2b, eqb_n2b by lia. reflexivity. }
    rewrite A. destruct (kept_char n); [reflexivity|]. f_equal.
    assert (L : runeLen (n2b n :: r) = 1%nat); [|rewrite L; reflexivity].
    unfold runeLen. destruct r as [|b r1]; [reflexivity|]. rewrite !inR_n2b, !eqb_n2b by lia. cbn [b2n].
    replace (194 <=? n) with false by (symmetry; apply N.leb_gt; lia).
    replace (225 <=? n) with false by (symmetry; apply N.leb_gt; lia).
    replace (238 <=? n) with false by (symmetry; apply N.leb_gt; lia).
    replace (241 <=? n) with false by (symmetry; apply N.leb_gt; lia).
    replace (n =? b2n xe0) with false by (symmetry; apply N.eqb_neq; cbn; lia).
    replace (n =? b2n xed) with false by (symmetry; apply N.eqb_neq; cbn; lia).
    replace (n =? b2n xf0) with false by (symmetry; apply N.eqb_neq; cbn; lia).
    replace (n =? b2n xf4) with false by (symmetry; apply N.eqb_neq; cbn; lia).
    cbn [andb orb]. destruct r1 as [|c r2]; [reflexivity|]. destruct r2; reflexivity.
  - cbn [app]. assert (B1 : 194 <= 192 + n / 64 <= 223) by lia. assert (B2 : 128 <= 128 + n mod 64 <= 191) by lia.
    cbn [escapeFrom]. rewrite allowed_high, kept_high, (rune2 _ _ _ B1 B2) by lia. reflexivity.
  - cbn [app]. assert (B1 : 224 <= 224 + n / 4096 <= 239) by lia. assert (B2 : 128 <= 128 + (n / 64) mod 64 <= 191) by lia.
    assert (B3 : 128 <= 128 + n mod 64 <= 191) by lia. unfold scalar in S.
    cbn [escapeFrom]. rewrite allowed_high, kept_high, (rune3 _ _ _ _ B1 B2 B3) by lia. reflexivity.
  - cbn [app]. assert (B1 : 240 <= 240 + n / 262144 <= 244) by (unfold scalar in S; lia). assert (B2 : 128 <= 128 + (n / 4096) mod 64 <= 191) by lia.
    assert (B3 : 128 <= 128 + (n / 64) mod 64 <= 191) by lia. assert (B4 : 128 <= 128 + n mod 64 <= 191) by lia. unfold scalar in S.
    cbn [escapeFrom]. rewrite allowed_high, kept_high, (rune4 _ _ _ _ _ B1 B2 B3 B4) by lia. reflexivity.
Qed.
Lemma escape_chars ns : Forall scalar ns -> escape (concat (map utf8 ns)) = map escaped ns.
Proof.
  unfold escape. induction 1 as [|n ns S _ IH]; [reflexivity|]. cbn [map concat]. rewrite escape_one by exact S. rewrite IH. reflexivity.
Qed.
End Escaping.
Ltac Zify.zify_post_hook ::= idtac.
