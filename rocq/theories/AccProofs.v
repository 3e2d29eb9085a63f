(* AccProofs.v: lemmas for C89. *)
From Verif Require Import Base GoStrings GoStrings2 Strconv UrlModel AccModel AccSpec.
From Coq Require Import Permutation.
Ltac Zify.zify_post_hook ::= idtac.

(* ------------------------------------------------------------ lines *)

Lemma digit_no_bar l : Forall isDigit l -> ~ In x7c l.
Proof. intros F I. rewrite Forall_forall in F. specialize (F _ I). destruct F as [d F]. vm_compute in F. discriminate F. Qed.
Lemma fmtN_no_bar n : ~ In x7c (fmtN n).
Proof. apply digit_no_bar. apply fmtN_spec. Qed.
Lemma fmtZ_no_bar z : ~ In x7c (fmtZ z).
Proof. unfold fmtZ. destruct (z <? 0)%Z; [intros [H|H]; [discriminate H|exact (fmtN_no_bar _ H)]|apply fmtN_no_bar]. Qed.
Lemma fmtN_inj a b : fmtN a = fmtN b -> a = b.
Proof. intro H. destruct (fmtN_spec a) as [A _], (fmtN_spec b) as [B _]. rewrite <- A, <- B, H. reflexivity. Qed.
Lemma line_join e : accLine e = joinWith x7c (columns e).
Proof. reflexivity. Qed.
Lemma line_columns e : no_bar e -> splitOn x7c (accLine e) = columns e.
Proof.
  intro N. rewrite line_join. apply splitOn_join; [discriminate|]. unfold columns.
  repeat (constructor; [first [apply fmtN_no_bar|apply fmtZ_no_bar|(apply N; cbn; tauto)|(destruct (e_success e); vm_compute; intuition discriminate)]|]). constructor.
Qed.
Lemma line_inj a b : no_bar a -> no_bar b -> ranged a -> ranged b -> accLine a = accLine b -> a = b.
Proof.
  intros A B (A1 & A2 & A3 & A4) (B1 & B2 & B3 & B4) E. apply (f_equal (splitOn x7c)) in E. rewrite (line_columns a A), (line_columns b B) in E.
  unfold columns in E.
  assert (G : forall u v, int64 u -> int64 v -> fmtZ u = fmtZ v -> u = v) by (intros u v; apply fmtZ_inj).
  injection E as E1 E2 E3 E4 E5 E6 E7 E8 E9 E10 E11 E12 E13 E14 E15. apply fmtN_inj in E3. apply G in E8; [|assumption..]. apply G in E9; [|assumption..]. apply G in E10; [|assumption..]. apply G in E11; [|assumption..].
  assert (E12' : e_success a = e_success b) by (destruct (e_success a), (e_success b); try reflexivity; discriminate E12). clear - E1 E2 E3 E4 E5 E6 E7 E8 E9 E10 E11 E12' E13 E14 E15.
  destruct a, b. cbn in *. subst. reflexivity.
Qed.

(* ------------------------------------------------------------ lists *)

Lemma remove1_perm x l : In x l -> Permutation l (x :: remove1 x l).
Proof.
  induction l as [|y l IH]; intro I; [destruct I|]. cbn [remove1]. destruct (Nat.eqb_spec y x) as [->|N]; [reflexivity|].
  destruct I as [->|I]; [contradiction|]. rewrite (IH I) at 1. constructor.
Qed.
Lemma remove1_incl x l y : In y (remove1 x l) -> In y l.
Proof. induction l as [|z l IH]; [intros []|]. cbn [remove1]. destruct (Nat.eqb z x); [intro; right; assumption|intros [->|I]; [left; reflexivity|right; auto]]. Qed.
Lemma remove1_nodup x l : NoDup l -> NoDup (remove1 x l).
Proof.
  induction 1 as [|y l N D IH]; [constructor|]. cbn [remove1]. destruct (Nat.eqb y x); [exact D|]. constructor; [|exact IH]. intro I. apply N. exact (remove1_incl _ _ _ I).
Qed.
Lemma flen {A} (f : A -> bool) l : length (filter f l) <= length l.
Proof. induction l as [|x l IH]; [constructor|]. cbn [filter]. destruct (f x); cbn [length]; lia. Qed.
Lemma existsb_In n l : existsb (Nat.eqb n) l = true <-> In n l.
Proof.
  rewrite existsb_exists. split; [intros (x & I & E); apply Nat.eqb_eq in E; subst; exact I|intro I; exists n; split; [exact I|apply Nat.eqb_refl]].
Qed.
Lemma takeHold_spec a l q r : takeHold a l = Some (q, r) -> exists l1 l2, l = l1 ++ (a, q) :: l2 /\ r = l1 ++ l2.
Proof.
  revert r. induction l as [|[b p] l IH]; intros r H; [discriminate|]. cbn [takeHold] in H. destruct (Nat.eqb_spec b a) as [->|N].
  - injection H as <- <-. exists [], l. auto.
  - destruct (takeHold a l) as [[x r']|]; [|discriminate]. injection H as -> <-. destruct (IH r' eq_refl) as (l1 & l2 & -> & ->). exists ((b, p) :: l1), l2. auto.
Qed.
Lemma takeQ_spec k l a r : takeQ k l = Some (a, r) -> exists l1 l2, l = l1 ++ (k, a) :: l2 /\ r = l1 ++ l2 /\ forall x, In x l1 -> fst x <> k.
Proof.
  revert r. induction l as [|[b p] l IH]; intros r H; [discriminate|]. cbn [takeQ] in H. destruct (Nat.eqb_spec b k) as [->|N].
  - injection H as <- <-. exists [], l. split; [reflexivity|]. split; [reflexivity|]. intros x [].
  - destruct (takeQ k l) as [[x r']|]; [|discriminate]. injection H as -> <-. destruct (IH r' eq_refl) as (l1 & l2 & -> & -> & F). exists ((b, p) :: l1), l2.
    split; [reflexivity|]. split; [reflexivity|]. intros y [<-|I]; [exact N|exact (F y I)].
Qed.
Lemma map_hset h a e l : ~ In a l -> map (hset h a e) l = map h l.
Proof. intro N. apply map_ext_in. intros b I. unfold hset. destruct (Nat.eqb_spec b a) as [->|]; [contradiction|reflexivity]. Qed.
Lemma fill_record old q : fill old (q_name q) (q_role q) (q_addr q) (q_total q) (q_call q) (q_ans q) = record_of q.
Proof. reflexivity. Qed.

(* ------------------------------------------------------------ the machine *)

Lemma wrapI64_mod z : (wrapI64 z mod 2 ^ 64 = z mod 2 ^ 64)%Z.
Proof.
  unfold wrapI64. change 18446744073709551616%Z with (2 ^ 64)%Z. rewrite Zminus_mod_idemp_l. f_equal. lia.
Qed.
Section M.
Variable render : bs -> entity -> bs.
Variable cap : nat.
Variable zero : entity.
Local Notation step := (accStep render cap zero).
Local Notation run := (accRun render cap zero).

Definition locs (s : ast) : list nat := g_pool s ++ map fst (g_hold s) ++ map snd (g_queue s) ++ g_held s.
Definition inv (s : ast) : Prop :=
  NoDup (locs s) /\ (forall a, In a (locs s) -> a < g_next s) /\ (forall a q, In (a, q) (g_hold s) -> g_heap s a = record_of q) /\ (g_async s = true -> g_cur s <> None).

Lemma queued_app a b : queued (a ++ b) = queued a ++ queued b. Proof. apply flat_map_app. Qed.
Lemma done_app a b : done (a ++ b) = done a ++ done b. Proof. apply flat_map_app. Qed.
Lemma discarded_app a b : discarded (a ++ b) = discarded a ++ discarded b. Proof. apply flat_map_app. Qed.
Lemma sampled_app a b : sampled (a ++ b) = (sampled a + sampled b)%Z.
Proof. unfold sampled. rewrite flat_map_app, fold_right_app. induction (flat_map _ a) as [|x l IH]; cbn [fold_right]; lia. Qed.
Lemma emit_queued s a ts ok : queued (emit render s a ts ok) = [] /\ done (emit render s a ts ok) = [g_heap s a] /\ discarded (emit render s a ts ok) = [] /\ sampled (emit render s a ts ok) = 0%Z.
Proof. unfold emit. destruct ok, (g_avail s); repeat split. Qed.

Lemma nodup_perm (A : Type) (l l' : list A) : Permutation l l' -> NoDup l -> NoDup l'.
Proof. exact (@Permutation_NoDup A l l'). Qed.
Lemma release_in s a ok x : In x (release s a ok) -> x = a \/ In x (g_pool s).
Proof. unfold release. destruct ok; [intros [<-|H]; auto|auto]. Qed.

(* the step's effect on locations is a sub-multiset of a permutation, possibly with one fresh cell *)
Lemma inv_sub s s' : inv s -> g_next s' = g_next s -> (forall a, In a (map fst (g_hold s')) -> g_heap s' a = g_heap s a) ->
  (forall x, In x (g_hold s') -> In x (g_hold s)) -> (exists drop, Permutation (locs s) (drop ++ locs s')) -> (g_async s' = true -> g_cur s' <> None) -> inv s'.
Proof.
  intros (D & B & H & C) N G I (drop & P) C'. split; [|split; [|split]].
  - apply (nodup_perm _ _ _ P) in D. clear - D. induction drop as [|x l IH]; [exact D|]. inversion D; subst. auto.
  - intros a L. rewrite N. apply B. apply (Permutation_in a (Permutation_sym P)). apply in_or_app. right. exact L.
  - intros a q L. rewrite G by (apply in_map_iff; exists (a, q); auto). apply H, I, L.
  - exact C'.
Qed.
Lemma inv_step s o s' ev : inv s -> step s o = Some (s', ev) -> inv s'.
Proof.
  intros V H. pose proof V as (D & B & G & C). destruct o as [a q|a ts ok| |k|a ts ok|b|b|b| |a]; cbn [accStep] in H.
  - destruct (existsb (Nat.eqb a) (g_pool s)) eqn:P.
    + apply existsb_In in P. injection H as <- <-.
      assert (PP : Permutation (locs s) (remove1 a (g_pool s) ++ map fst (g_hold s ++ [(a, q)]) ++ map snd (g_queue s) ++ g_held s)).
      { unfold locs. rewrite map_app. cbn [map fst]. rewrite (remove1_perm a (g_pool s) P) at 1. rewrite <- !app_assoc. cbn [app]. rewrite (Permutation_middle (remove1 a (g_pool s))).
        apply Permutation_app_head. apply Permutation_middle. }
      split; [|split; [|split]].
      * exact (nodup_perm _ _ _ PP D).
      * intros x L. apply B. exact (Permutation_in x (Permutation_sym PP) L).
      * cbn [g_hold g_heap]. intros x p L. rewrite fill_record. unfold hset. apply in_app_or in L as [L|[L|[]]].
        -- destruct (Nat.eqb_spec x a) as [->|_]; [|exact (G _ _ L)]. exfalso.
           unfold locs in D. apply NoDup_remove_2 with (l := []) (l' := remove1 a (g_pool s) ++ map fst (g_hold s) ++ map snd (g_queue s) ++ g_held s) (a := a).
           ++ cbn [app]. apply (nodup_perm _ _ _ (Permutation_app_tail _ (remove1_perm a _ P)) D).
           ++ cbn [app]. apply in_or_app. right. apply in_or_app. left. apply in_map_iff. exists (a, p). auto.
        -- injection L as <- <-. rewrite Nat.eqb_refl. reflexivity.
      * exact C.
    + destruct (Nat.eqb_spec a (g_next s)) as [->|]; [|discriminate]. injection H as <- <-.
      assert (PP : Permutation (g_next s :: locs s) (g_pool s ++ map fst (g_hold s ++ [(g_next s, q)]) ++ map snd (g_queue s) ++ g_held s)).
      { unfold locs. rewrite map_app. cbn [map fst]. rewrite <- !app_assoc. cbn [app]. rewrite (Permutation_middle (g_pool s)). apply Permutation_app_head. apply Permutation_middle. }
      split; [|split; [|split]].
      * apply (nodup_perm _ _ _ PP). constructor; [|exact D]. intro L. specialize (B _ L). lia.
      * intros x L. cbn [g_next]. apply (Permutation_in x (Permutation_sym PP)) in L as [<-|L]; [lia|]. specialize (B _ L). lia.
      * cbn [g_hold g_heap]. intros x p L. rewrite fill_record. unfold hset. apply in_app_or in L as [L|[L|[]]].
        -- destruct (Nat.eqb_spec x (g_next s)) as [->|_]; [|exact (G _ _ L)]. exfalso. assert (Q : g_next s < g_next s); [|lia]. apply B. unfold locs. apply in_or_app. right. apply in_or_app. left. apply in_map_iff. exists (g_next s, p). auto.
        -- injection L as <- <-. rewrite Nat.eqb_refl. reflexivity.
      * exact C.
  - destruct (takeHold a (g_hold s)) as [[q hold]|] eqn:T; [|discriminate]. apply takeHold_spec in T as (l1 & l2 & E & ->).
    assert (SubH : forall x, In x (l1 ++ l2) -> In x (g_hold s)).
    { intros x I. rewrite E. apply in_app_or in I as [I|I]; apply in_or_app; [left|right; right]; assumption. }
    assert (PP : Permutation (locs s) (a :: g_pool s ++ map fst (l1 ++ l2) ++ map snd (g_queue s) ++ g_held s)).
    { unfold locs. rewrite E, !map_app. cbn [map fst]. rewrite (Permutation_middle (g_pool s)). apply Permutation_app_head. rewrite <- !app_assoc. cbn [app]. symmetry. apply Permutation_middle. }
    destruct (g_async s) eqn:As.
    + destruct (g_cur s) as [k|] eqn:K; [|discriminate]. destruct (canSend cap s k); injection H as <- <-; apply (inv_sub s); try reflexivity; try exact SubH; try exact V; try (intros; discriminate).
      * exists []. cbn [app]. rewrite PP. unfold locs. cbn [g_pool g_hold g_queue g_held]. rewrite (map_app snd). cbn [map snd]. rewrite (Permutation_middle (g_pool s)). apply Permutation_app_head.
        rewrite (Permutation_middle (map fst (l1 ++ l2))). apply Permutation_app_head. rewrite <- app_assoc. cbn [app]. apply Permutation_middle.
      * exists [a]. cbn [app]. rewrite PP. reflexivity.
    + injection H as <- <-. apply (inv_sub s); try reflexivity; try exact SubH; try exact V; try (intros; discriminate).
      unfold release. destruct ok; [exists []|exists [a]]; cbn [app]; rewrite PP; reflexivity.
  - destruct (g_top s); [discriminate|]. destruct (g_cur s) as [k|] eqn:K; [|discriminate]. injection H as <- <-. apply (inv_sub s); try reflexivity; try exact V; auto; try (intros; discriminate). exists []. reflexivity.
  - destruct (existsb (Nat.eqb k) (g_wait s)); [|discriminate]. destruct (takeQ k (g_queue s)) as [[a r]|] eqn:T; [|discriminate]. apply takeQ_spec in T as (l1 & l2 & E & -> & _). injection H as <- <-.
    apply (inv_sub s); try reflexivity; try exact V; auto. exists []. cbn [app]. unfold locs. cbn [g_pool g_hold g_queue g_held]. do 2 apply Permutation_app_head. rewrite E, !map_app. cbn [map snd]. rewrite <- !app_assoc. cbn [app].
    apply Permutation_app_head. rewrite app_assoc. rewrite Permutation_cons_append. rewrite <- app_assoc. reflexivity.
  - destruct (existsb (Nat.eqb a) (g_held s)) eqn:P; [|discriminate]. apply existsb_In in P. injection H as <- <-. apply (inv_sub s); try reflexivity; try exact V; auto.
    unfold release, locs. cbn [g_pool g_hold g_queue g_held].
    assert (PP : Permutation (g_pool s ++ map fst (g_hold s) ++ map snd (g_queue s) ++ g_held s) (a :: g_pool s ++ map fst (g_hold s) ++ map snd (g_queue s) ++ remove1 a (g_held s))).
    { rewrite (remove1_perm a (g_held s) P) at 1. rewrite (Permutation_middle (g_pool s)). apply Permutation_app_head. rewrite (Permutation_middle (map fst _)). apply Permutation_app_head. symmetry. apply Permutation_middle. }
    destruct ok; [exists []|exists [a]]; cbn [app]; exact PP.
  - destruct b; injection H as <- <-; apply (inv_sub s); try reflexivity; try exact V; auto; try (intros; discriminate); exists []; reflexivity.
  - injection H as <- <-; apply (inv_sub s); try reflexivity; try exact V; auto; exists []; reflexivity.
  - injection H as <- <-; apply (inv_sub s); try reflexivity; try exact V; auto; exists []; reflexivity.
  - injection H as <- <-; apply (inv_sub s); try reflexivity; try exact V; auto; exists []; reflexivity.
  - injection H as <- <-. apply (inv_sub s); try reflexivity; try exact V; auto. unfold locs. cbn [g_pool g_hold g_queue g_held].
    destruct (in_dec Nat.eq_dec a (g_pool s)) as [I|I]; [exists [a]; cbn [app]; exact (Permutation_app_tail _ (remove1_perm a _ I))|].
    exists []. cbn [app]. apply Permutation_app_tail. clear - I. induction (g_pool s) as [|y l IH]; [constructor|]. cbn [remove1]. destruct (Nat.eqb_spec y a) as [->|N]; [contradiction I; left; reflexivity|].
    constructor. apply IH. intro J. apply I. right. exact J.
Qed.

Lemma inv_init : inv (accInit zero).
Proof. split; [constructor|]. split; [intros a []|]. split; [intros a q []|discriminate]. Qed.

Lemma account_step s o s' ev : inv s -> step s o = Some (s', ev) ->
  Permutation (pending s ++ map record_of (queued ev)) (done ev ++ pending s') /\
  (sampled ev + g_disc s' = wrapI64 (g_disc s + Z.of_nat (length (discarded ev))) \/ discarded ev = [] /\ (sampled ev + g_disc s' = g_disc s))%Z /\
  (discarded ev <> [] -> cap <= length (pending s)).
Proof.
  intros (D & B & G & C) H. destruct o as [a q|a ts ok| |k|a ts ok|b|b|b| |a]; cbn [accStep] in H.
  - assert (K : ~ In a (g_held s ++ map snd (g_queue s)) -> forall h n p x, mkAst (hset (g_heap s) a x) n p h (g_async s) (g_cur s) (g_chans s) (g_queue s) (g_top s) (g_wait s) (g_held s) (g_disc s) (g_avail s) (g_struct s) = s' -> ev = [] ->
      Permutation (pending s ++ map record_of (queued ev)) (done ev ++ pending s') /\
      (sampled ev + g_disc s' = wrapI64 (g_disc s + Z.of_nat (length (discarded ev))) \/ discarded ev = [] /\ (sampled ev + g_disc s' = g_disc s))%Z /\ (discarded ev <> [] -> cap <= length (pending s))).
    { intros N h n p x <- ->. cbn. rewrite app_nil_r. unfold pending. cbn [g_heap g_held g_queue]. rewrite map_hset by exact N. split; [reflexivity|]. split; [right; split; [reflexivity|lia]|]. intro Q. contradiction Q; reflexivity. }
    destruct (existsb (Nat.eqb a) (g_pool s)) eqn:P.
    + apply existsb_In in P. injection H as <- <-. eapply K; [|reflexivity|reflexivity]. intro L.
      unfold locs in D. apply (nodup_perm _ _ _ (Permutation_app_tail _ (remove1_perm a _ P))) in D. cbn [app] in D. inversion D as [|? ? D1 _]; subst. apply D1. apply in_or_app. right. apply in_or_app. right.
      apply in_app_or in L as [L|L]; apply in_or_app; auto.
    + destruct (Nat.eqb_spec a (g_next s)) as [->|]; [|discriminate]. injection H as <- <-. eapply K; [|reflexivity|reflexivity]. intro L. assert (Q : g_next s < g_next s); [|lia]. apply B. unfold locs.
      apply in_or_app. right. apply in_or_app. right. apply in_app_or in L as [L|L]; apply in_or_app; auto.
  - destruct (takeHold a (g_hold s)) as [[q hold]|] eqn:T; [|discriminate]. apply takeHold_spec in T as (l1 & l2 & E & ->).
    assert (Ga : g_heap s a = record_of q) by (apply G; rewrite E; apply in_or_app; right; left; reflexivity).
    destruct (g_async s) eqn:As.
    + destruct (g_cur s) as [k|] eqn:K; [|discriminate]. destruct (canSend cap s k) eqn:CS; injection H as <- <-.
      * cbn [queued discarded done sampled flat_map app map fold_right length g_disc]. split; [unfold pending; cbn [g_heap g_held g_queue]; rewrite !map_app; cbn [map snd]; rewrite Ga, !app_assoc; reflexivity|]. split; [right; split; [reflexivity|lia]|]. intro Q. contradiction Q; reflexivity.
      * cbn. rewrite app_nil_r. split; [reflexivity|]. split; [left; reflexivity|]. intros _. unfold canSend in CS. apply orb_false_elim in CS as [CS _]. apply Nat.ltb_ge in CS. unfold chanLen in CS.
        unfold pending. rewrite map_length, app_length, map_length. pose proof (flen (fun x : nat * nat => fst x =? k) (g_queue s)). lia.
    + injection H as <- <-. destruct (emit_queued s a ts ok) as (E1 & E2 & E3 & E4). cbn [queued done discarded flat_map]. fold (queued (emit render s a ts ok)) (done (emit render s a ts ok)) (discarded (emit render s a ts ok)).
      unfold sampled. cbn [flat_map]. fold (sampled (emit render s a ts ok)). rewrite E1, E2, E3. cbn [map app]. change (fold_right Z.add 0%Z _) with (sampled (emit render s a ts ok)). rewrite E4. rewrite Ga. unfold pending. cbn [g_heap g_held g_queue g_disc].
      split; [rewrite <- Permutation_cons_append; reflexivity|]. split; [right; split; [reflexivity|lia]|]. intro Q. contradiction Q; reflexivity.
  - destruct (g_top s); [discriminate|]. destruct (g_cur s) as [k|] eqn:K; [|discriminate]. injection H as <- <-. cbn. rewrite app_nil_r. split; [reflexivity|]. split; [right; split; [reflexivity|lia]|]. intro Q. contradiction Q; reflexivity.
  - destruct (existsb (Nat.eqb k) (g_wait s)); [|discriminate]. destruct (takeQ k (g_queue s)) as [[a r]|] eqn:T; [|discriminate]. apply takeQ_spec in T as (l1 & l2 & E & -> & _). injection H as <- <-.
    cbn. rewrite app_nil_r. split; [|split; [right; split; [reflexivity|lia]|intro Q; contradiction Q; reflexivity]]. unfold pending. cbn [g_heap g_held g_queue]. apply Permutation_map. rewrite E, !map_app. cbn [map snd].
    rewrite <- !app_assoc. cbn [app]. apply Permutation_app_head. symmetry. apply Permutation_middle.
  - destruct (existsb (Nat.eqb a) (g_held s)) eqn:P; [|discriminate]. apply existsb_In in P. injection H as <- <-. destruct (emit_queued s a ts ok) as (E1 & E2 & E3 & E4). rewrite E1, E2, E3, E4. cbn [map app length]. rewrite app_nil_r. cbn [g_disc].
    split; [|split; [right; split; [reflexivity|lia]|intro Q; contradiction Q; reflexivity]]. unfold pending. cbn [g_heap g_held g_queue]. rewrite (remove1_perm a _ P) at 1. reflexivity.
  - destruct b; injection H as <- <-; cbn; rewrite app_nil_r; (split; [reflexivity|]; split; [right; split; [reflexivity|lia]|]; intro Q; contradiction Q; reflexivity).
  - injection H as <- <-; cbn; rewrite app_nil_r; (split; [reflexivity|]; split; [right; split; [reflexivity|lia]|]; intro Q; contradiction Q; reflexivity).
  - injection H as <- <-; cbn; rewrite app_nil_r; (split; [reflexivity|]; split; [right; split; [reflexivity|lia]|]; intro Q; contradiction Q; reflexivity).
  - injection H as <- <-; cbn; rewrite app_nil_r; (split; [reflexivity|]; split; [right; split; [reflexivity|lia]|]; intro Q; contradiction Q; reflexivity).
  - injection H as <- <-; cbn; rewrite app_nil_r; (split; [reflexivity|]; split; [right; split; [reflexivity|lia]|]; intro Q; contradiction Q; reflexivity).
Qed.

Lemma run_account l : forall s s' ev, inv s -> run s l = Some (s', ev) ->
  inv s' /\ Permutation (pending s ++ map record_of (queued ev)) (done ev ++ pending s') /\
  ((sampled ev + g_disc s') mod 2 ^ 64 = (g_disc s + Z.of_nat (length (discarded ev))) mod 2 ^ 64)%Z.
Proof.
  induction l as [|o l IH]; intros s s' ev V H; cbn [accRun] in H.
  - injection H as <- <-. split; [exact V|]. cbn. rewrite app_nil_r. split; [reflexivity|]. f_equal. lia.
  - destruct (step s o) as [[s1 e1]|] eqn:E1; [|discriminate]. destruct (run s1 l) as [[s2 e2]|] eqn:E2; [|discriminate]. injection H as <- <-.
    pose proof (inv_step _ _ _ _ V E1) as V1. destruct (account_step _ _ _ _ V E1) as (P1 & D1 & _). destruct (IH _ _ _ V1 E2) as (V2 & P2 & D2). split; [exact V2|]. split.
    + rewrite queued_app, done_app, map_app, app_assoc, P1, <- app_assoc, P2, app_assoc. reflexivity.
    + rewrite sampled_app, discarded_app, app_length, Nat2Z.inj_add. rewrite <- Z.add_assoc, <- Z.add_mod_idemp_r, D2, Z.add_mod_idemp_r by discriminate.
      destruct D1 as [D1|[D1 D1']].
      * replace (sampled e1 + (g_disc s1 + Z.of_nat (length (discarded e2))))%Z with ((sampled e1 + g_disc s1) + Z.of_nat (length (discarded e2)))%Z by lia. rewrite D1.
        replace (g_disc s + (Z.of_nat (length (discarded e1)) + Z.of_nat (length (discarded e2))))%Z with ((g_disc s + Z.of_nat (length (discarded e1))) + Z.of_nat (length (discarded e2)))%Z by lia.
        rewrite <- Z.add_mod_idemp_l, wrapI64_mod, Z.add_mod_idemp_l by discriminate. reflexivity.
      * rewrite D1. cbn [length]. f_equal. lia.
Qed.

(* what is written, comes from the record *)
Lemma run_seen l : forall s s' ev e b, run s l = Some (s', ev) -> In (GOut e b) ev -> exists ts, b = outLine ts (accLine e) \/ b = render ts e.
Proof.
  assert (S1 : forall s a ts ok e b, In (GOut e b) (emit render s a ts ok) -> exists ts, b = outLine ts (accLine e) \/ b = render ts e).
  { intros s a ts ok e b I. unfold emit in I. destruct ok; cbn [negb] in I; [|destruct I as [I|[]]; discriminate I]. destruct (g_avail s); destruct I as [I|[]]; [|discriminate I].
    injection I as <- <-. exists ts. destruct (g_struct s); auto. }
  induction l as [|o l IH]; intros s s' ev e b H I; cbn [accRun] in H; [injection H as <- <-; destruct I|].
  destruct (step s o) as [[s1 e1]|] eqn:E1; [|discriminate]. destruct (run s1 l) as [[s2 e2]|] eqn:E2; [|discriminate]. injection H as <- <-. apply in_app_or in I as [I|I]; [|exact (IH _ _ _ _ _ E2 I)].
  destruct o as [a q|a ts ok| |k|a ts ok|b0|b0|b0| |a]; cbn [accStep] in E1.
  - destruct (existsb _ _); [|destruct (Nat.eqb a (g_next s)); [|discriminate]]; injection E1 as <- <-; destruct I.
  - destruct (takeHold a (g_hold s)) as [[q hold]|]; [|discriminate]. destruct (g_async s).
    + destruct (g_cur s) as [k|]; [|discriminate]. destruct (canSend cap s k); injection E1 as <- <-; destruct I as [I|[]]; discriminate I.
    + injection E1 as <- <-. destruct I as [I|I]; [discriminate I|exact (S1 _ _ _ _ _ _ I)].
  - destruct (g_top s); [discriminate|]. destruct (g_cur s); [|discriminate]. injection E1 as <- <-. destruct I.
  - destruct (existsb _ _); [|discriminate]. destruct (takeQ k (g_queue s)) as [[a r]|]; [|discriminate]. injection E1 as <- <-. destruct I.
  - destruct (existsb _ _); [|discriminate]. injection E1 as <- <-. exact (S1 _ _ _ _ _ _ I).
  - destruct b0; injection E1 as <- <-; destruct I.
  - injection E1 as <- <-; destruct I.
  - injection E1 as <- <-; destruct I.
  - injection E1 as <- <-; destruct I as [I|[]]; discriminate I.
  - injection E1 as <- <-; destruct I.
Qed.

(* ------------------------------------------------------------ one consumer *)

Definition single (s : ast) : Prop :=
  g_async s = true /\ g_cur s = Some 0 /\ (forall x, In x (g_queue s) -> fst x = 0) /\ (forall k, In k (g_wait s) -> k = 0) /\ g_top s + length (g_wait s) + length (g_held s) = 1.
Lemma remove1_len x l : In x l -> S (length (remove1 x l)) = length l.
Proof. intro I. apply remove1_perm, Permutation_length in I. cbn [length] in I. lia. Qed.
Lemma single_step s o s' ev : inv s -> single s -> no_async o -> step s o = Some (s', ev) ->
  single s' /\ pending s ++ map record_of (queued ev) = done ev ++ pending s'.
Proof.
  intros V (A & K & Q & W & N) NA H. pose proof V as (D & B & G & _). destruct o as [a q|a ts ok| |k|a ts ok|b|b|b| |a]; cbn [accStep] in H.
  - assert (P : exists h n p x, mkAst (hset (g_heap s) a x) n p h (g_async s) (g_cur s) (g_chans s) (g_queue s) (g_top s) (g_wait s) (g_held s) (g_disc s) (g_avail s) (g_struct s) = s' /\ ev = [] /\ ~ In a (g_held s ++ map snd (g_queue s))).
    { destruct (existsb (Nat.eqb a) (g_pool s)) eqn:P.
      + apply existsb_In in P. injection H as <- <-. eexists _, _, _, _. split; [reflexivity|]. split; [reflexivity|]. intro L.
        unfold locs in D. apply (nodup_perm _ _ _ (Permutation_app_tail _ (remove1_perm a _ P))) in D. cbn [app] in D. inversion D as [|? ? D1 _]; subst. apply D1. apply in_or_app. right. apply in_or_app. right.
        apply in_app_or in L as [L|L]; apply in_or_app; auto.
      + destruct (Nat.eqb_spec a (g_next s)) as [->|]; [|discriminate]. injection H as <- <-. eexists _, _, _, _. split; [reflexivity|]. split; [reflexivity|]. intro L. assert (Z : g_next s < g_next s); [|lia]. apply B. unfold locs.
        apply in_or_app. right. apply in_or_app. right. apply in_app_or in L as [L|L]; apply in_or_app; auto. }
    destruct P as (h & n & p & x & <- & -> & I). split; [repeat split; assumption|]. cbn. rewrite app_nil_r. unfold pending. cbn [g_heap g_held g_queue]. rewrite map_hset by exact I. reflexivity.
  - destruct (takeHold a (g_hold s)) as [[q hold]|] eqn:T; [|discriminate]. apply takeHold_spec in T as (l1 & l2 & E & ->).
    assert (Ga : g_heap s a = record_of q) by (apply G; rewrite E; apply in_or_app; right; left; reflexivity).
    rewrite A, K in H. destruct (canSend cap s 0); injection H as <- <-.
    + split; [repeat split; try assumption; cbn [g_queue]; intros x I; apply in_app_or in I as [I|[<-|[]]]; [exact (Q x I)|reflexivity]|].
      cbn [queued done flat_map app map]. unfold pending; cbn [g_heap g_held g_queue]; rewrite !map_app; cbn [map snd]; rewrite Ga, !app_assoc; reflexivity.
    + split; [repeat split; assumption|]. cbn [queued done flat_map app map]. rewrite app_nil_r. reflexivity.
  - destruct (g_top s) as [|n] eqn:Tp; [discriminate|]. rewrite K in H. injection H as <- <-. split; [repeat split; try assumption; cbn [g_wait g_top g_held]|cbn; rewrite app_nil_r; reflexivity].
    + intros k I. apply in_app_or in I as [I|[<-|[]]]; [exact (W k I)|reflexivity].
    + rewrite app_length. cbn [length]. lia.
  - destruct (existsb (Nat.eqb k) (g_wait s)) eqn:P; [|discriminate]. apply existsb_In in P. destruct (takeQ k (g_queue s)) as [[a r]|] eqn:T; [|discriminate]. apply takeQ_spec in T as (l1 & l2 & E & -> & F). injection H as <- <-.
    assert (k = 0) by exact (W _ P). subst k. pose proof (remove1_len _ _ P) as RL. assert (l1 = []) as ->.
    { destruct l1 as [|x l1]; [reflexivity|]. exfalso. apply (F x (or_introl eq_refl)). apply Q. rewrite E. left. reflexivity. }
    assert (Hn : g_held s = []) by (destruct (g_held s); [reflexivity|cbn [length] in N; lia]).
    split; [repeat split; try assumption; cbn [g_queue g_wait g_held g_top app]|].
    + intros x I. apply Q. rewrite E. right. exact I.
    + intros x I. apply W. exact (remove1_incl _ _ _ I).
    + rewrite app_length. cbn [length]. lia.
    + cbn [queued done flat_map map]. rewrite app_nil_r. cbn [app]. unfold pending. cbn [g_heap g_held g_queue app]. rewrite E, Hn. reflexivity.
  - destruct (existsb (Nat.eqb a) (g_held s)) eqn:P; [|discriminate]. apply existsb_In in P. injection H as <- <-. destruct (emit_queued s a ts ok) as (E1 & E2 & _). rewrite E1, E2. cbn [map]. rewrite app_nil_r.
    assert (Hn : g_held s = [a]). { destruct (g_held s) as [|x [|y r]]; [destruct P| |cbn [length] in N; lia]. destruct P as [->|[]]. reflexivity. }
    split; [repeat split; try assumption; cbn [g_top g_held g_wait]; rewrite Hn in N |- *; cbn [remove1 length] in *; rewrite Nat.eqb_refl; cbn [length]; lia|].
    unfold pending. cbn [g_heap g_held g_queue]. rewrite Hn. cbn [remove1]. rewrite Nat.eqb_refl. reflexivity.
  - destruct NA.
  - injection H as <- <-. split; [repeat split; assumption|]. cbn. rewrite app_nil_r. reflexivity.
  - injection H as <- <-. split; [repeat split; assumption|]. cbn. rewrite app_nil_r. reflexivity.
  - injection H as <- <-. split; [repeat split; assumption|]. cbn. rewrite app_nil_r. reflexivity.
  - injection H as <- <-. split; [repeat split; assumption|]. cbn. rewrite app_nil_r. reflexivity.
Qed.
Lemma single_run l : forall s s' ev, inv s -> single s -> Forall no_async l -> run s l = Some (s', ev) ->
  single s' /\ pending s ++ map record_of (queued ev) = done ev ++ pending s'.
Proof.
  induction l as [|o l IH]; intros s s' ev V S F H; cbn [accRun] in H.
  - injection H as <- <-. split; [exact S|]. cbn. apply app_nil_r.
  - destruct (step s o) as [[s1 e1]|] eqn:E1; [|discriminate]. destruct (run s1 l) as [[s2 e2]|] eqn:E2; [|discriminate]. injection H as <- <-. inversion F; subst.
    pose proof (inv_step _ _ _ _ V E1) as V1. destruct (single_step _ _ _ _ V S H1 E1) as (S1 & P1). destruct (IH _ _ _ V1 S1 H2 E2) as (S2 & P2). split; [exact S2|].
    rewrite queued_app, done_app, map_app, app_assoc, P1, <- app_assoc, P2, app_assoc. reflexivity.
Qed.
Lemma start_single s : step (accInit zero) (AAsync true) = Some (s, []) -> single s /\ inv s /\ pending s = [].
Proof.
  intro H. pose proof (inv_step _ _ _ _ inv_init H) as V. injection H as <-. split; [|split; [exact V|reflexivity]]. repeat split; cbn; intros x [].
Qed.

(* the consumer alone empties the queue *)
Lemma take_one s : single s -> pending s <> [] -> exists l s' ev, Forall consumer_step l /\ run s l = Some (s', ev) /\ single s' /\ length (pending s') < length (pending s) /\ g_heap s' = g_heap s /\
  g_avail s' = g_avail s /\ queued ev = [] /\ pending s = done ev ++ pending s' /\ (g_avail s = true -> length (filter (fun e => match e with GOut _ _ => true | _ => false end) ev) = length (done ev)).
Proof.
  intros (A & K & Q & W & N) P. destruct (g_held s) as [|a h] eqn:H.
  - unfold pending in P. rewrite H in P. cbn [app] in P. destruct (g_queue s) as [|[k a] r] eqn:Eq; [contradiction P; reflexivity|].
    assert (k = 0) as -> by exact (Q _ (or_introl eq_refl)).
    assert (M : forall s0, g_wait s0 = [0] -> g_held s0 = [] -> g_top s0 = 0 -> g_queue s0 = (0, a) :: r -> g_async s0 = true -> g_cur s0 = Some 0 -> g_heap s0 = g_heap s -> g_avail s0 = g_avail s ->
      exists s' ev, run s0 [ATake 0; AWrite a [] true] = Some (s', ev) /\ single s' /\ g_heap s' = g_heap s /\ g_avail s' = g_avail s /\ pending s' = map (g_heap s) (map snd r) /\ done ev = [g_heap s a] /\ queued ev = [] /\
        (g_avail s = true -> length (filter (fun e => match e with GOut _ _ => true | _ => false end) ev) = 1)).
    { intros s0 M1 M2 M3 M4 M5 M6 M7 M8. cbn [accRun accStep]. rewrite M1. cbn [existsb Nat.eqb orb]. rewrite M4. cbn [takeQ Nat.eqb]. rewrite M2, M3. cbn [app g_held existsb]. rewrite Nat.eqb_refl. cbn [orb accRun].
      eexists _, _. split; [reflexivity|]. cbn [g_heap g_avail remove1 Nat.eqb g_wait g_queue g_top g_async g_cur g_pool g_hold]. rewrite ?Nat.eqb_refl. split; [repeat split; cbn; auto|].
      - intros x I. apply Q. right. exact I.
      - intros x [].
      - split; [exact M7|]. split; [exact M8|]. split; [unfold pending; cbn [g_heap g_held g_queue remove1]; rewrite ?Nat.eqb_refl, M7; reflexivity|]. cbn [app]. rewrite app_nil_r.
        unfold emit. cbn [g_heap g_avail negb]. rewrite M7, M8. destruct (g_avail s); repeat split; intro X; try discriminate X. }
    destruct (g_wait s) as [|k0 w] eqn:Wt.
    + cbn [length] in N. destruct (g_top s) as [|[|n]] eqn:Tp; try lia. cbn [length] in N.
      assert (ST : step s ATop = Some (mkAst (g_heap s) (g_next s) (g_pool s) (g_hold s) (g_async s) (g_cur s) (g_chans s) (g_queue s) 0 [0] (g_held s) (g_disc s) (g_avail s) (g_struct s), [])).
      { cbn [accStep]. rewrite Tp, K, Wt. reflexivity. }
      edestruct (M (mkAst (g_heap s) (g_next s) (g_pool s) (g_hold s) (g_async s) (g_cur s) (g_chans s) (g_queue s) 0 [0] (g_held s) (g_disc s) (g_avail s) (g_struct s))) as (s' & ev & R & S' & H1 & H2 & H3 & H4 & H5 & H6); try reflexivity; try assumption.
      exists [ATop; ATake 0; AWrite a [] true], s', ev. split; [repeat constructor|]. split; [cbn [accRun] in *; rewrite ST; rewrite R; reflexivity|]. split; [exact S'|].
      split; [rewrite H3; unfold pending; rewrite H, Eq; cbn [app map snd length]; lia|]. split; [exact H1|]. split; [exact H2|]. split; [exact H5|]. split; [rewrite H3, H4; unfold pending; rewrite H, Eq; reflexivity|]. rewrite H4. exact H6.
    + cbn [length] in N. assert (w = []) as -> by (destruct w; [reflexivity|cbn [length] in N; lia]). assert (k0 = 0) as -> by (apply W; left; reflexivity).
      destruct (M s) as (s' & ev & R & S' & H1 & H2 & H3 & H4 & H5 & H6); try reflexivity; try assumption; [cbn [length] in N; lia|].
      exists [ATake 0; AWrite a [] true], s', ev. split; [repeat constructor|]. split; [exact R|]. split; [exact S'|].
      split; [rewrite H3; unfold pending; rewrite H, Eq; cbn [app map snd length]; lia|]. split; [exact H1|]. split; [exact H2|]. split; [exact H5|]. split; [rewrite H3, H4; unfold pending; rewrite H, Eq; reflexivity|]. rewrite H4. exact H6.
  - assert (h = []) as -> by (destruct h; [reflexivity|cbn [length] in N; lia]). cbn [length] in N.
    assert (ST : exists s' , step s (AWrite a [] true) = Some (s', emit render s a [] true) /\ single s' /\ g_heap s' = g_heap s /\ g_avail s' = g_avail s /\ pending s' = map (g_heap s) (map snd (g_queue s))).
    { cbn [accStep]. rewrite H. cbn [existsb]. rewrite Nat.eqb_refl. cbn [orb]. eexists. split; [reflexivity|]. cbn [remove1]. rewrite Nat.eqb_refl. split; [repeat split; try assumption; cbn [g_top g_wait g_held length]; lia|]. repeat split. }
    destruct ST as (s' & ST & S' & H1 & H2 & H3). exists [AWrite a [] true], s', (emit render s a [] true). split; [repeat constructor|]. split; [cbn [accRun]; rewrite ST; rewrite app_nil_r; reflexivity|]. split; [exact S'|].
    split; [rewrite H3; unfold pending; rewrite H; cbn [app map length]; rewrite !map_length; lia|]. split; [exact H1|]. split; [exact H2|].
    destruct (emit_queued s a [] true) as (E1 & E2 & _). split; [exact E1|]. rewrite E2. split; [rewrite H3; unfold pending; rewrite H; reflexivity|].
    intro AV. unfold emit. rewrite AV. reflexivity.
Qed.
Lemma run_app l1 : forall l2 s s1 e1 s2 e2, run s l1 = Some (s1, e1) -> run s1 l2 = Some (s2, e2) -> run s (l1 ++ l2) = Some (s2, e1 ++ e2).
Proof.
  induction l1 as [|o l1 IH]; intros l2 s s1 e1 s2 e2 H1 H2; cbn [accRun app] in *; [injection H1 as <- <-; exact H2|].
  destruct (step s o) as [[s0 e0]|]; [|discriminate]. destruct (run s0 l1) as [[s3 e3]|] eqn:E; [|discriminate]. injection H1 as <- <-. rewrite (IH _ _ _ _ _ _ E H2), app_assoc. reflexivity.
Qed.
Lemma drain n : forall s, length (pending s) <= n -> single s -> exists l s' ev, Forall consumer_step l /\ run s l = Some (s', ev) /\ pending s' = [] /\ done ev = pending s /\
  (g_avail s = true -> length (filter (fun e => match e with GOut _ _ => true | _ => false end) ev) = length (done ev)).
Proof.
  induction n as [|n IH]; intros s L S.
  - exists [], s, []. assert (pending s = []) as E by (destruct (pending s); [reflexivity|cbn [length] in L; lia]). split; [constructor|]. split; [reflexivity|]. rewrite E. auto.
  - destruct (pending s) as [|e p] eqn:E; [exists [], s, []; split; [constructor|]; split; [reflexivity|]; auto|].
    destruct (take_one s S) as (l1 & s1 & e1 & F1 & R1 & S1 & L1 & _ & Av & Q1 & P1 & O1); [rewrite E; discriminate|].
    destruct (IH s1) as (l2 & s2 & e2 & F2 & R2 & P2 & D2 & O2); [rewrite <- E in L; lia|exact S1|]. exists (l1 ++ l2), s2, (e1 ++ e2). split; [apply Forall_app; auto|]. split; [exact (run_app _ _ _ _ _ _ _ R1 R2)|]. split; [exact P2|].
    split; [rewrite done_app, D2, <- P1, E; reflexivity|]. intro AV. rewrite filter_app, app_length, done_app, app_length, O1, O2 by (try exact AV; rewrite Av; exact AV). reflexivity.
Qed.

(* ------------------------------------------------------------ a channel left behind *)

Lemma left_step s o s' ev k a : inv s -> (forall j, g_cur s = Some j -> k < j) -> (forall j, g_cur s = Some j -> j < g_chans s) -> ~ In k (g_wait s) -> k < g_chans s -> In (k, a) (g_queue s) -> step s o = Some (s', ev) ->
  (forall j, g_cur s' = Some j -> k < j) /\ (forall j, g_cur s' = Some j -> j < g_chans s') /\ ~ In k (g_wait s') /\ k < g_chans s' /\ In (k, a) (g_queue s') /\ g_heap s' a = g_heap s a.
Proof.
  intros V C C2 W L Q H. pose proof V as (D & B & G & _). destruct o as [b q|b ts ok| |j|b ts ok|b|b|b| |b]; cbn [accStep] in H.
  - assert (La : In a (map snd (g_queue s))) by (apply in_map_iff; exists (k, a); auto).
    destruct (existsb (Nat.eqb b) (g_pool s)) eqn:P.
    + apply existsb_In in P. injection H as <- <-. cbn [g_cur g_wait g_chans g_queue g_heap]. repeat (split; [assumption|]). unfold hset. destruct (Nat.eqb_spec a b) as [<-|]; [|reflexivity]. exfalso.
      unfold locs in D. apply (nodup_perm _ _ _ (Permutation_app_tail _ (remove1_perm a _ P))) in D. cbn [app] in D. inversion D as [|? ? D1 _]; subst. apply D1. apply in_or_app. right. apply in_or_app. right. apply in_or_app. auto.
    + destruct (Nat.eqb_spec b (g_next s)) as [->|]; [|discriminate]. injection H as <- <-. cbn [g_cur g_wait g_chans g_queue g_heap]. repeat (split; [assumption|]). unfold hset. destruct (Nat.eqb_spec a (g_next s)) as [->|]; [|reflexivity]. exfalso.
      assert (Z : g_next s < g_next s); [|lia]. apply B. unfold locs. apply in_or_app. right. apply in_or_app. right. apply in_or_app. auto.
  - destruct (takeHold b (g_hold s)) as [[q hold]|] eqn:T; [|discriminate]. destruct (g_async s).
    + destruct (g_cur s) as [j|] eqn:K; [|discriminate]. destruct (canSend cap s j); injection H as <- <-; cbn [g_cur g_wait g_chans g_queue g_heap]; rewrite ?K; repeat (split; [assumption|]); [|auto]. split; [|reflexivity]. apply in_or_app. auto.
    + injection H as <- <-. cbn [g_cur g_wait g_chans g_queue g_heap]. auto 10.
  - destruct (g_top s); [discriminate|]. destruct (g_cur s) as [j|] eqn:K; [|discriminate]. injection H as <- <-. cbn [g_cur g_wait g_chans g_queue g_heap]. rewrite ?K. repeat (split; [assumption|]). split; [|auto].
    intro I. apply in_app_or in I as [I|[I|[]]]; [contradiction|]. specialize (C j eq_refl). lia.
  - destruct (existsb (Nat.eqb j) (g_wait s)) eqn:P; [|discriminate]. apply existsb_In in P. destruct (takeQ j (g_queue s)) as [[b r]|] eqn:T; [|discriminate]. apply takeQ_spec in T as (l1 & l2 & E & -> & F). injection H as <- <-.
    cbn [g_cur g_wait g_chans g_queue g_heap]. repeat (split; [assumption|]). split; [intro I; apply W; exact (remove1_incl _ _ _ I)|]. split; [exact L|]. split; [|reflexivity].
    rewrite E in Q. apply in_app_or in Q as [Q|[Q|Q]]; [apply in_or_app; auto| |apply in_or_app; auto]. injection Q as -> ->. contradiction.
  - destruct (existsb (Nat.eqb b) (g_held s)); [|discriminate]. injection H as <- <-. cbn [g_cur g_wait g_chans g_queue g_heap]. auto 10.
  - destruct b; injection H as <- <-; cbn [g_cur g_wait g_chans g_queue g_heap].
    + split; [intros j E; injection E as <-; exact L|]. split; [intros j E; injection E as <-; lia|]. repeat (split; [first [assumption|lia]|]). reflexivity.
    + auto 10.
  - injection H as <- <-; cbn [g_cur g_wait g_chans g_queue g_heap]; auto 10.
  - injection H as <- <-; cbn [g_cur g_wait g_chans g_queue g_heap]; auto 10.
  - injection H as <- <-; cbn [g_cur g_wait g_chans g_queue g_heap]; auto 10.
  - injection H as <- <-; cbn [g_cur g_wait g_chans g_queue g_heap]; auto 10.
Qed.
Lemma left_run k a l : forall s s' ev, inv s -> (forall j, g_cur s = Some j -> k < j) -> (forall j, g_cur s = Some j -> j < g_chans s) -> ~ In k (g_wait s) -> k < g_chans s -> In (k, a) (g_queue s) -> run s l = Some (s', ev) ->
  In (k, a) (g_queue s') /\ g_heap s' a = g_heap s a.
Proof.
  induction l as [|o l IH]; intros s s' ev V C C2 W L Q H; cbn [accRun] in H; [injection H as <- <-; auto|].
  destruct (step s o) as [[s1 e1]|] eqn:E1; [|discriminate]. destruct (run s1 l) as [[s2 e2]|] eqn:E2; [|discriminate]. injection H as <- <-.
  destruct (left_step _ _ _ _ k a V C C2 W L Q E1) as (C' & C2' & W' & L' & Q' & H'). destruct (IH _ _ _ (inv_step _ _ _ _ V E1) C' C2' W' L' Q' E2) as [Q2 H2]. split; [exact Q2|]. rewrite H2. exact H'.
Qed.
(* ------------------------------------------------------------ the buffers *)
Lemma filter_len_app {A} (f : A -> bool) l1 l2 : length (filter f (l1 ++ l2)) = length (filter f l1) + length (filter f l2).
Proof. rewrite filter_app, app_length. reflexivity. Qed.
Lemma perm_filter {A} (f : A -> bool) l l' : Permutation l l' -> Permutation (filter f l) (filter f l').
Proof.
  intro P. induction P as [|x l l' P IH|x y l|l1 l2 l3 P1 IH1 P2 IH2]; cbn [filter].
  - constructor.
  - destruct (f x); [apply perm_skip|]; exact IH.
  - destruct (f x), (f y); try apply Permutation_refl. apply perm_swap.
  - exact (perm_trans IH1 IH2).
Qed.
Lemma remove1_waits k j l : In k l -> length (filter (Nat.eqb j) (remove1 k l)) = length (filter (Nat.eqb j) l) - (if Nat.eqb j k then 1 else 0).
Proof.
  intro I. assert (F : length (filter (Nat.eqb j) l) = length (filter (Nat.eqb j) (k :: remove1 k l))).
  { apply Permutation_length, perm_filter, remove1_perm, I. }
  rewrite F. cbn [filter]. destruct (Nat.eqb j k); cbn [length]; lia.
Qed.
Definition room (s : ast) : Prop := forall k, in_buffer s k <= Nat.max cap (waiting_at s k).
Lemma room_step s o s' ev : room s -> step s o = Some (s', ev) -> room s'.
Proof.
  intros R H. assert (Same : g_queue s' = g_queue s -> g_wait s' = g_wait s -> room s').
  { intros E1 E2 k. unfold in_buffer, waiting_at. rewrite E1, E2. apply R. }
  destruct o as [a q|a ts ok| |k|a ts ok|b|b|b| |a]; cbn [accStep] in H.
  - destruct (existsb _ _); [|destruct (Nat.eqb _ _); [|discriminate]]; injection H as <- _; apply Same; reflexivity.
  - destruct (takeHold a (g_hold s)) as [[q hold]|]; [|discriminate]. destruct (g_async s); [destruct (g_cur s) as [k|]; [|discriminate]; destruct (canSend cap s k) eqn:C|];
      injection H as <- _; try (apply Same; reflexivity).
    intro j. specialize (R j). unfold in_buffer, waiting_at in *. cbn [g_queue g_wait]. rewrite filter_len_app. cbn [filter fst].
    destruct (Nat.eqb_spec k j) as [->|]; cbn [length]; [|lia]. unfold canSend, chanLen in C. apply Bool.orb_true_iff in C as [C|C]; apply Nat.ltb_lt in C; lia.
  - destruct (g_top s) as [|n]; [discriminate|]. destruct (g_cur s) as [k|]; [|discriminate]. injection H as <- _. intro j. specialize (R j). unfold in_buffer, waiting_at in *. cbn [g_queue g_wait].
    rewrite filter_len_app. lia.
  - destruct (existsb (Nat.eqb k) (g_wait s)) eqn:P; [|discriminate]. apply existsb_In in P. destruct (takeQ k (g_queue s)) as [[a r]|] eqn:T; [|discriminate]. apply takeQ_spec in T as (l1 & l2 & E & -> & _).
    injection H as <- _. intro j. specialize (R j). unfold in_buffer, waiting_at in *. cbn [g_queue g_wait]. rewrite (remove1_waits k j _ P). rewrite E in R. rewrite filter_len_app in R |- *.
    cbn [filter fst] in R. rewrite (Nat.eqb_sym k j) in R. destruct (Nat.eqb j k); cbn [length] in R; lia.
  - destruct (existsb _ _); [|discriminate]; injection H as <- _; apply Same; reflexivity.
  - destruct b; injection H as <- _; apply Same; reflexivity.
  - injection H as <- _; apply Same; reflexivity.
  - injection H as <- _; apply Same; reflexivity.
  - injection H as <- _; apply Same; reflexivity.
  - injection H as <- _; apply Same; reflexivity.
Qed.
Lemma room_run l : forall s s' ev, room s -> run s l = Some (s', ev) -> room s'.
Proof.
  induction l as [|o l IH]; intros s s' ev R H; cbn [accRun] in H; [injection H as <- _; exact R|].
  destruct (step s o) as [[s1 e1]|] eqn:E1; [|discriminate]. destruct (run s1 l) as [[s2 e2]|] eqn:E2; [|discriminate]. injection H as <- _.
  exact (IH _ _ _ (room_step _ _ _ _ R E1) E2).
Qed.
Lemma room_init : room (accInit zero).
Proof. intro k. cbn. lia. Qed.
Lemma single_bound s : single s -> room s -> 1 <= cap -> length (pending s) <= cap + 1.
Proof.
  intros (_ & _ & Q & W & N) R C. unfold pending. rewrite map_length, app_length, map_length. specialize (R 0). unfold in_buffer, waiting_at in R.
  assert (F : forall l : list (nat * nat), (forall x, In x l -> fst x = 0) -> filter (fun x => Nat.eqb (fst x) 0) l = l).
  { induction l as [|x l IH]; intros H; [reflexivity|]. cbn [filter]. rewrite (H x (or_introl eq_refl)). cbn [Nat.eqb]. f_equal. apply IH. intros y I. apply H. right. exact I. }
  rewrite (F _ Q) in R. pose proof (flen (Nat.eqb 0) (g_wait s)). lia.
Qed.
End M.
