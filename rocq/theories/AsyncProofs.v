(* AsyncProofs.v *)
From Verif Require Import Base AsyncModel AsyncSpec.
Require Import Lia.
Ltac Zify.zify_post_hook ::= idtac.

Lemma aruns_snoc s os o : aruns s (os ++ [o]) = match aruns s os with Some s' => astep s' o | None => None end.
Proof. revert s. induction os as [|x os IH]; intro s; cbn; [destruct (astep s o); reflexivity|]. destruct (astep s x); [apply IH|reflexivity]. Qed.
Lemma sends_snoc os o : sends (os ++ [o]) = sends os ++ match o with ASent k => [k] | _ => [] end.
Proof. unfold sends. rewrite map_app, concat_app. cbn. rewrite app_nil_r. reflexivity. Qed.
Lemma answer_snoc os o k : answer (os ++ [o]) k = match o with AAnswer k' e => if (k' =? k)%nat then Some e else answer os k | _ => answer os k end.
Proof. unfold answer. rewrite fold_left_app. reflexivity. Qed.

Definition on_chan (s : ast) (c : nat) (k : nat) : bool := match nth_error (aCalls s) k with Some x => (aChan x =? c)%nat | None => false end.
Record ainv (os : list aop) (s : ast) : Prop := {
  ai_chan : forall k x, nth_error (aCalls s) k = Some x -> exists ch, nth_error (aChans s) (aChan x) = Some ch /\ (0 < aCap ch)%nat;
  ai_room : forall c ch, nth_error (aChans s) c = Some ch -> (length (aQueue ch) <= aCap ch)%nat;
  ai_through : forall c, through s c = filter (on_chan s c) (sends os);
  ai_calls : forall k x, nth_error (aCalls s) k = Some x ->
     match aPc x with AWait => answer os k = None /\ aErr x = None /\ ~ In k (sends os)
                    | ASend => answer os k = Some (aErr x) /\ ~ In k (sends os) | ADone => answer os k = Some (aErr x) /\ In k (sends os) end;
  ai_sends : NoDup (sends os) /\ forall k, In k (sends os) -> (k < length (aCalls s))%nat;
  ai_none : forall k, answer os k <> None -> (k < length (aCalls s))%nat }.
Lemma nth_error_snoc {A} (l : list A) x k y : nth_error (l ++ [x]) k = Some y -> nth_error l k = Some y \/ (k = length l /\ y = x).
Proof.
  intro H. destruct (Nat.lt_ge_cases k (length l)) as [L|G]; [rewrite nth_error_app1 in H by exact L; auto|].
  rewrite nth_error_app2 in H by exact G. destruct (k - length l)%nat as [|[|]] eqn:E; try discriminate. injection H as <-. right. split; [lia|reflexivity].
Qed.
Lemma nth_error_old {A} (l : list A) x k y : nth_error l k = Some y -> nth_error (l ++ [x]) k = Some y.
Proof. intro H. rewrite nth_error_app1; [exact H|]. apply nth_error_Some. congruence. Qed.
Lemma filter_ext_in' {A} (f g : A -> bool) l : (forall x, In x l -> f x = g x) -> filter f l = filter g l.
Proof. induction l as [|x l IH]; intro H; [reflexivity|]. cbn. rewrite (H x) by (left; reflexivity). rewrite IH; [reflexivity|]. intros y I. apply H. right. exact I. Qed.
Lemma through_new s cs cap c : through (mkAst (aChans s ++ [mkAchan cap [] []]) cs) c = through s c.
Proof.
  unfold through. cbn [aChans]. destruct (Nat.lt_ge_cases c (length (aChans s))) as [L|G]; [rewrite nth_error_app1 by exact L; reflexivity|].
  rewrite nth_error_app2 by exact G. replace (nth_error (aChans s) c) with (@None achan) by (symmetry; apply nth_error_None; exact G).
  destruct (c - length (aChans s))%nat as [|[|]]; reflexivity.
Qed.
Lemma ainv_all os s : aruns a0 os = Some s -> ainv os s.
Proof.
  revert s. induction os as [|o os IH] using rev_ind; intros s H.
  - injection H as <-. split; cbn; intros; try (destruct k; discriminate); try (destruct c; discriminate).
    + destruct c; reflexivity. + split; [constructor|contradiction]. + contradiction.
  - rewrite aruns_snoc in H. destruct (aruns a0 os) as [s0|]; [|discriminate]. destruct (IH _ eq_refl) as [C R T K [S1 S2] N]. clear IH.
    assert (NEWCALL : forall c0 x, forall s', aCalls s' = aCalls s0 ++ [mkAcall c0 None AWait] -> nth_error (aCalls s') (length (aCalls s0)) = Some x ->
       answer os (length (aCalls s0)) = None /\ ~ In (length (aCalls s0)) (sends os)).
    { intros c0 x s' E Hx. split; [|intro I; pose proof (S2 _ I); lia]. destruct (answer os (length (aCalls s0))) eqn:A; [|reflexivity]. exfalso. pose proof (N (length (aCalls s0))). rewrite A in H0. assert (length (aCalls s0) < length (aCalls s0))%nat by (apply H0; discriminate). lia. }
    assert (GOC : forall c0 chs, (forall c, through (mkAst chs (aCalls s0 ++ [mkAcall c0 None AWait])) c = through s0 c) ->
       (forall c ch, nth_error (aChans s0) c = Some ch -> nth_error chs c = Some ch) -> (exists ch, nth_error chs c0 = Some ch /\ (0 < aCap ch)%nat) ->
       (forall c ch, nth_error chs c = Some ch -> (length (aQueue ch) <= aCap ch)%nat) -> forall d, ainv (os ++ [AGo d]) (mkAst chs (aCalls s0 ++ [mkAcall c0 None AWait]))).
    { intros c0 chs HT HO HC HR d. split; cbn [aCalls aChans]; rewrite ?sends_snoc, ?app_nil_r.
      - intros k x Hx. apply nth_error_snoc in Hx as [Hx|[-> ->]]; [destruct (C _ _ Hx) as (ch & E & L); exists ch; auto|exact HC].
      - exact HR.
      - intro c. rewrite HT, T. apply filter_ext_in'. intros k I. unfold on_chan. cbn [aCalls]. rewrite nth_error_app1 by (exact (S2 _ I)). reflexivity.
      - intros k x Hx. rewrite answer_snoc. apply nth_error_snoc in Hx as [Hx|[-> ->]]; [exact (K _ _ Hx)|]. cbn.
        destruct (NEWCALL c0 (mkAcall c0 None AWait) (mkAst chs (aCalls s0 ++ [mkAcall c0 None AWait])) eq_refl) as [A1 A2]; [cbn; rewrite nth_error_app2, Nat.sub_diag by lia; reflexivity|]. auto.
      - split; [exact S1|]. intros k I. rewrite app_length. pose proof (S2 _ I). lia.
      - intro k. rewrite answer_snoc, app_length. intro A. pose proof (N k A). lia. }
    assert (RNEW : forall cap c ch, nth_error (aChans s0 ++ [mkAchan cap [] []]) c = Some ch -> (length (aQueue ch) <= aCap ch)%nat).
    { intros cap c ch Hc. apply nth_error_snoc in Hc as [Hc|[_ ->]]; [exact (R _ _ Hc)|cbn; lia]. }
    assert (OWN : forall d, ainv (os ++ [AGo d]) (mkAst (aChans s0 ++ [mkAchan 5 [] []]) (aCalls s0 ++ [mkAcall (length (aChans s0)) None AWait]))).
    { intro d. apply GOC.
      - intro c. apply through_new.
      - intros c ch E. apply nth_error_old. exact E.
      - exists (mkAchan 5 [] []). split; [rewrite nth_error_app2, Nat.sub_diag by lia; reflexivity|cbn; lia].
      - exact (RNEW 5%nat). }
    destruct o as [cap|[d|]|k e|k|c]; cbn [astep] in H.
    + injection H as <-. split; cbn [aCalls aChans]; rewrite ?sends_snoc, ?app_nil_r.
      * intros k x Hx. destruct (C _ _ Hx) as (ch & E & L). exists ch. split; [apply nth_error_old; exact E|exact L].
      * exact (RNEW cap).
      * intro c. rewrite through_new. exact (T c).
      * intros k x Hx. rewrite answer_snoc. exact (K _ _ Hx).
      * auto.
      * intro k. rewrite answer_snoc. apply N.
    + destruct (nth_error (aChans s0) d) as [ch|] eqn:E; [|discriminate]. destruct (Nat.eqb_spec (aCap ch) 0) as [Z|Z]; injection H as <-; [apply OWN|].
      apply GOC; [reflexivity|auto|exists ch; split; [exact E|lia]|exact R].
    + injection H as <-. apply OWN.
    + destruct (nth_error (aCalls s0) k) as [x|] eqn:E; [|discriminate]. destruct (aPc x) eqn:P; try discriminate. injection H as <-.
      assert (LT : (k < length (aCalls s0))%nat) by (apply nth_error_Some; congruence). pose proof (K _ _ E) as KE. rewrite P in KE. destruct KE as (A1 & A2 & A3).
      split; cbn [setCall aCalls aChans]; rewrite ?sends_snoc, ?app_nil_r.
      * intros j y Hy. rewrite list_set_nth_error in Hy by exact LT. destruct (Nat.eqb_spec j k) as [->|]; [injection Hy as <-; exact (C _ _ E)|exact (C _ _ Hy)].
      * exact R.
      * intro c. change (through (setCall s0 k (mkAcall (aChan x) e ASend)) c) with (through s0 c). rewrite T. apply filter_ext_in'. intros j I. unfold on_chan, setCall. cbn [aCalls].
        rewrite list_set_nth_error by exact LT. destruct (Nat.eqb_spec j k) as [->|]; [rewrite E; reflexivity|reflexivity].
      * intros j y Hy. rewrite answer_snoc. rewrite list_set_nth_error in Hy by exact LT. rewrite Nat.eqb_sym. destruct (Nat.eqb_spec j k) as [->|NE]; [injection Hy as <-; cbn; auto|exact (K _ _ Hy)].
      * split; [exact S1|]. intros j I. rewrite list_set_length. exact (S2 _ I).
      * intro j. rewrite answer_snoc, list_set_length. destruct (Nat.eqb_spec k j) as [->|]; [intros _; exact LT|apply N].
    + destruct (nth_error (aCalls s0) k) as [x|] eqn:E; [|discriminate]. destruct (aPc x) eqn:P; try discriminate. destruct (nth_error (aChans s0) (aChan x)) as [ch|] eqn:EC; [|discriminate].
      destruct (Nat.ltb_spec (length (aQueue ch)) (aCap ch)) as [RM|]; [|discriminate]. injection H as <-.
      assert (LT : (k < length (aCalls s0))%nat) by (apply nth_error_Some; congruence). assert (LC : (aChan x < length (aChans s0))%nat) by (apply nth_error_Some; congruence).
      pose proof (K _ _ E) as KE. rewrite P in KE. destruct KE as (A1 & A3).
      split; cbn [aCalls aChans]; rewrite ?sends_snoc.
      * intros j y Hy. rewrite list_set_nth_error in Hy by exact LT.
        assert (CC : exists ch0, nth_error (aChans s0) (aChan y) = Some ch0 /\ (0 < aCap ch0)%nat) by (destruct (Nat.eqb_spec j k) as [->|]; [injection Hy as <-; exact (C _ _ E)|exact (C _ _ Hy)]).
        destruct CC as (ch0 & E0 & L0). rewrite list_set_nth_error by exact LC. destruct (Nat.eqb_spec (aChan y) (aChan x)) as [Q|]; [|eauto].
        eexists. split; [reflexivity|]. cbn. rewrite Q, EC in E0. injection E0 as ->. exact L0.
      * intros c ch' Hc. rewrite list_set_nth_error in Hc by exact LC. destruct (Nat.eqb_spec c (aChan x)); [injection Hc as <-; cbn; rewrite app_length; cbn; lia|exact (R _ _ Hc)].
      * intro c. unfold through. cbn [aChans]. rewrite list_set_nth_error by exact LC. rewrite filter_app.
        assert (F : filter (on_chan (mkAst (list_set (aChans s0) (aChan x) (mkAchan (aCap ch) (aQueue ch ++ [k]) (aGot ch))) (list_set (aCalls s0) k (mkAcall (aChan x) (aErr x) ADone))) c) (sends os) = filter (on_chan s0 c) (sends os)).
        { apply filter_ext_in'. intros j I. unfold on_chan. cbn [aCalls]. rewrite list_set_nth_error by exact LT. destruct (Nat.eqb_spec j k) as [->|]; [rewrite E; reflexivity|reflexivity]. }
        rewrite F. cbn [filter]. unfold on_chan at 2. cbn [aCalls]. rewrite list_set_nth_error by exact LT. rewrite Nat.eqb_refl. cbn [aChan]. rewrite (Nat.eqb_sym (aChan x) c).
        pose proof (T c) as Tc. unfold through in Tc. destruct (Nat.eqb_spec c (aChan x)) as [->|].
        -- rewrite EC in Tc. cbn. rewrite app_assoc, Tc. reflexivity.
        -- rewrite app_nil_r. exact Tc.
      * intros j y Hy. rewrite answer_snoc. rewrite list_set_nth_error in Hy by exact LT. destruct (Nat.eqb_spec j k) as [->|NE].
        -- injection Hy as <-. cbn. split; [exact A1|]. apply in_or_app. right. left. reflexivity.
        -- pose proof (K _ _ Hy) as KY. assert (IN : In j (sends os ++ [k]) <-> In j (sends os)) by (rewrite in_app_iff; cbn; intuition congruence).
           destruct (aPc y); rewrite IN; exact KY.
      * split.
        -- apply (Permutation.Permutation_NoDup (l := k :: sends os)); [apply Permutation.Permutation_cons_append|]. constructor; assumption.
        -- intros j I. rewrite list_set_length. apply in_app_or in I as [I|[<-|[]]]; [exact (S2 _ I)|exact LT].
      * intro j. rewrite answer_snoc, list_set_length. apply N.
    + destruct (nth_error (aChans s0) c) as [ch|] eqn:EC; [|discriminate]. destruct (aQueue ch) as [|k q] eqn:Q; [discriminate|]. injection H as <-.
      assert (LC : (c < length (aChans s0))%nat) by (apply nth_error_Some; congruence).
      split; cbn [aCalls aChans]; rewrite ?sends_snoc, ?app_nil_r.
      * intros j y Hy. destruct (C _ _ Hy) as (ch0 & E0 & L0). rewrite list_set_nth_error by exact LC. destruct (Nat.eqb_spec (aChan y) c) as [W|]; [|eauto].
        eexists. split; [reflexivity|]. cbn. rewrite W, EC in E0. injection E0 as ->. exact L0.
      * intros c' ch' Hc. rewrite list_set_nth_error in Hc by exact LC. destruct (Nat.eqb_spec c' c); [injection Hc as <-; cbn; pose proof (R _ _ EC) as RR; rewrite Q in RR; cbn in RR; lia|exact (R _ _ Hc)].
      * intro c'. change (filter (on_chan (mkAst (list_set (aChans s0) c (mkAchan (aCap ch) q (aGot ch ++ [k]))) (aCalls s0)) c') (sends os)) with (filter (on_chan s0 c') (sends os)). rewrite <- T.
        unfold through. cbn [aChans]. rewrite list_set_nth_error by exact LC. destruct (Nat.eqb_spec c' c) as [->|]; [|reflexivity]. rewrite EC, Q. cbn. rewrite <- app_assoc. reflexivity.
      * intros j y Hy. rewrite answer_snoc. exact (K _ _ Hy).
      * auto.
      * intro j. rewrite answer_snoc. apply N.
Qed.
