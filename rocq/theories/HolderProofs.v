(* HolderProofs.v: proofs for C77. *)
From Verif Require Import Base Lists HolderModel HolderSpec.
Ltac Zify.zify_post_hook ::= idtac.

Lemma upd {A} (l : list A) k old v j : nth_error l k = Some old -> nth_error (list_set l k v) j = if Nat.eqb j k then Some v else nth_error l j.
Proof. intro H. apply list_set_nth_error. apply nth_error_Some. congruence. Qed.
Arguments upd {A l k old} v j _.
Lemma app_old {A} (l r : list A) k x : nth_error l k = Some x -> nth_error (l ++ r) k = Some x.
Proof. intro H. rewrite nth_error_app1; [exact H|]. apply nth_error_Some. congruence. Qed.
Lemma app_new {A} (l : list A) y k x : nth_error (l ++ [y]) k = Some x -> nth_error l k = Some x \/ (k = length l /\ x = y).
Proof.
  intro H. destruct (Nat.lt_ge_cases k (length l)) as [L|G].
  - rewrite nth_error_app1 in H by exact L. left. exact H.
  - rewrite nth_error_app2 in H by exact G. destruct (k - length l) as [|n] eqn:E; [|destruct n; discriminate H]. injection H as <-. right. split; [lia|reflexivity].
Qed.

Definition ref (p : jpc) : option nat := match p with JHold h | JRead h | JSlow h => Some h | _ => None end.
Record inv (s : hst) : Prop := mkInv {
  i_map : forall svc h, aget bs_eqb (hMap s) svc = Some h -> exists o, nth_error (hHold s) h = Some o /\ hoSvc o = svc;
  i_hold : forall h o, nth_error (hHold s) h = Some o -> hoInit o = true -> hoCl o <> None;
  i_cl : forall h o c, nth_error (hHold s) h = Some o -> hoCl o = Some c -> exists x, nth_error (hClu s) c = Some x /\ cSvc x = hoSvc o /\ (hoInit o = true -> cDead x = 0);
  i_own : forall h h' o o' c, nth_error (hHold s) h = Some o -> nth_error (hHold s) h' = Some o' -> hoCl o = Some c -> hoCl o' = Some c -> h = h';
  i_dead : forall c x, nth_error (hClu s) c = Some x -> cDead x <= 1;
  i_live : forall c x, nth_error (hClu s) c = Some x -> cDead x = 0 -> exists h o, nth_error (hHold s) h = Some o /\ hoInit o = true /\ hoCl o = Some c;
  i_read : forall j x h, nth_error (hJobs s) j = Some x -> jPc x = JRead h -> exists o, nth_error (hHold s) h = Some o /\ hoCl o <> None;
  i_ref : forall j x h, nth_error (hJobs s) j = Some x -> ref (jPc x) = Some h -> exists o, nth_error (hHold s) h = Some o /\ hoSvc o = jSvc x;
  i_done : forall j x oc, nth_error (hJobs s) j = Some x -> jPc x = JDone oc -> exists c y, oc = Some c /\ nth_error (hClu s) c = Some y /\ cSvc y = jSvc x }.
Arguments i_map {s}. Arguments i_hold {s}. Arguments i_cl {s}. Arguments i_own {s}. Arguments i_dead {s}. Arguments i_live {s}.
Arguments i_read {s}. Arguments i_ref {s}. Arguments i_done {s}.

Lemma inv_init : inv hinit.
Proof.
  assert (NE : forall A k (x : A), nth_error [] k <> Some x) by (intros A k x; destruct k; discriminate).
  constructor; cbn; intros; try discriminate; exfalso; eapply NE; eassumption.
Qed.
(* a job goes on, nothing else changes *)
Lemma inv_job s j x p : inv s -> nth_error (hJobs s) j = Some x ->
  (forall h, p = JRead h -> exists o, nth_error (hHold s) h = Some o /\ hoCl o <> None) ->
  (forall h, ref p = Some h -> exists o, nth_error (hHold s) h = Some o /\ hoSvc o = jSvc x) ->
  (forall oc, p = JDone oc -> exists c y, oc = Some c /\ nth_error (hClu s) c = Some y /\ cSvc y = jSvc x) ->
  inv (setJob s j (mkJob (jSvc x) p)).
Proof.
  intros I H A B C. constructor; cbn [setJob hMap hHold hClu hJobs hKilling]; try apply I.
  - intros k y h Y E. rewrite (upd _ _ H) in Y. destruct (k =? j); [injection Y as <-; apply A, E|apply (i_read I _ _ _ Y E)].
  - intros k y h Y E. rewrite (upd _ _ H) in Y. destruct (k =? j); [injection Y as <-; apply B, E|apply (i_ref I _ _ _ Y E)].
  - intros k y oc Y E. rewrite (upd _ _ H) in Y. destruct (k =? j); [injection Y as <-; apply C, E|apply (i_done I _ _ _ Y E)].
Qed.
Lemma inv_newholder s svc : inv s -> aget bs_eqb (hMap s) svc = None ->
  inv (mkHst (hKilling s) (aset bs_eqb (hMap s) svc (length (hHold s))) (hHold s ++ [mkHo svc false None]) (hClu s) (hJobs s)).
Proof.
  intros I N. constructor; cbn [hMap hHold hClu hJobs hKilling].
  - intros k h H. rewrite (aget_aset bs_eqb bs_eqb_spec) in H. destruct (bs_eqb k svc) eqn:E.
    + injection H as <-. apply bs_eqb_spec in E. subst. eexists. rewrite nth_error_app2, Nat.sub_diag by lia. split; reflexivity.
    + destruct (i_map I _ _ H) as (o & A & B). exists o. split; [apply app_old, A|exact B].
  - intros h o H. destruct (app_new _ _ _ _ H) as [H'|(-> & ->)]; [apply (i_hold I _ _ H')|discriminate].
  - intros h o c H E. destruct (app_new _ _ _ _ H) as [H'|(-> & ->)]; [apply (i_cl I _ _ _ H' E)|discriminate].
  - intros h h' o o' c H H' E E'. destruct (app_new _ _ _ _ H) as [K|(-> & ->)]; [|discriminate]. destruct (app_new _ _ _ _ H') as [K'|(-> & ->)]; [|discriminate].
    apply (i_own I _ _ _ _ _ K K' E E').
  - apply (i_dead I).
  - intros c x H E. destruct (i_live I _ _ H E) as (h & o & A & B). exists h, o. split; [apply app_old, A|exact B].
  - intros j x h H E. destruct (i_read I _ _ _ H E) as (o & A & B). exists o. split; [apply app_old, A|exact B].
  - intros j x h H E. destruct (i_ref I _ _ _ H E) as (o & A & B). exists o. split; [apply app_old, A|exact B].
  - apply (i_done I).
Qed.
Lemma cl_bound s h o c : inv s -> nth_error (hHold s) h = Some o -> hoCl o = Some c -> c < length (hClu s).
Proof. intros I H E. destruct (i_cl I _ _ _ H E) as (x & A & _). apply nth_error_Some. congruence. Qed.
Lemma inv_newcluster s h o : inv s -> nth_error (hHold s) h = Some o -> hoInit o = false ->
  inv (mkHst (hKilling s) (hMap s) (list_set (hHold s) h (mkHo (hoSvc o) true (Some (length (hClu s))))) (hClu s ++ [mkClu (hoSvc o) 0]) (hJobs s)).
Proof.
  intros I H F. set (o' := mkHo (hoSvc o) true (Some (length (hClu s)))).
  assert (Old : forall k y, nth_error (hHold s) k = Some y -> exists z, nth_error (list_set (hHold s) h o') k = Some z /\ hoSvc z = hoSvc y /\ (hoCl y <> None -> hoCl z <> None)).
  { intros k y Y. rewrite (upd _ _ H). destruct (Nat.eqb_spec k h) as [->|]; [|exists y; tauto]. exists o'. split; [reflexivity|].
    assert (y = o) by congruence. subst y. split; [reflexivity|]. cbn. intros _. discriminate. }
  constructor; cbn [hMap hHold hClu hJobs hKilling].
  - intros k g E. destruct (i_map I _ _ E) as (y & A & B). destruct (Old _ _ A) as (z & Z & S & _). exists z. split; [exact Z|congruence].
  - intros k y Y. rewrite (upd _ _ H) in Y. destruct (k =? h); [injection Y as <-; discriminate|apply (i_hold I _ _ Y)].
  - intros k y c Y E. rewrite (upd _ _ H) in Y. destruct (k =? h).
    + injection Y as <-. injection E as <-. eexists. rewrite nth_error_app2, Nat.sub_diag by lia. split; [reflexivity|]. split; reflexivity.
    + destruct (i_cl I _ _ _ Y E) as (x & A & B). exists x. split; [apply app_old, A|exact B].
  - intros k k' y y' c Y Y' E E'. rewrite (upd _ _ H) in Y. rewrite (upd _ _ H) in Y'. destruct (Nat.eqb_spec k h) as [->|N], (Nat.eqb_spec k' h) as [->|N'].
    + reflexivity.
    + injection Y as <-. injection E as <-. pose proof (cl_bound _ _ _ _ I Y' E'). lia.
    + injection Y' as <-. injection E' as <-. pose proof (cl_bound _ _ _ _ I Y E). lia.
    + apply (i_own I _ _ _ _ _ Y Y' E E').
  - intros c x X. destruct (app_new _ _ _ _ X) as [X'|(-> & ->)]; [apply (i_dead I _ _ X')|cbn; lia].
  - intros c x X D. destruct (app_new _ _ _ _ X) as [X'|(-> & ->)].
    + destruct (i_live I _ _ X' D) as (k & y & A & B & C). exists k, y. rewrite (upd _ _ H). destruct (Nat.eqb_spec k h) as [->|]; [|tauto].
      assert (y = o) by congruence. subst y. congruence.
    + exists h, o'. rewrite (upd _ _ H), Nat.eqb_refl. repeat split.
  - intros j x g X E. destruct (i_read I _ _ _ X E) as (y & A & B). destruct (Old _ _ A) as (z & Z & S & C). exists z. split; [exact Z|apply C, B].
  - intros j x g X E. destruct (i_ref I _ _ _ X E) as (y & A & B). destruct (Old _ _ A) as (z & Z & S & _). exists z. split; [exact Z|congruence].
  - intros j x oc X E. destruct (i_done I _ _ _ X E) as (c & y & A & B & C). exists c, y. split; [exact A|]. split; [apply app_old, B|exact C].
Qed.
Lemma inv_kill s h : inv s -> inv (killHolder s h).
Proof.
  intro I. unfold killHolder. destruct (nth_error (hHold s) h) as [o|] eqn:H; [|exact I]. destruct (hoInit o) eqn:F; [|exact I].
  destruct (hoCl o) as [c|] eqn:E; [|destruct (i_hold I _ _ H F E)]. cbn [setHold hClu].
  destruct (i_cl I _ _ _ H E) as (x & X & S & D). rewrite X. specialize (D F).
  set (o' := mkHo (hoSvc o) false (Some c)). set (x' := mkClu (cSvc x) (Datatypes.S (cDead x))).
  assert (Old : forall k y, nth_error (hHold s) k = Some y -> exists z, nth_error (list_set (hHold s) h o') k = Some z /\ hoSvc z = hoSvc y /\ hoCl z = hoCl y).
  { intros k y Y. rewrite (upd _ _ H). destruct (Nat.eqb_spec k h) as [->|]; [|exists y; tauto]. exists o'. assert (y = o) by congruence. subst y. cbn. rewrite E. repeat split. }
  assert (OldC : forall k y, nth_error (hClu s) k = Some y -> exists z, nth_error (list_set (hClu s) c x') k = Some z /\ cSvc z = cSvc y).
  { intros k y Y. rewrite (upd _ _ X). destruct (Nat.eqb_spec k c) as [->|]; [|exists y; tauto]. exists x'. assert (y = x) by congruence. subst y. repeat split. }
  constructor; unfold setClu, setHold; cbn [hMap hHold hClu hJobs hKilling].
  - intros k g Q. destruct (i_map I _ _ Q) as (y & A & B). destruct (Old _ _ A) as (z & Z & S1 & _). exists z. split; [exact Z|congruence].
  - intros k y Y. rewrite (upd _ _ H) in Y. destruct (k =? h); [injection Y as <-; discriminate|apply (i_hold I _ _ Y)].
  - intros k y d Y Q. rewrite (upd _ _ H) in Y. destruct (Nat.eqb_spec k h) as [->|N].
    + injection Y as <-. injection Q as <-. exists x'. rewrite (upd _ _ X), Nat.eqb_refl. split; [reflexivity|]. split; [exact S|discriminate].
    + destruct (i_cl I _ _ _ Y Q) as (z & A & B & C). rewrite (upd _ _ X). destruct (Nat.eqb_spec d c) as [->|]; [|exists z; tauto].
      destruct N. apply (i_own I _ _ _ _ _ Y H Q E).
  - intros k k' y y' d Y Y' Q Q'. rewrite (upd _ _ H) in Y. rewrite (upd _ _ H) in Y'.
    assert (G : forall k y, (if k =? h then Some o' else nth_error (hHold s) k) = Some y -> hoCl y = Some d -> exists w, nth_error (hHold s) k = Some w /\ hoCl w = Some d).
    { clear -H E. intros k y Y Q. destruct (Nat.eqb_spec k h) as [->|]; [|exists y; tauto]. injection Y as <-. exists o. split; [exact H|]. rewrite E. exact Q. }
    destruct (G _ _ Y Q) as (w & W1 & W2). destruct (G _ _ Y' Q') as (w' & W1' & W2'). apply (i_own I _ _ _ _ _ W1 W1' W2 W2').
  - intros d y Y. rewrite (upd _ _ X) in Y. destruct (d =? c); [injection Y as <-; cbn; lia|apply (i_dead I _ _ Y)].
  - intros d y Y Q. rewrite (upd _ _ X) in Y. destruct (Nat.eqb_spec d c) as [->|N]; [injection Y as <-; discriminate Q|].
    destruct (i_live I _ _ Y Q) as (k & z & A & B & C). exists k, z. rewrite (upd _ _ H). destruct (Nat.eqb_spec k h) as [->|]; [|tauto].
    assert (z = o) by congruence. subst z. congruence.
  - intros j y g Y Q. destruct (i_read I _ _ _ Y Q) as (w & A & B). destruct (Old _ _ A) as (z & Z & _ & C). exists z. split; [exact Z|congruence].
  - intros j y g Y Q. destruct (i_ref I _ _ _ Y Q) as (w & A & B). destruct (Old _ _ A) as (z & Z & S1 & _). exists z. split; [exact Z|congruence].
  - intros j y oc Y Q. destruct (i_done I _ _ _ Y Q) as (d & z & A & B & C). destruct (OldC _ _ B) as (w & W & S1). exists d, w. split; [exact A|]. split; [exact W|congruence].
Qed.
Lemma inv_lock s k m : inv s -> (forall svc h, aget bs_eqb m svc = Some h -> aget bs_eqb (hMap s) svc = Some h) -> inv (mkHst k m (hHold s) (hClu s) (hJobs s)).
Proof. intros I A. constructor; cbn [hMap hHold hClu hJobs hKilling]; try apply I. intros svc h H. apply (i_map I), A, H. Qed.
Lemma hstep_inv s o s' : hstep s o = Some s' -> inv s -> inv s'.
Proof.
  intros H I. destruct o as [svc|j| |i|]; cbn [hstep] in H.
  - injection H as <-. constructor; cbn [hMap hHold hClu hJobs hKilling]; try apply I.
    + intros j x h X E. destruct (app_new _ _ _ _ X) as [X'|(-> & ->)]; [apply (i_read I _ _ _ X' E)|discriminate E].
    + intros j x h X E. destruct (app_new _ _ _ _ X) as [X'|(-> & ->)]; [apply (i_ref I _ _ _ X' E)|discriminate E].
    + intros j x h X E. destruct (app_new _ _ _ _ X) as [X'|(-> & ->)]; [apply (i_done I _ _ _ X' E)|discriminate E].
  - destruct (nth_error (hJobs s) j) as [x|] eqn:X; [|discriminate H]. unfold jstep in H. destruct (jPc x) as [| |h|h|h|oc] eqn:P.
    + destruct (hKilling s); [discriminate H|]. injection H as <-. apply (inv_job _ _ _ _ I X).
      * intros h E. destruct (aget _ _ _); discriminate E.
      * intros h E. destruct (aget bs_eqb (hMap s) (jSvc x)) as [h'|] eqn:M; [|discriminate E]. injection E as <-. apply (i_map I _ _ M).
      * intros oc E. destruct (aget _ _ _); discriminate E.
    + destruct (hKilling s) eqn:Kl; [discriminate H|]. destruct (aget bs_eqb (hMap s) (jSvc x)) as [h|] eqn:M; injection H as <-.
      * apply (inv_job _ _ _ _ I X); try discriminate. intros h' E. injection E as <-. apply (i_map I _ _ M).
      * pose proof (inv_newholder _ _ I M) as I2. rewrite Kl in I2. apply (inv_job _ j x (JHold (length (hHold s))) I2 X); try discriminate.
        intros h' E. injection E as <-. cbn [hHold]. eexists. rewrite nth_error_app2, Nat.sub_diag by lia. split; reflexivity.
    + destruct (nth_error (hHold s) h) as [o|] eqn:O; [|discriminate H]. injection H as <-.
      destruct (i_ref I _ _ h X) as (o2 & A & B); [rewrite P; reflexivity|]. assert (o2 = o) by congruence. subst o2.
      destruct (hoInit o) eqn:F; apply (inv_job _ _ _ _ I X); try discriminate; intros h' E; injection E as <-.
      * exists o. split; [exact O|apply (i_hold I _ _ O F)].
      * exists o. tauto.
      * exists o. tauto.
    + destruct (nth_error (hHold s) h) as [o|] eqn:O; [|discriminate H]. injection H as <-.
      destruct (i_ref I _ _ h X) as (o2 & A & B); [rewrite P; reflexivity|]. assert (o2 = o) by congruence. subst o2.
      destruct (i_read I _ _ _ X P) as (o2 & A2 & C). assert (o2 = o) by congruence. subst o2.
      apply (inv_job _ _ _ _ I X); try discriminate. intros oc E. injection E as <-. destruct (hoCl o) as [c|] eqn:Q; [|contradiction].
      destruct (i_cl I _ _ _ O Q) as (y & Y & S & _). exists c, y. split; [reflexivity|]. split; [exact Y|congruence].
    + destruct (nth_error (hHold s) h) as [o|] eqn:O; [|discriminate H].
      destruct (i_ref I _ _ h X) as (o2 & A & B); [rewrite P; reflexivity|]. assert (o2 = o) by congruence. subst o2.
      destruct (hoInit o) eqn:F; injection H as <-.
      * apply (inv_job _ _ _ _ I X); try discriminate. intros oc E. injection E as <-. destruct (hoCl o) as [c|] eqn:Q; [|destruct (i_hold I _ _ O F Q)].
        destruct (i_cl I _ _ _ O Q) as (y & Y & S & _). exists c, y. split; [reflexivity|]. split; [exact Y|congruence].
      * pose proof (inv_newcluster _ _ _ I O F) as I2. apply (inv_job _ j x (JDone (Some (length (hClu s)))) I2 X); try discriminate.
        intros oc E. injection E as <-. cbn [hClu]. eexists. eexists. split; [reflexivity|]. rewrite nth_error_app2, Nat.sub_diag by lia. split; [reflexivity|exact B].
    + discriminate H.
  - destruct (hKilling s); [discriminate H|]. injection H as <-. apply inv_lock; [exact I|tauto].
  - destruct (hKilling s) as [l|]; [|discriminate H]. destruct (nth_error l i) as [h|]; [|discriminate H]. injection H as <-.
    apply (inv_lock (killHolder s h)); [apply inv_kill, I|tauto].
  - destruct (hKilling s) as [[|]|]; try discriminate H. injection H as <-. apply inv_lock; [exact I|]. intros svc h E. discriminate E.
Qed.
Lemma hruns_inv os : forall s s', hruns s os = Some s' -> inv s -> inv s'.
Proof.
  induction os as [|o os IH]; intros s s' H I; cbn [hruns] in H; [injection H as <-; exact I|].
  destruct (hstep s o) as [s1|] eqn:E; [|discriminate H]. apply (IH s1 s' H). apply (hstep_inv _ _ _ E I).
Qed.

(* without Destroy every holder is in the map and nothing is destroyed *)
Record ninv (s : hst) : Prop := mkNinv {
  n_kill : hKilling s = None;
  n_map : forall h o, nth_error (hHold s) h = Some o -> aget bs_eqb (hMap s) (hoSvc o) = Some h;
  n_live : forall c x, nth_error (hClu s) c = Some x -> cDead x = 0 }.
Arguments n_kill {s}. Arguments n_map {s}. Arguments n_live {s}.
Lemma ninv_init : ninv hinit.
Proof. constructor; [reflexivity| |]; intros k x H; destruct k; discriminate H. Qed.
Lemma ninv_step s o s' : hstep s o = Some s' -> o <> HDestroy -> ninv s -> ninv s'.
Proof.
  intros H N I. pose proof (n_kill I) as K. destruct o as [svc|j| |i|]; cbn [hstep] in H; try rewrite K in H; try discriminate H; try contradiction.
  - injection H as <-. constructor; [reflexivity|apply I|apply I].
  - destruct (nth_error (hJobs s) j) as [x|]; [|discriminate H]. unfold jstep in H. rewrite K in H.
    assert (J : forall y, ninv (setJob s j y)) by (intro y; constructor; apply I).
    destruct (jPc x) as [| |h|h|h|oc].
    + injection H as <-. apply J.
    + destruct (aget bs_eqb (hMap s) (jSvc x)) as [h|] eqn:M; injection H as <-; [apply J|].
      constructor; cbn [setJob hKilling hMap hHold hClu]; [reflexivity| |apply I].
      intros h o O. rewrite (aget_aset bs_eqb bs_eqb_spec). destruct (app_new _ _ _ _ O) as [O'|(-> & ->)].
      * destruct (bs_eqb (hoSvc o) (jSvc x)) eqn:E; [|apply (n_map I _ _ O')]. apply bs_eqb_spec in E. pose proof (n_map I _ _ O') as Q. rewrite E, M in Q. discriminate Q.
      * cbn [hoSvc]. rewrite bs_eqb_refl. reflexivity.
    + destruct (nth_error (hHold s) h); [|discriminate H]. injection H as <-. apply J.
    + destruct (nth_error (hHold s) h); [|discriminate H]. injection H as <-. apply J.
    + destruct (nth_error (hHold s) h) as [o|] eqn:O; [|discriminate H]. destruct (hoInit o); injection H as <-; [apply J|].
      constructor; cbn [setJob hKilling hMap hHold hClu]; [reflexivity| |].
      * intros k y Y. rewrite (upd _ _ O) in Y. destruct (Nat.eqb_spec k h) as [->|]; [injection Y as <-; apply (n_map I _ _ O)|apply (n_map I _ _ Y)].
      * intros c y Y. destruct (app_new _ _ _ _ Y) as [Y'|(-> & ->)]; [apply (n_live I _ _ Y')|reflexivity].
    + discriminate H.
Qed.
Lemma ninv_runs os : forall s s', hruns s os = Some s' -> ~ In HDestroy os -> ninv s -> ninv s'.
Proof.
  induction os as [|o os IH]; intros s s' H N I; cbn [hruns] in H; [injection H as <-; exact I|].
  destruct (hstep s o) as [s1|] eqn:E; [|discriminate H]. apply (IH s1 s' H); [intro X; apply N; right; exact X|].
  apply (ninv_step _ _ _ E); [|exact I]. intros ->. apply N. left. reflexivity.
Qed.
Lemma one_cluster s c c' x x' : inv s -> ninv s -> nth_error (hClu s) c = Some x -> nth_error (hClu s) c' = Some x' -> cSvc x = cSvc x' -> c = c'.
Proof.
  intros I J X X' E. destruct (i_live I _ _ X (n_live J _ _ X)) as (h & o & A & _ & C). destruct (i_live I _ _ X' (n_live J _ _ X')) as (h' & o' & A' & _ & C').
  destruct (i_cl I _ _ _ A C) as (y & Y & S1 & _). destruct (i_cl I _ _ _ A' C') as (y' & Y' & S1' & _).
  pose proof (n_map J _ _ A) as M. pose proof (n_map J _ _ A') as M'.
  assert (hoSvc o = hoSvc o') as Q by congruence. rewrite Q, M' in M. injection M as <-. congruence.
Qed.

(* Destroy without calls under way *)
Definition dying (s : hst) : Prop := exists l, hKilling s = Some l /\ quiet s /\ forall h o, nth_error (hHold s) h = Some o -> hoInit o = true -> In h l.
Lemma kill_hold s h k y : nth_error (hHold (killHolder s h)) k = Some y -> hoInit y = true -> inv s -> k <> h /\ nth_error (hHold s) k = Some y.
Proof.
  unfold killHolder. intros H F I. destruct (nth_error (hHold s) h) as [o|] eqn:O.
  - destruct (hoInit o) eqn:Fo.
    + assert (G : nth_error (list_set (hHold s) h (mkHo (hoSvc o) false (hoCl o))) k = Some y).
      { destruct (hoCl o) as [c|]; [cbn [setHold hClu] in H; destruct (nth_error (hClu s) c)|]; exact H. }
      rewrite (upd _ _ O) in G. destruct (Nat.eqb_spec k h); [injection G as <-; discriminate F|tauto].
    + split; [intros ->; congruence|exact H].
  - split; [intros ->; congruence|exact H].
Qed.
Lemma kill_rest s h : hJobs (killHolder s h) = hJobs s.
Proof. unfold killHolder. destruct (nth_error _ _); [|reflexivity]. destruct (hoInit _); [|reflexivity]. destruct (hoCl _); [|reflexivity]. cbn. destruct (nth_error _ _); reflexivity. Qed.
Lemma dying_step s o s' : hstep s o = Some s' -> o <> HEnd -> inv s -> dying s -> dying s'.
Proof.
  intros H N I (l & K & Q & D). destruct o as [svc|j| |i|]; cbn [hstep] in H; try contradiction.
  - injection H as <-. exists l. split; [exact K|]. split; [|exact D]. intros x X. cbn [hJobs] in X. apply in_app_iff in X. destruct X as [X|[<-|[]]]; [apply Q, X|exact Logic.I].
  - destruct (nth_error (hJobs s) j) as [x|] eqn:X; [|discriminate H]. pose proof (Q _ (nth_error_In _ _ X)) as P. unfold jstep in H. rewrite K in H.
    destruct (jPc x); try contradiction; discriminate H.
  - rewrite K in H. discriminate H.
  - rewrite K in H. destruct (nth_error l i) as [h|] eqn:L; [|discriminate H]. injection H as <-. eexists. split; [reflexivity|]. split.
    + intros x X. apply Q. cbn [hJobs] in X. rewrite kill_rest in X. exact X.
    + cbn [hHold]. intros k y Y F. destruct (kill_hold _ _ _ _ Y F I) as (Nk & Y'). pose proof (D _ _ Y' F) as In1.
      destruct (nth_error_split _ _ L) as (l1 & l2 & -> & <-). apply in_app_iff in In1.
      apply in_app_iff. rewrite firstn_app_exact. assert (Sk : skipn (Datatypes.S (length l1)) (l1 ++ h :: l2) = l2) by (clear; induction l1 as [|a l1 IH]; [reflexivity|exact IH]).
      destruct In1 as [A|[A|A]]; [left; exact A|congruence|right]. change (In k (skipn (Datatypes.S (length l1)) (l1 ++ h :: l2))). rewrite Sk. exact A.
Qed.
Lemma dying_runs os : forall s s', hruns s os = Some s' -> ~ In HEnd os -> inv s -> dying s -> dying s'.
Proof.
  induction os as [|o os IH]; intros s s' H N I D; cbn [hruns] in H; [injection H as <-; exact D|].
  destruct (hstep s o) as [s1|] eqn:E; [|discriminate H]. apply (IH s1 s' H).
  - intro X; apply N; right; exact X.
  - apply (hstep_inv _ _ _ E I).
  - apply (dying_step _ _ _ E); [|exact I|exact D]. intros ->. apply N. left. reflexivity.
Qed.
Lemma destroy_all os s s1 os2 s2 s3 : hruns hinit os = Some s -> ~ In HDestroy os -> quiet s -> hstep s HDestroy = Some s1 ->
  hruns s1 os2 = Some s2 -> ~ In HEnd os2 -> hstep s2 HEnd = Some s3 -> forall c, ~ alive s3 c.
Proof.
  intros R N Q H R2 N2 E c (x & X & F).
  pose proof (hruns_inv _ _ _ R inv_init) as I. pose proof (ninv_runs _ _ _ R N ninv_init) as J.
  pose proof (hstep_inv _ _ _ H I) as I1.
  assert (D : dying s1).
  { cbn [hstep] in H. rewrite (n_kill J) in H. injection H as <-. eexists. split; [reflexivity|]. split; [exact Q|]. cbn [hHold]. intros h o O _.
    pose proof (n_map J _ _ O) as M. apply (aget_In bs_eqb bs_eqb_spec) in M. apply (in_map snd) in M. exact M. }
  pose proof (hruns_inv _ _ _ R2 I1) as I2. destruct (dying_runs _ _ _ R2 N2 I1 D) as (l & K & _ & D2).
  cbn [hstep] in E. rewrite K in E. destruct l; [|discriminate E]. injection E as <-. cbn [hClu] in X.
  destruct (i_live I2 _ _ X F) as (h & o & A & B & _). destruct (D2 _ _ A B).
Qed.
