(* DiscProofs.v: proofs for C78. *)
From Verif Require Import Base Lists HolderProofs DiscModel DiscSpec.
Ltac Zify.zify_post_hook ::= idtac.
Open Scope Z_scope.

Fixpoint spaced (l : list answered) : Prop := match l with [] => True | a :: r => (forall b, In b r -> aTime b + maxAge <= aTime a) /\ spaced r end.
Definition mine (i : info) (s : dst) : list answered := answers (iReg i) (iGrp i) (dLog s).
Definition busy (w : work) (k : nat) : bool := match w with WMap j _ | WTime j => Nat.eqb j k | _ => false end.
Record iok (w : work) (now : Z) (m : list answered) (k : nat) (i : info) : Prop := mkIok {
  o_map : match w with
          | WMap j l => if Nat.eqb j k then exists a r, m = a :: r /\ aList a = l /\ iMap i = newest r else iMap i = newest m
          | _ => iMap i = newest m
          end;
  o_spaced : spaced m;
  o_time : busy w k = false -> forall a, In a m -> exists t, iTime i = Some t /\ aTime a <= t;
  o_query : w = WQuery k -> forall a, In a m -> aTime a + maxAge <= now }.
Arguments o_map {w now m k i}. Arguments o_spaced {w now m k i}. Arguments o_time {w now m k i}. Arguments o_query {w now m k i}.
Definition workOn (w : work) : option nat := match w with WIdle => None | WQuery k | WMap k _ | WTime k => Some k end.
Lemma iok_later w now now' m k i : iok w now m k i -> now <= now' -> iok w now' m k i.
Proof. intros O L. constructor; try apply O. intros W a A. pose proof (o_query O W a A). lia. Qed.
(* a job of the worker on another group changes nothing *)
Lemma iok_other w w' now m k i : workOn w <> Some k -> workOn w' <> Some k -> iok w now m k i -> iok w' now m k i.
Proof.
  intros N N' O.
  assert (X : forall w, workOn w <> Some k -> busy w k = false /\ (forall P Q : Prop, (match w with WMap j _ => if Nat.eqb j k then P else Q | _ => Q end) <-> Q)).
  { clear. intros w N. destruct w as [|j|j l|j]; cbn in N |- *; try (destruct (Nat.eqb_spec j k) as [->|]; [congruence|]); split; try reflexivity; intros; try tauto. }
  destruct (X _ N) as (Bw & Mw). destruct (X _ N') as (Bw' & Mw'). constructor.
  - pose proof (o_map O) as M. destruct w as [|j|j l|j], w' as [|j'|j' l'|j']; cbn in N, N'; try (destruct (Nat.eqb_spec j k) as [->|]; [congruence|]);
      try (destruct (Nat.eqb_spec j' k) as [->|]; [congruence|]); exact M.
  - apply (o_spaced O).
  - intros _. apply (o_time O Bw).
  - intros ->. destruct N'. reflexivity.
Qed.
Record dinv (ps : list (bs * bs)) (s : dst) : Prop := mkDinv {
  v_key : forall kk k, aget bs_eqb (dKeys s) kk = Some k -> exists i, nth_error (dInfo s) k = Some i /\ kk = key (iReg i) (iGrp i);
  v_info : forall k i, nth_error (dInfo s) k = Some i -> aget bs_eqb (dKeys s) (key (iReg i) (iGrp i)) = Some k /\ In (iReg i, iGrp i) ps;
  v_log : forall a, In a (dLog s) -> aTime a <= dNow s /\ exists k i, nth_error (dInfo s) k = Some i /\ iReg i = aReg a /\ iGrp i = aGrp a;
  v_ok : forall k i, nth_error (dInfo s) k = Some i -> iok (dWork s) (dNow s) (mine i s) k i;
  v_work : forall k, workOn (dWork s) = Some k -> nth_error (dInfo s) k <> None }.
Arguments v_key {ps s}. Arguments v_info {ps s}. Arguments v_log {ps s}. Arguments v_ok {ps s}. Arguments v_work {ps s}.

Lemma answers_cons r g a l : answers r g (a :: l) = (if bs_eqb (aReg a) r && bs_eqb (aGrp a) g then [a] else []) ++ answers r g l.
Proof. unfold answers. cbn [filter]. destruct (_ && _); reflexivity. Qed.
Lemma answers_In r g l a : In a (answers r g l) -> In a l /\ aReg a = r /\ aGrp a = g.
Proof. unfold answers. intro H. apply filter_In in H. destruct H as (H & E). apply andb_true_iff in E. destruct E as (A & B). apply bs_eqb_spec in A, B. tauto. Qed.
Lemma own ps s k k' i i' : dinv ps s -> nth_error (dInfo s) k = Some i -> nth_error (dInfo s) k' = Some i' -> iReg i = iReg i' -> iGrp i = iGrp i' -> k = k'.
Proof. intros I H H' A B. destruct (v_info I _ _ H) as (E & _). destruct (v_info I _ _ H') as (E' & _). rewrite A, B in E. congruence. Qed.
Arguments own {ps s k k' i i'}.
(* an answer about another group changes nothing *)
Lemma other r g r' g' l t log : ~ (r = r' /\ g = g') -> answers r' g' (mkAns r g l t :: log) = answers r' g' log.
Proof.
  intro N. rewrite answers_cons. cbn [aReg aGrp]. destruct (bs_eqb r r') eqn:A; [|reflexivity]. destruct (bs_eqb g g') eqn:B; [|reflexivity].
  apply bs_eqb_spec in A, B. destruct N. tauto.
Qed.
Lemma same r g l t log : answers r g (mkAns r g l t :: log) = mkAns r g l t :: answers r g log.
Proof. rewrite answers_cons. cbn [aReg aGrp]. rewrite !bs_eqb_refl. reflexivity. Qed.

Lemma dinv_init ps : dinv ps dinit.
Proof. constructor; cbn; intros; try discriminate; try contradiction; destruct k; discriminate. Qed.
Lemma dinv_more ps ps' s : dinv ps s -> incl ps ps' -> dinv ps' s.
Proof. intros I L. constructor; try apply I. intros k i H. destruct (v_info I _ _ H). split; [assumption|apply L; assumption]. Qed.
Lemma step_dinv ps s o s' : dstep s o = Some s' -> dinv ps s -> (forall p, In p (pairOf o) -> In p ps) -> dinv ps s'.
Proof.
  unfold dstep. intros H I P. destruct (Z.ltb_spec (opNow o) (dNow s)) as [|T]; [discriminate H|].
  destruct o as [reg grp res now|reg grp now|now|res now|now|now]; cbn [opNow] in T; cbn [dstep1] in H.
  - destruct (aget bs_eqb (dKeys s) (key reg grp)) eqn:K; [discriminate H|].
    set (i0 := match res with Some l => mkInfo reg grp (Some now) l | None => mkInfo reg grp None [] end) in *.
    assert (I0 : iReg i0 = reg /\ iGrp i0 = grp) by (unfold i0; destruct res; split; reflexivity). destruct I0 as (Ir & Ig).
    assert (New : forall k i, nth_error (dInfo s) k = Some i -> ~ (reg = iReg i /\ grp = iGrp i)).
    { intros k i H1 (-> & ->). destruct (v_info I _ _ H1) as (E & _). congruence. }
    assert (None0 : answers reg grp (dLog s) = []).
    { destruct (answers reg grp (dLog s)) as [|a r] eqn:E; [reflexivity|]. exfalso. destruct (answers_In reg grp (dLog s) a) as (A & B & C); [rewrite E; left; reflexivity|].
      destruct (v_log I _ A) as (_ & k & i & X & Y & Z). apply (New _ _ X). split; congruence. }
    injection H as <-. constructor; cbn [dKeys dInfo dLog dNow].
    + intros kk k E. rewrite (aget_aset bs_eqb bs_eqb_spec) in E. destruct (bs_eqb kk (key reg grp)) eqn:Q.
      * injection E as <-. apply bs_eqb_spec in Q. exists i0. rewrite nth_error_app2, Nat.sub_diag by lia. split; [reflexivity|]. rewrite Ir, Ig. exact Q.
      * destruct (v_key I _ _ E) as (i & A & B). exists i. split; [apply app_old, A|exact B].
    + intros k i E. rewrite (aget_aset bs_eqb bs_eqb_spec). destruct (app_new _ _ _ _ E) as [E'|(-> & ->)].
      * destruct (v_info I _ _ E') as (A & B). split; [|exact B]. destruct (bs_eqb _ _) eqn:Q; [|exact A]. apply bs_eqb_spec in Q. rewrite Q, K in A. discriminate A.
      * rewrite Ir, Ig, bs_eqb_refl. split; [reflexivity|]. apply P. left. reflexivity.
    + assert (Old : forall a, In a (dLog s) -> aTime a <= now /\ exists k i, nth_error (dInfo s ++ [i0]) k = Some i /\ iReg i = aReg a /\ iGrp i = aGrp a).
      { intros a A. destruct (v_log I _ A) as (L & k & i & X & Y). split; [lia|]. exists k, i. split; [apply app_old, X|exact Y]. }
      destruct res as [l|]; [|exact Old]. intros a [<-|A]; [|apply Old, A]. cbn [aTime aReg aGrp]. split; [lia|].
      exists (length (dInfo s)), i0. rewrite nth_error_app2, Nat.sub_diag by lia. split; [reflexivity|]. split; [exact Ir|exact Ig].
    + intros k i E. unfold mine. cbn [dWork dNow dLog]. destruct (app_new _ _ _ _ E) as [E'|(-> & ->)].
      * pose proof (v_ok I _ _ E') as O. pose proof (New _ _ E') as N.
        replace (answers _ _ _) with (mine i s); [apply (iok_later _ _ _ _ _ _ O T)|]. unfold mine. destruct res as [l|]; [symmetry; apply other, N|reflexivity].
      * replace (answers _ _ _) with (match res with Some l => [mkAns reg grp l now] | None => [] end).
        -- apply (iok_other WIdle).
           ++ discriminate.
           ++ intro W. apply (v_work I _ W). apply nth_error_None. lia.
           ++ unfold i0. destruct res as [l|]; constructor; cbn; try discriminate; try tauto.
              intros _ a [<-|[]]. exists now. split; [reflexivity|cbn; lia].
        -- rewrite Ir, Ig. destruct res as [l|]; [rewrite same, None0|rewrite None0]; reflexivity.
    + cbn [dWork]. intros k W. pose proof (v_work I _ W) as X. rewrite nth_error_app1; [exact X|]. apply nth_error_Some, X.
  - destruct (aget bs_eqb (dKeys s) (key reg grp)) as [k0|]; [|discriminate H]. destruct (nth_error (dInfo s) k0) as [i0|]; [|discriminate H]. injection H as <-.
    constructor; cbn [dKeys dInfo dLog dNow dWork]; try apply I.
    + intros a A. destruct (v_log I _ A) as (L & X). split; [lia|exact X].
    + intros k i E. apply (iok_later _ _ _ _ _ _ (v_ok I _ _ E) T).
  - destruct (dWork s) as [|j|j l|j] eqn:W; try discriminate H. destruct (dQueue s) as [|k0 q]; [discriminate H|]. destruct (nth_error (dInfo s) k0) as [i0|] eqn:K; [|discriminate H].
    injection H as <-. constructor; cbn [dKeys dInfo dLog dNow dWork]; try apply I.
    + intros a A. destruct (v_log I _ A) as (L & X). split; [lia|exact X].
    + intros k i E. pose proof (v_ok I _ _ E) as O. rewrite W in O. destruct (stale now (iTime i0)) eqn:St; [|apply (iok_later _ _ _ _ _ _ O T)].
      constructor; [apply (o_map O)|apply (o_spaced O)|intros _; apply (o_time O eq_refl)|].
      intros Q a A. injection Q as <-. assert (i0 = i) by congruence. subst i0. destruct (o_time O eq_refl a A) as (t & Ht & Le). rewrite Ht in St. cbn in St. apply Z.leb_le in St. lia.
    + intros k E. destruct (stale _ _); [|discriminate E]. injection E as <-. congruence.
  - destruct (dWork s) as [|j|j l|j] eqn:W; try discriminate H. destruct res as [l|].
    + destruct (nth_error (dInfo s) j) as [i0|] eqn:K; [|discriminate H]. injection H as <-. constructor; cbn [dKeys dInfo dLog dNow dWork]; try apply I.
      * intros a [<-|A]; [cbn [aTime aReg aGrp]; split; [lia|]; exists j, i0; tauto|]. destruct (v_log I _ A) as (L & X). split; [lia|exact X].
      * intros k i E. pose proof (iok_later _ _ _ _ _ _ (v_ok I _ _ E) T) as O. rewrite W in O. unfold mine. cbn [dLog].
        destruct (Nat.eq_dec k j) as [->|N].
        -- assert (i0 = i) by congruence. subst i0. rewrite same. fold (mine i s). constructor.
           ++ rewrite Nat.eqb_refl. eexists. eexists. split; [reflexivity|]. split; [reflexivity|apply (o_map O)].
           ++ split; [|apply (o_spaced O)]. intros b B. apply (o_query O eq_refl b B).
           ++ cbn. rewrite Nat.eqb_refl. discriminate.
           ++ discriminate.
        -- rewrite other; [|intros (A & B); apply N; symmetry; apply (own I K E A B)].
           apply (iok_other (WQuery j)); cbn; [congruence|congruence|exact O].
      * intros k E. injection E as <-. congruence.
    + injection H as <-. constructor; cbn [dKeys dInfo dLog dNow dWork]; try apply I; try discriminate.
      * intros a A. destruct (v_log I _ A) as (L & X). split; [lia|exact X].
      * intros k i E. pose proof (iok_later _ _ _ _ _ _ (v_ok I _ _ E) T) as O. rewrite W in O. constructor; try apply O; discriminate.
  - destruct (dWork s) as [|j|j l|j] eqn:W; try discriminate H. destruct (nth_error (dInfo s) j) as [i0|] eqn:K; [|discriminate H]. injection H as <-.
    assert (Same : forall k i, nth_error (list_set (dInfo s) j (mkInfo (iReg i0) (iGrp i0) (iTime i0) l)) k = Some i ->
      exists i1, nth_error (dInfo s) k = Some i1 /\ iReg i1 = iReg i /\ iGrp i1 = iGrp i /\ iTime i1 = iTime i /\ (k <> j -> i1 = i) /\ (k = j -> iMap i = l)).
    { intros k i E. rewrite (upd _ _ K) in E. destruct (Nat.eqb_spec k j) as [->|N]; [injection E as <-; exists i0; tauto|exists i; tauto]. }
    constructor; cbn [dKeys dInfo dLog dNow dWork].
    + intros kk k E. destruct (v_key I _ _ E) as (i & A & B). rewrite (upd _ _ K). destruct (Nat.eqb_spec k j) as [->|]; [|exists i; tauto].
      eexists. split; [reflexivity|]. cbn [iReg iGrp]. first [congruence|assert (i = i0) by congruence; subst i; exact Y].
    + intros k i E. destruct (Same _ _ E) as (i1 & A & B & C & _). rewrite <- B, <- C. apply (v_info I _ _ A).
    + intros a A. destruct (v_log I _ A) as (L & k & i & X & Y). split; [lia|]. exists k. rewrite (upd _ _ K). destruct (Nat.eqb_spec k j) as [->|]; [|exists i; tauto].
      eexists. split; [reflexivity|]. cbn [iReg iGrp]. first [congruence|assert (i = i0) by congruence; subst i; exact Y].
    + intros k i E. destruct (Same _ _ E) as (i1 & A & B & C & D & F & G). pose proof (iok_later _ _ _ _ _ _ (v_ok I _ _ A) T) as O. rewrite W in O.
      unfold mine in *. cbn [dLog]. rewrite <- B, <- C. destruct (Nat.eq_dec k j) as [->|N].
      * pose proof (o_map O) as M. cbn in M. rewrite Nat.eqb_refl in M. destruct M as (a & r & M1 & M2 & _). constructor; try apply O; try discriminate.
        -- rewrite (G eq_refl), M1. unfold newest. cbn. congruence.
        -- cbn. rewrite Nat.eqb_refl. discriminate.
      * rewrite <- (F N). apply (iok_other (WMap j l)); cbn; [congruence|congruence|exact O].
    + intros k E. injection E as <-. rewrite (upd _ _ K), Nat.eqb_refl. discriminate.
  - destruct (dWork s) as [|j|j l|j] eqn:W; try discriminate H. destruct (nth_error (dInfo s) j) as [i0|] eqn:K; [|discriminate H]. injection H as <-.
    assert (Same : forall k i, nth_error (list_set (dInfo s) j (mkInfo (iReg i0) (iGrp i0) (Some now) (iMap i0))) k = Some i ->
      exists i1, nth_error (dInfo s) k = Some i1 /\ iReg i1 = iReg i /\ iGrp i1 = iGrp i /\ iMap i1 = iMap i /\ (k <> j -> i1 = i) /\ (k = j -> iTime i = Some now)).
    { intros k i E. rewrite (upd _ _ K) in E. destruct (Nat.eqb_spec k j) as [->|N]; [injection E as <-; exists i0; tauto|exists i; tauto]. }
    constructor; cbn [dKeys dInfo dLog dNow dWork]; try discriminate.
    + intros kk k E. destruct (v_key I _ _ E) as (i & A & B). rewrite (upd _ _ K). destruct (Nat.eqb_spec k j) as [->|]; [|exists i; tauto].
      eexists. split; [reflexivity|]. cbn [iReg iGrp]. first [congruence|assert (i = i0) by congruence; subst i; exact Y].
    + intros k i E. destruct (Same _ _ E) as (i1 & A & B & C & _). rewrite <- B, <- C. apply (v_info I _ _ A).
    + intros a A. destruct (v_log I _ A) as (L & k & i & X & Y). split; [lia|]. exists k. rewrite (upd _ _ K). destruct (Nat.eqb_spec k j) as [->|]; [|exists i; tauto].
      eexists. split; [reflexivity|]. cbn [iReg iGrp]. first [congruence|assert (i = i0) by congruence; subst i; exact Y].
    + intros k i E. destruct (Same _ _ E) as (i1 & A & B & C & D & F & G). pose proof (iok_later _ _ _ _ _ _ (v_ok I _ _ A) T) as O. rewrite W in O.
      unfold mine in *. cbn [dLog]. rewrite <- B, <- C. destruct (Nat.eq_dec k j) as [->|N].
      * constructor; try apply O; try discriminate.
        -- rewrite <- D. apply (o_map O).
        -- intros _ a X. exists now. split; [apply G; reflexivity|]. destruct (answers_In _ _ _ _ X) as (Y & _). destruct (v_log I _ Y). lia.
      * rewrite <- (F N). apply (iok_other (WTime j)); cbn; [congruence|discriminate|exact O].
Qed.
Lemma druns_dinv os : forall ps s s', druns s os = Some s' -> dinv ps s -> (forall p, In p (pairs os) -> In p ps) -> dinv ps s'.
Proof.
  induction os as [|o os IH]; intros ps s s' H I P; cbn [druns] in H; [injection H as <-; exact I|].
  destruct (dstep s o) as [s1|] eqn:E; [|discriminate H]. unfold pairs in P. cbn in P. apply (IH ps s1 s' H).
  - apply (step_dinv _ _ _ _ E I). intros p X. apply P, in_app_iff. left. exact X.
  - intros p X. apply P, in_app_iff. right. exact X.
Qed.
Lemma existsb_says l svc : says l svc (existsb (bs_eqb svc) l).
Proof.
  unfold says. rewrite existsb_exists. split.
  - intros (x & A & B). apply bs_eqb_spec in B. congruence.
  - intro H. exists svc. split; [exact H|apply bs_eqb_refl].
Qed.
(* what is answered *)
Lemma the_info os s reg grp svc b : druns dinit os = Some s -> noclash ((reg, grp) :: pairs os) -> inGroup s reg grp svc = Some b ->
  exists k i, nth_error (dInfo s) k = Some i /\ iReg i = reg /\ iGrp i = grp /\ iok (dWork s) (dNow s) (answers reg grp (dLog s)) k i /\ says (iMap i) svc b.
Proof.
  intros R N H. pose proof (druns_dinv os (pairs os) dinit s R (dinv_init _) (fun p X => X)) as I. unfold inGroup in H.
  destruct (aget bs_eqb (dKeys s) (key reg grp)) as [k|] eqn:K; [|discriminate H]. destruct (v_key I _ _ K) as (i & A & B). rewrite A in H. injection H as <-.
  destruct (v_info I _ _ A) as (_ & P). destruct (N reg grp (iReg i) (iGrp i)) as (-> & ->); [left; reflexivity|right; exact P|exact B|].
  exists k, i. repeat (split; [first [exact A|reflexivity|apply (v_ok I _ _ A)]|]). apply existsb_says.
Qed.
Lemma answer_last os s reg grp svc b : druns dinit os = Some s -> noclash ((reg, grp) :: pairs os) -> inGroup s reg grp svc = Some b ->
  says (newest (answers reg grp (dLog s))) svc b \/ dWork s <> WIdle /\ says (newest (tl (answers reg grp (dLog s)))) svc b.
Proof.
  intros R N H. destruct (the_info _ _ _ _ _ _ R N H) as (k & i & _ & _ & _ & O & Sy). set (m := answers reg grp (dLog s)) in *.
  pose proof (o_map O) as M. destruct (dWork s) as [|j|j l|j]; try (rewrite M in Sy; left; exact Sy). destruct (Nat.eqb j k); [|rewrite M in Sy; left; exact Sy].
  destruct M as (a & r & A & B & C). rewrite C in Sy. right. rewrite A. split; [discriminate|exact Sy].
Qed.
Lemma spaced_nth l : spaced l -> forall n m a b, nth_error l n = Some a -> nth_error l m = Some b -> (n < m)%nat -> aTime b + maxAge <= aTime a.
Proof.
  induction l as [|x l IH]; intros Sp n m a b A B L; [destruct n; discriminate A|]. destruct Sp as (S1 & S2). destruct n as [|n].
  - injection A as <-. destruct m as [|m]; [lia|]. apply S1, (nth_error_In l m). exact B.
  - destruct m as [|m]; [lia|]. apply (IH S2 n m a b A B). lia.
Qed.
Lemma queries_apart os s reg grp n m a b : druns dinit os = Some s -> nth_error (answers reg grp (dLog s)) n = Some a -> nth_error (answers reg grp (dLog s)) m = Some b ->
  (n < m)%nat -> aTime b + maxAge <= aTime a.
Proof.
  intros R A B L. pose proof (druns_dinv os (pairs os) dinit s R (dinv_init _) (fun p X => X)) as I.
  destruct (answers_In _ _ _ _ (nth_error_In _ _ A)) as (A1 & <- & <-). destruct (v_log I _ A1) as (_ & k & i & X & Y & Z).
  pose proof (o_spaced (v_ok I _ _ X)) as Sp. unfold mine in Sp. rewrite Y, Z in Sp. apply (spaced_nth _ Sp n m a b A B L).
Qed.
(* asked again, a stale list is queued for the worker *)
Lemma asked os s reg grp now s' i k : druns dinit os = Some s -> dstep s (DAsk reg grp now) = Some s' -> aget bs_eqb (dKeys s) (key reg grp) = Some k -> nth_error (dInfo s) k = Some i ->
  stale now (iTime i) = true -> (length (dQueue s) < poolCap)%nat -> dQueue s' = dQueue s ++ [k].
Proof.
  intros _ H K E St L. unfold dstep in H. destruct (_ <? _)%Z; [discriminate H|]. cbn [dstep1] in H. rewrite K, E, St in H. apply Nat.ltb_lt in L. rewrite L in H.
  injection H as <-. reflexivity.
Qed.
Lemma queue_bound os : forall s s', druns s os = Some s' -> (length (dQueue s) <= poolCap)%nat -> (length (dQueue s') <= poolCap)%nat.
Proof.
  induction os as [|o os IH]; intros s s' H L; cbn [druns] in H; [injection H as <-; exact L|].
  destruct (dstep s o) as [s1|] eqn:E; [|discriminate H]. apply (IH s1 s' H). unfold dstep in E. destruct (_ <? _)%Z; [discriminate E|].
  destruct o; cbn [dstep1] in E.
  - destruct (aget _ _ _); [discriminate E|]. injection E as <-. exact L.
  - destruct (aget _ _ _); [|discriminate E]. destruct (nth_error _ _); [|discriminate E]. injection E as <-. cbn [dQueue]. destruct (stale _ _); cbn [andb]; [|exact L].
    destruct (Nat.ltb_spec (length (dQueue s)) poolCap); [|exact L]. rewrite app_length. cbn [length]. lia.
  - destruct (dWork s); try discriminate E. destruct (dQueue s) as [|k q]; [discriminate E|]. destruct (nth_error _ _); [|discriminate E]. injection E as <-. cbn [dQueue]. cbn [length] in L. lia.
  - destruct (dWork s); try discriminate E. destruct res; [destruct (nth_error _ _); [|discriminate E]|]; injection E as <-; exact L.
  - destruct (dWork s); try discriminate E. destruct (nth_error _ _); [|discriminate E]. injection E as <-. exact L.
  - destruct (dWork s); try discriminate E. destruct (nth_error _ _); [|discriminate E]. injection E as <-. exact L.
Qed.
Definition us : byte := x5f.
Lemma key_split r g r' g' : ~ In us g -> ~ In us g' -> key r g = key r' g' -> r = r' /\ g = g'.
Proof.
  unfold key. change (s2b "_") with [us]. intros N N' E. apply (f_equal (@rev byte)) in E. rewrite !rev_app_distr in E. rewrite <- !app_assoc in E. cbn [rev app] in E.
  assert (X : forall a b c d : bs, ~ In us a -> ~ In us c -> a ++ us :: b = c ++ us :: d -> a = c /\ b = d).
  { clear. induction a as [|x a IH]; intros b c d A C E.
    - destruct c as [|y c]; cbn in E; [injection E as <-; tauto|]. injection E as <- _. destruct C. left. reflexivity.
    - destruct c as [|y c]; cbn in E; [injection E as -> _; destruct A; left; reflexivity|]. injection E as <- E.
      destruct (IH b c d) as (-> & ->); [intro; apply A; right; assumption|intro; apply C; right; assumption|exact E|tauto]. }
  rewrite in_rev in N, N'. destruct (X _ _ _ _ N N' E) as (A & B). apply (f_equal (@rev byte)) in A, B. rewrite !rev_involutive in A, B. tauto.
Qed.
Lemma no_underscore ps : (forall r g, In (r, g) ps -> ~ In us g) -> noclash ps.
Proof. intros N r g r' g' A B E. apply key_split; [apply (N _ _ A)|apply (N _ _ B)|exact E]. Qed.

(* groups *)
Definition gok (s : gst) : Prop := gList s = newestGroups (gLog s) /\ gTime s = match gLog s with [] => None | (_, t) :: _ => Some t end.
Lemma gstep_ok s o s' : gstep s o = Some s' -> gok s -> gok s'.
Proof.
  intros G (E & T). destruct o as [now|t res now]; cbn [gstep] in G; destruct (_ <? _)%Z; try discriminate G.
  - injection G as <-. split; assumption.
  - destruct (nth_error _ _) as [[|]|]; try discriminate G. destruct res; injection G as <-; split; first [reflexivity|assumption].
Qed.
Lemma gruns_ok os : forall s s', gruns s os = Some s' -> gok s -> gok s'.
Proof.
  induction os as [|o os IH]; intros s s' H E; cbn [gruns] in H; [injection H as <-; exact E|].
  destruct (gstep s o) as [s1|] eqn:G; [|discriminate H]. apply (IH s1 s' H). apply (gstep_ok _ _ _ G E).
Qed.
Lemma groups_answer os s o s' t l : gruns ginit os = Some s -> gstep s o = Some s' -> nth_error (gAsks s') t = Some (GDone l) -> nth_error (gAsks s) t <> Some (GDone l) ->
  l = newestGroups (gLog s') /\ ((exists u, gLog s' = (l, u) :: tl (gLog s') /\ gNow s' - u <= maxAge) \/ exists now, o = GQuery t None now).
Proof.
  intros R G A B. destruct (gruns_ok _ _ _ R (conj eq_refl eq_refl)) as (E & T). destruct o as [now|j res now]; cbn [gstep] in G; destruct (Z.ltb_spec now (gNow s)); try discriminate G.
  - injection G as <-. cbn [gAsks gLog gNow] in *. destruct (app_new _ _ _ _ A) as [A'|(-> & F)]; [contradiction|]. destruct (old now (gTime s)) eqn:O; [discriminate F|]. injection F as ->.
    split; [exact E|]. left. rewrite T in O. rewrite E. destruct (gLog s) as [|(g, u) r]; [discriminate O|]. exists u. split; [reflexivity|]. cbn in O. apply Z.ltb_ge in O. exact O.
  - destruct (nth_error (gAsks s) j) as [[|]|] eqn:J; try discriminate G. destruct res as [g|]; injection G as <-; cbn [gAsks gLog gNow] in *; rewrite (upd _ _ J) in A;
      (destruct (Nat.eqb_spec t j) as [->|]; [injection A as <-|contradiction]).
    + split; [reflexivity|]. left. exists now. split; [reflexivity|]. unfold maxAge. lia.
    + split; [exact E|]. right. eexists. reflexivity.
Qed.
Lemma refreshed s k q i l now : dWork s = WIdle -> dQueue s = k :: q -> nth_error (dInfo s) k = Some i -> aget bs_eqb (dKeys s) (key (iReg i) (iGrp i)) = Some k ->
  stale now (iTime i) = true -> dNow s <= now ->
  exists s', druns s [DTake now; DAnswer (Some l) now; DMap now; DTime now] = Some s' /\ dWork s' = WIdle /\ dQueue s' = q /\
    forall svc, inGroup s' (iReg i) (iGrp i) svc = Some (existsb (bs_eqb svc) l).
Proof.
  intros W Q K A St T. cbn [druns]. unfold dstep. cbn [opNow dstep1]. rewrite (proj2 (Z.ltb_ge _ _) T), W, Q, K, St. cbn [dNow dWork dInfo dQueue dKeys dLog].
  rewrite Z.ltb_irrefl, K. cbn [dNow dWork dInfo dQueue dKeys dLog]. rewrite Z.ltb_irrefl, K. cbn [dNow dWork dInfo dQueue dKeys dLog]. rewrite Z.ltb_irrefl.
  rewrite (upd _ _ K), Nat.eqb_refl. eexists. split; [reflexivity|]. split; [reflexivity|]. split; [reflexivity|]. intro svc. unfold inGroup. cbn [dKeys dInfo]. rewrite A.
  erewrite upd; [|rewrite (upd _ _ K), Nat.eqb_refl; reflexivity]. rewrite Nat.eqb_refl. reflexivity.
Qed.
Lemma many_queries n : exists os s, gruns ginit os = Some s /\ length (gLog s) = n /\ gNow s = 0.
Proof.
  assert (Ask : forall n s, gNow s = 0 -> gTime s = None -> exists s', gruns s (repeat (GAsk 0) n) = Some s' /\ gNow s' = 0 /\ gAsks s' = gAsks s ++ repeat GWait n /\ gLog s' = gLog s).
  { clear. induction n as [|n IH]; intros s N T.
    - exists s. cbn. rewrite app_nil_r. tauto.
    - cbn [repeat gruns gstep]. rewrite N, T. cbn [Z.ltb Z.compare old]. destruct (IH (mkGst 0 None (gList s) (gAsks s ++ [GWait]) (gLog s)) eq_refl eq_refl) as (s' & A & B & C & D).
      exists s'. split; [exact A|]. split; [exact B|]. split; [rewrite C; cbn [gAsks]; rewrite <- app_assoc; reflexivity|exact D]. }
  assert (Qu : forall n s pre, gNow s = 0 -> gAsks s = pre ++ repeat GWait n ->
    exists s', gruns s (map (fun t => GQuery t (Some []) 0) (seq (length pre) n)) = Some s' /\ gNow s' = 0 /\ length (gLog s') = (n + length (gLog s))%nat).
  { clear. induction n as [|n IH]; intros s pre N A.
    - exists s. cbn. tauto.
    - cbn [seq map gruns gstep]. rewrite N, A. cbn [repeat]. rewrite nth_error_app2, Nat.sub_diag by lia. cbn [Z.ltb Z.compare nth_error].
      set (s1 := mkGst _ _ _ _ _). destruct (IH s1 (pre ++ [GDone []])) as (s' & X & Y & Z).
      + reflexivity.
      + unfold s1. cbn [gAsks]. rewrite <- app_assoc. cbn [app]. clear. induction pre as [|p pre IH]; [reflexivity|]. cbn. f_equal. exact IH.
      + exists s'. rewrite app_length, Nat.add_comm in X. split; [exact X|]. split; [exact Y|]. rewrite Z. unfold s1. cbn [gLog length]. lia. }
  destruct (Ask n ginit eq_refl eq_refl) as (s1 & A & B & C & D). destruct (Qu n s1 [] B C) as (s2 & X & Y & Z).
  exists (repeat (GAsk 0) n ++ map (fun t => GQuery t (Some []) 0) (seq 0 n)), s2.
  assert (App : forall a s b, gruns s (a ++ b) = match gruns s a with Some s' => gruns s' b | None => None end).
  { clear. induction a as [|o a IH]; intros s b; [reflexivity|]. cbn. destruct (gstep s o); [apply IH|reflexivity]. }
  rewrite App, A. split; [exact X|]. split; [|exact Y]. rewrite Z, D. cbn. lia.
Qed.
