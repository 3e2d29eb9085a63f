(* AcmdProofs.v: proofs of C106. *)
From Verif Require Import Base UrlModel UrlSpec UrlProofs AcmdModel AcmdSpec.
Ltac Zify.zify_post_hook ::= idtac.

(* ------------------------------------------------------------ waiting *)
Definition iok (n : nat) (s : ist) : Prop :=
  NoDup (iLeft s) /\ incl (iLeft s) (seq 0 n) /\
  (iWaiter s <> WWait -> iLeft s = []) /\ (iMain s = MTimeout -> iFired s = true) /\ (iMain s = MAll <-> iWaiter s = WGone).
Lemma iok_step n s o s' : iok n s -> istep s o = Some s' -> iok n s'.
Proof.
  intros (A & B & C & D & E) H. destruct o as [j p| | | |]; cbn [istep] in H.
  - destruct (existsb (Nat.eqb j) (iLeft s)) eqn:X; [|discriminate H]. injection H as <-. unfold iok. cbn [iLeft iFired iWaiter iMain].
    split; [apply NoDup_filter; exact A|]. split; [intros x I; apply filter_In in I as [I _]; apply B; exact I|]. split; [|split; assumption].
    intro W. rewrite (C W). reflexivity.
  - destruct (iFired s); [discriminate H|]. injection H as <-. unfold iok. cbn [iLeft iFired iWaiter iMain]. repeat split; auto; apply E.
  - destruct (iMain s) eqn:M; try discriminate H. destruct (iFired s) eqn:F; [|discriminate H]. injection H as <-. unfold iok. cbn [iLeft iFired iWaiter iMain].
    split; [exact A|]. split; [exact B|]. split; [exact C|]. split; [reflexivity|]. split; [discriminate|]. intro W. apply E in W. discriminate W.
  - destruct (iWaiter s) eqn:W; try discriminate H. destruct (iLeft s) eqn:L; [|discriminate H]. injection H as <-. unfold iok. cbn [iLeft iFired iWaiter iMain].
    split; [exact A|]. split; [exact B|]. split; [reflexivity|]. split; [exact D|]. split; [intro M; apply E in M; discriminate M|discriminate].
  - destruct (iWaiter s) eqn:W; try discriminate H. destruct (iMain s) eqn:M; try discriminate H. injection H as <-. unfold iok. cbn [iLeft iFired iWaiter iMain].
    split; [exact A|]. split; [exact B|]. split; [intros _; apply C; discriminate|]. split; [discriminate|]. split; reflexivity.
Qed.
Lemma iok_runs n ops : forall s s', iok n s -> iruns s ops = Some s' -> iok n s'.
Proof.
  induction ops as [|o ops IH]; intros s s' K H; cbn [iruns] in H; [injection H as <-; exact K|]. destruct (istep s o) as [s1|] eqn:E; [|discriminate H].
  apply (IH s1); [eapply iok_step; eassumption|exact H].
Qed.
Lemma iok_init n : iok n (iinit n).
Proof. unfold iok, iinit. cbn. split; [apply seq_NoDup|]. split; [apply incl_refl|]. split; [congruence|]. split; [discriminate|]. split; discriminate. Qed.
Lemma waited n ops s : iruns (iinit n) ops = Some s -> (iMain s = MAll -> iLeft s = []) /\ (iMain s = MTimeout -> iFired s = true) /\
  (iMain s = MWait -> iFired s = true -> exists s', istep s IExpire = Some s') /\
  (iMain s = MWait -> iLeft s = [] -> exists ops' s', iruns s ops' = Some s' /\ iMain s' = MAll /\ iFired s' = iFired s).
Proof.
  intro H. pose proof (iok_runs n ops _ _ (iok_init n) H) as (A & B & C & D & E). split; [|split; [exact D|split]].
  - intro M. apply C. apply E in M. rewrite M. discriminate.
  - intros M F. cbn [istep]. rewrite M, F. eexists. reflexivity.
  - intros M L. destruct (iWaiter s) eqn:W.
    + exists [IWake; IHand]. cbn [iruns istep]. rewrite W, L. cbn [iWaiter iMain]. rewrite M. eexists. split; [reflexivity|]. split; reflexivity.
    + exists [IHand]. cbn [iruns istep]. rewrite W, M. eexists. split; [reflexivity|]. split; reflexivity.
    + rewrite M in E. destruct E as [_ E]. discriminate (E eq_refl).
Qed.
Lemma left_timeout ops : forall s s', iMain s = MTimeout -> iWaiter s <> WGone -> iruns s ops = Some s' -> iMain s' = MTimeout /\ iWaiter s' <> WGone.
Proof.
  induction ops as [|o ops IH]; intros s s' M W H; cbn [iruns] in H; [injection H as <-; auto|]. destruct (istep s o) as [s1|] eqn:E; [|discriminate H].
  assert (X : iMain s1 = MTimeout /\ iWaiter s1 <> WGone); [|apply (IH s1); [apply X|apply X|exact H]].
  destruct o; cbn [istep] in E; rewrite ?M in E.
  - destruct (existsb _ _); [|discriminate E]. injection E as <-. auto.
  - destruct (iFired s); [discriminate E|]. injection E as <-. auto.
  - discriminate E.
  - destruct (iWaiter s); try discriminate E. destruct (iLeft s); [|discriminate E]. injection E as <-. cbn. split; [reflexivity|discriminate].
  - destruct (iWaiter s); discriminate E.
Qed.

(* ------------------------------------------------------------ commands *)
Lemma run_none hs c b : no_handlers hs -> runHandlers hs c b = (c, b).
Proof.
  induction hs as [|h hs IH]; intro N; [reflexivity|]. cbn [runHandlers]. rewrite (N h c (or_introl eq_refl)). apply IH. intros g d I. apply N. right. exact I.
Qed.
Lemma start_none hs s c : no_handlers hs -> fst (notifyStart hs s c) = if bs_eqb c (aCur s) then TIdle else TRun c (aCls s).
Proof. intro N. unfold notifyStart. destruct (bs_eqb c (aCur s)); [reflexivity|]. rewrite (run_none hs c false N). reflexivity. Qed.

(* what a thread owes: the clusters it has not still to tell know its command *)
Definition holds (s : ast) (t : thread) : Prop :=
  match t with
  | TIdle => forall k, In k (aCls s) -> last_told (aTold s) k = aCur s
  | TRun c todo => forall k, In k (aCls s) -> ~ In k todo -> last_told (aTold s) k = c
  | TEnd c => forall k, In k (aCls s) -> last_told (aTold s) k = c
  end.
Definition cmdOf (s : ast) (t : thread) : bs := match t with TIdle => aCur s | TRun c _ => c | TEnd c => c end.
(* the three stages *)
Definition stage1 (s : ast) : Prop :=
  aCur s = [] /\ aTold s = [] /\ aQueue s = [] /\ aPush s = TIdle /\ aInit s = TIdle /\
  (aPh s = RSubscribed \/ aPh s = RRead (aReg s)).
Definition stage2 (s : ast) : Prop :=
  aQueue s = [] /\ aPush s = TIdle /\ aPh s = RNotify /\ aInit s <> TIdle /\ holds s (aInit s) /\ cmdOf s (aInit s) = aReg s.
Definition stage3 (s : ast) : Prop :=
  aPh s = RDone /\ aInit s = TIdle /\ holds s (aPush s) /\ last (aQueue s) (cmdOf s (aPush s)) = aReg s.

Lemma last_told_cons k c told k' : last_told ((k, c) :: told) k' = if Nat.eqb k k' then c else last_told told k'.
Proof. unfold last_told. cbn [find fst]. destruct (Nat.eqb k k'); reflexivity. Qed.
Lemma tell_holds s t k t' c : tellStep t k = Some (t', c) ->
  (match t with TRun c0 todo => forall k, In k (aCls s) -> ~ In k todo -> last_told (aTold s) k = c0 | _ => False end) ->
  exists todo', t' = TRun c todo' /\ (match t with TRun c0 _ => c0 = c | _ => False end) /\
  forall k', In k' (aCls s) -> ~ In k' todo' -> last_told ((k, c) :: aTold s) k' = c.
Proof.
  intros H Hh. destruct t as [|c0 todo|c0]; cbn [tellStep] in H; try discriminate H. destruct (existsb (Nat.eqb k) todo); [|discriminate H].
  injection H as <- <-. eexists. split; [reflexivity|]. split; [reflexivity|]. intros k' I N. rewrite last_told_cons. destruct (Nat.eqb_spec k k') as [->|X]; [reflexivity|].
  apply Hh; [exact I|]. intro J. apply N. apply filter_In. split; [exact J|]. apply negb_true_iff, Nat.eqb_neq. exact X.
Qed.
Lemma filter_keep k l x : In x (filter (fun y => negb (Nat.eqb k y)) l) -> In x l.
Proof. intro H. apply filter_In in H. tauto. Qed.

Ltac proj := cbn [aCur aReg aPh aQueue aPush aInit aCls aTold aServed].
Lemma start_holds hs s c t sv : no_handlers hs -> notifyStart hs s c = (t, sv) -> (forall k, In k (aCls s) -> last_told (aTold s) k = aCur s) ->
  (t = TIdle /\ c = aCur s) \/ (t = TRun c (aCls s) /\ c <> aCur s).
Proof.
  intros N H Hh. pose proof (start_none hs s c N) as F. rewrite H in F. cbn [fst] in F. subst t. destruct (bs_eqb c (aCur s)) eqn:E.
  - left. apply bs_eqb_spec in E. auto.
  - right. apply bs_eqb_neq in E. auto.
Qed.
(* stage 1 and 2: no change of the command *)
Lemma stage12 hs s o s' : no_handlers hs -> ~ is_change o -> ~ adds o -> stage1 s \/ stage2 s \/ (stage3 s /\ aQueue s = [] /\ aPush s = TIdle) -> astep hs s o = Some s' ->
  stage1 s' \/ stage2 s' \/ (stage3 s' /\ aQueue s' = [] /\ aPush s' = TIdle).
Proof.
  intros N NC NA [S|[S|S]] H.
  - destruct S as (A & B & C & D & E & F). destruct o; cbn [astep] in H.
    + destruct F as [F|F]; rewrite F in H; discriminate H.
    + destruct F as [F|F]; rewrite F in H; discriminate H.
    + destruct NC. eexists. reflexivity.
    + destruct F as [F|F]; rewrite F in H; [|discriminate H]. injection H as <-. left. unfold stage1. proj. auto 8.
    + destruct F as [F|F]; rewrite F in H; [discriminate H|]. destruct (notifyStart hs s (aReg s)) as [t sv] eqn:NS. injection H as <-.
      destruct (start_holds hs s (aReg s) t sv N NS) as [[-> X]|[-> X]].
      { intros k _. rewrite A, B. reflexivity. }
      * right. right. unfold stage3. proj. rewrite C, D. cbn [holds cmdOf last]. proj. repeat split; auto. intros k _. rewrite A, B. reflexivity.
      * right. left. unfold stage2. proj. rewrite C, D. cbn [holds cmdOf]. proj. repeat split; auto; try discriminate. intros k I J. contradiction.
    + rewrite D, C in H. discriminate H.
    + rewrite D, E in H. destruct push; discriminate H.
    + rewrite D, E in H. destruct push; discriminate H.
    + destruct NA. eexists. reflexivity.
    + injection H as <-. left. unfold stage1. proj. auto 8.
  - destruct S as (A & B & C & D & E & F). destruct o; cbn [astep] in H; rewrite ?C in H; try discriminate H.
    + destruct NC. eexists. reflexivity.
    + rewrite B, A in H. discriminate H.
    + destruct push; [rewrite B in H; discriminate H|]. destruct (tellStep (aInit s) k) as [[t c]|] eqn:T; [|discriminate H]. injection H as <-.
      destruct (aInit s) as [|c0 todo|c0] eqn:I; cbn [holds] in E; try discriminate T.
      destruct (tell_holds s (TRun c0 todo) k t c T E) as (todo' & -> & -> & X). right. left. unfold stage2. proj. cbn [holds cmdOf]. proj. cbn [cmdOf] in F.
      repeat split; auto; discriminate.
    + destruct push; [rewrite B in H; discriminate H|]. destruct (endStep (aInit s)) as [c|] eqn:T; [|discriminate H]. injection H as <-.
      right. right. unfold stage3. proj. rewrite A, B. cbn [last cmdOf holds]. proj.
      destruct (aInit s) as [|c0 todo|c0]; cbn [endStep holds cmdOf] in *; try discriminate T.
      * destruct todo; [|discriminate T]. injection T as <-. repeat split; auto.
      * injection T as <-. repeat split; auto.
    + destruct NA. eexists. reflexivity.
    + injection H as <-. right. left. unfold stage2. proj. split; [exact A|]. split; [exact B|]. split; [first [exact C|reflexivity]|]. split; [exact D|]. split; [|destruct (aInit s); exact F].
      destruct (aInit s); cbn [holds] in *; proj; intros x I; apply filter_keep in I; auto.
  - destruct S as ((A & B & C & D) & Q & P). rewrite P in C, D. rewrite Q in D. cbn [holds cmdOf last] in C, D. destruct o; cbn [astep] in H; rewrite ?A, ?B, ?P, ?Q in H; try discriminate H.
    + destruct NC. eexists. reflexivity.
    + destruct push; discriminate H.
    + destruct push; discriminate H.
    + destruct NA. eexists. reflexivity.
    + injection H as <-. right. right. unfold stage3. proj. cbn [holds cmdOf last]. proj. repeat split; auto. intros x I. apply filter_keep in I. auto.
Qed.
Lemma last_snoc {A} (l : list A) x d : last (l ++ [x]) d = x.
Proof. apply last_last. Qed.
Lemma last_cons_d {A} (x : A) l d : last (x :: l) d = last l x.
Proof. revert x d. induction l as [|y l IH]; intros x d; [reflexivity|]. change (last (x :: y :: l) d) with (last (y :: l) d). rewrite IH. symmetry. apply (IH y x). Qed.
Lemma stage3_step hs s o s' : no_handlers hs -> ~ adds o -> stage3 s -> astep hs s o = Some s' -> stage3 s'.
Proof.
  intros N NA (A & B & C & D) H. destruct o; cbn [astep] in H; rewrite ?A, ?B in H; try discriminate H.
  - cbn [subscribed] in H. injection H as <-. unfold stage3. proj. split; [first [exact A|reflexivity]|]. split; [first [exact B|reflexivity]|]. split; [destruct (aPush s); exact C|]. apply last_snoc.
  - destruct (aPush s) eqn:P; try discriminate H. destruct (aQueue s) as [|c q] eqn:Q; [discriminate H|]. cbn [holds] in C.
    destruct (notifyStart hs s c) as [t sv] eqn:NS. injection H as <-. cbn [cmdOf] in D. rewrite last_cons_d in D.
    destruct (start_holds hs s c t sv N NS C) as [[-> X]|[-> X]]; unfold stage3; proj; cbn [holds cmdOf]; proj.
    + subst c. auto.
    + split; [first [exact A|reflexivity]|]. split; [first [exact B|reflexivity]|]. split; [intros k I J; contradiction|exact D].
  - destruct push; [|discriminate H]. destruct (tellStep (aPush s) k) as [[t c]|] eqn:T; [|discriminate H]. injection H as <-.
    destruct (aPush s) as [|c0 todo|c0] eqn:I; cbn [holds] in C; try discriminate T.
    destruct (tell_holds s (TRun c0 todo) k t c T C) as (todo' & -> & -> & X). unfold stage3. proj. cbn [holds cmdOf] in *. proj. auto.
  - destruct push; [|discriminate H]. destruct (endStep (aPush s)) as [c|] eqn:T; [|discriminate H]. injection H as <-. unfold stage3. proj. cbn [holds cmdOf]. proj.
    destruct (aPush s) as [|c0 todo|c0]; cbn [endStep holds cmdOf] in *; try discriminate T.
    + destruct todo; [|discriminate T]. injection T as <-. repeat split; auto.
    + injection T as <-. repeat split; auto.
  - destruct NA. eexists. reflexivity.
  - injection H as <-. unfold stage3. proj. split; [first [exact A|reflexivity]|]. split; [first [exact B|reflexivity]|]. split; [|destruct (aPush s); exact D].
    destruct (aPush s); cbn [holds] in *; proj; intros x I; apply filter_keep in I; auto.
Qed.
(* before the subscription nothing happens *)
Definition before (s : ast) : Prop := aCur s = [] /\ aTold s = [] /\ aQueue s = [] /\ aPush s = TIdle /\ aInit s = TIdle /\ (aPh s = RNew \/ aPh s = RRegistered).
Lemma before_step hs s o s' : before s -> astep hs s o = Some s' -> before s' \/ (o = ASubscribe /\ stage1 s').
Proof.
  intros (A & B & C & D & E & F) H. destruct o; cbn [astep] in H; rewrite ?D, ?E in H.
  - destruct F as [F|F]; rewrite F in H; [|discriminate H]. injection H as <-. left. unfold before. proj. auto 8.
  - destruct F as [F|F]; rewrite F in H; [discriminate H|]. injection H as <-. right. split; [reflexivity|]. unfold stage1. proj. auto 8.
  - injection H as <-. left. unfold before. proj. replace (subscribed (aPh s)) with false by (destruct F as [F|F]; rewrite F; reflexivity). auto 8.
  - destruct F as [F|F]; rewrite F in H; discriminate H.
  - destruct F as [F|F]; rewrite F in H; discriminate H.
  - rewrite C in H. discriminate H.
  - destruct push; discriminate H.
  - destruct push; discriminate H.
  - injection H as <-. left. unfold before. proj. auto 8.
  - injection H as <-. left. unfold before. proj. auto 8.
Qed.
Lemma aruns_app hs l1 : forall s l2, aruns hs s (l1 ++ l2) = match aruns hs s l1 with Some s1 => aruns hs s1 l2 | None => None end.
Proof. induction l1 as [|o l1 IH]; intros s l2; [reflexivity|]. cbn [app aruns]. destruct (astep hs s o); [apply IH|reflexivity]. Qed.
Lemma before_runs hs l : forall s s', ~ In ASubscribe l -> before s -> aruns hs s l = Some s' -> before s'.
Proof.
  induction l as [|o l IH]; intros s s' N B H; cbn [aruns] in H; [injection H as <-; exact B|]. destruct (astep hs s o) as [s1|] eqn:E; [|discriminate H].
  apply (IH s1); [intro X; apply N; right; exact X| |exact H]. destruct (before_step _ _ _ _ B E) as [X|[-> _]]; [exact X|]. destruct N. left. reflexivity.
Qed.
Lemma stage12_runs hs l : no_handlers hs -> Forall (fun o => ~ is_change o /\ ~ adds o) l -> forall s s',
  stage1 s \/ stage2 s \/ (stage3 s /\ aQueue s = [] /\ aPush s = TIdle) -> aruns hs s l = Some s' ->
  stage1 s' \/ stage2 s' \/ (stage3 s' /\ aQueue s' = [] /\ aPush s' = TIdle).
Proof.
  intros N F. induction F as [|o l [F1 F2] _ IH]; intros s s' S H; cbn [aruns] in H; [injection H as <-; exact S|]. destruct (astep hs s o) as [s1|] eqn:E; [|discriminate H].
  apply (IH s1); [|exact H]. eapply stage12; eassumption.
Qed.
Lemma stage3_runs hs l : no_handlers hs -> Forall (fun o => ~ adds o) l -> forall s s', stage3 s -> aruns hs s l = Some s' -> stage3 s'.
Proof.
  intros N F. induction F as [|o l F1 _ IH]; intros s s' S H; cbn [aruns] in H; [injection H as <-; exact S|]. destruct (astep hs s o) as [s1|] eqn:E; [|discriminate H].
  apply (IH s1); [|exact H]. eapply stage3_step; eassumption.
Qed.
Lemma uptodate hs cls c a b l s1 s : no_handlers hs -> ~ In ASubscribe a -> Forall (fun o => ~ is_change o /\ ~ adds o) b -> Forall (fun o => ~ adds o) l ->
  aruns hs (ainit cls c) (a ++ ASubscribe :: b) = Some s1 -> aPh s1 = RDone -> aruns hs s1 l = Some s -> quiet s ->
  forall k, In k (aCls s) -> last_told (aTold s) k = aReg s.
Proof.
  intros N Na Fb Fl H1 P1 H2 (Q1 & Q2 & Q3 & Q4). rewrite aruns_app in H1. destruct (aruns hs (ainit cls c) a) as [s0|] eqn:E0; [|discriminate H1].
  assert (B0 : before s0). { apply (before_runs hs a (ainit cls c)); [exact Na| |exact E0]. unfold before, ainit. proj. auto 8. }
  cbn [aruns] in H1. destruct (astep hs s0 ASubscribe) as [s0'|] eqn:E1; [|discriminate H1].
  assert (S1 : stage1 s0').
  { destruct (before_step _ _ _ _ B0 E1) as [X|[_ X]]; [|exact X]. exfalso. cbn [astep] in E1. destruct (aPh s0); try discriminate E1. injection E1 as <-.
    destruct X as (_ & _ & _ & _ & _ & [X|X]); discriminate X. }
  assert (S3 : stage3 s1).
  { destruct (stage12_runs hs b N Fb s0' s1 (or_introl S1) H1) as [X|[X|[X _]]]; [| |exact X]; exfalso.
    - destruct X as (_ & _ & _ & _ & _ & [X|X]); congruence.
    - destruct X as (_ & _ & X & _). congruence. }
  destruct (stage3_runs hs l N Fl s1 s S3 H2) as (_ & _ & C & D). rewrite Q3 in C, D. rewrite Q2 in D. cbn [holds cmdOf last] in C, D. intros k I. rewrite (C k I). exact D.
Qed.

(* only commands the registry had are told *)
Definition known (S : list bs) (s : ast) : Prop :=
  In (aReg s) S /\ incl (aQueue s) S /\ (forall c, aPh s = RRead c -> In c S) /\
  (forall t, t = aPush s \/ t = aInit s -> match t with TRun c _ => In c S | _ => True end) /\ forall k c, In (k, c) (aTold s) -> In c S.
Lemma start_known hs s c t sv S : notifyStart hs s c = (t, sv) -> In c S -> match t with TRun c _ => In c S | _ => True end.
Proof.
  unfold notifyStart. intros H I. destruct (bs_eqb c (aCur s)); [injection H as <- _; exact Logic.I|]. destruct (runHandlers hs c false) as [c' stop].
  injection H as <- _. destruct stop; [exact Logic.I|exact I].
Qed.
Lemma known_step hs s o s' S : known S s -> astep hs s o = Some s' -> known (match o with AChange c => c :: S | _ => S end) s'.
Proof.
  intros (A & B & C & D & E) H. destruct o; cbn [astep] in H.
  - destruct (aPh s); try discriminate H. injection H as <-. unfold known. proj. repeat split; auto. discriminate.
  - destruct (aPh s); try discriminate H. injection H as <-. unfold known. proj. repeat split; auto. discriminate.
  - injection H as <-. unfold known. proj. split; [left; reflexivity|]. split.
    { destruct (subscribed (aPh s)); [|intros x I; right; apply B; exact I]. intros x I. apply in_app_or in I as [I|[<-|[]]]; [right; apply B; exact I|left; reflexivity]. }
    split; [intros x I; right; apply C; exact I|]. split; [|intros k x I; right; eapply E; exact I].
    intros t T. specialize (D t T). destruct t; [exact D|right; exact D|exact D].
  - destruct (aPh s); try discriminate H. injection H as <-. unfold known. proj. repeat split; auto. intros x X. injection X as <-. exact A.
  - destruct (aPh s) as [| | |c| |] eqn:P; try discriminate H. destruct (notifyStart hs s c) as [t sv] eqn:NS. injection H as <-. unfold known. proj.
    split; [exact A|]. split; [exact B|]. split; [intros x X; destruct t; discriminate X|]. split; [|exact E].
    intros t0 [T|T]; [apply D; left; exact T|]. subst t0. eapply start_known; [exact NS|]. apply C. reflexivity.
  - destruct (aPush s) eqn:P; try discriminate H. destruct (aQueue s) as [|c q] eqn:Q; [discriminate H|]. destruct (notifyStart hs s c) as [t sv] eqn:NS. injection H as <-.
    unfold known. proj. split; [exact A|]. split; [intros x I; apply B; right; exact I|]. split; [exact C|]. split; [|exact E].
    intros t0 [T|T]; [|apply D; right; exact T]. subst t0. eapply start_known; [exact NS|]. apply B. left. reflexivity.
  - destruct (tellStep (if push then aPush s else aInit s) k) as [[t c]|] eqn:T; [|discriminate H]. injection H as <-.
    assert (X : In c S /\ match t with TRun c _ => In c S | _ => True end).
    { assert (Y : match (if push then aPush s else aInit s) with TRun c _ => In c S | _ => True end) by (apply D; destruct push; auto).
      destruct (if push then aPush s else aInit s) as [|c0 todo|c0]; cbn [tellStep] in T; try discriminate T. destruct (existsb _ _); [|discriminate T]. injection T as <- <-. auto. }
    destruct X as [X1 X2]. unfold known. proj. split; [exact A|]. split; [exact B|]. split; [exact C|]. split.
    + intros t0 [->| ->]; destruct push; [exact X2|apply D; left; reflexivity|apply D; right; reflexivity|exact X2].
    + intros k' c' [I|I]; [injection I as <- <-; exact X1|eapply E; exact I].
  - destruct (endStep (if push then aPush s else aInit s)) as [c|] eqn:T; [|discriminate H]. injection H as <-. unfold known. proj.
    split; [exact A|]. split; [exact B|]. split; [intros x X; destruct push; [apply C; exact X|discriminate X]|]. split; [|exact E].
    intros t0 [->| ->]; destruct push; [exact Logic.I|apply D; left; reflexivity|apply D; right; reflexivity|exact Logic.I].
  - injection H as <-. unfold known. proj. auto.
  - injection H as <-. unfold known. proj. auto.
Qed.
Lemma known_runs hs l : forall s s' S, known S s -> aruns hs s l = Some s' -> known (rev (changes l) ++ S) s'.
Proof.
  induction l as [|o l IH]; intros s s' S K H; cbn [aruns] in H; [injection H as <-; exact K|]. destruct (astep hs s o) as [s1|] eqn:E; [|discriminate H].
  pose proof (known_step _ _ _ _ _ K E) as K1. specialize (IH s1 s' _ K1 H). unfold changes in *. cbn [flat_map]. destruct o; try exact IH.
  cbn [app]. cbn [rev]. rewrite <- app_assoc. exact IH.
Qed.
Lemma told_known hs cls c l s k x : aruns hs (ainit cls c) l = Some s -> In (k, x) (aTold s) -> x = c \/ In (AChange x) l.
Proof.
  intros H I. assert (K : known [c] (ainit cls c)).
  { unfold known, ainit. proj. split; [left; reflexivity|]. split; [intros ? []|]. split; [discriminate|]. split; [intros t [->| ->]; exact Logic.I|intros ? ? []]. }
  destruct (known_runs hs l _ _ _ K H) as (_ & _ & _ & _ & E). apply E in I. apply in_app_or in I as [I|[I|[]]]; [|left; auto].
  right. apply in_rev in I. unfold changes in I. apply in_flat_map in I as (o & I & J). destruct o; try destruct J as []; [subst; exact I|contradiction].
Qed.
(* a command that a handler serves is told to no cluster *)
Lemma served_not_told hs c : (exists pre h post, hs = pre ++ h :: post /\ (forall g, In g pre -> g c = HNo) /\ h c <> HNo) -> snd (runHandlers hs c false) = true.
Proof.
  assert (G : forall l x, snd (runHandlers l x true) = true).
  { induction l as [|h l IH]; intro x; [reflexivity|]. cbn [runHandlers]. destruct (h x); [apply IH|apply IH|reflexivity]. }
  intros (pre & h & post & -> & P & Hh). induction pre as [|g pre IH].
  - cbn [app runHandlers]. destruct (h c); [contradiction|apply G|reflexivity].
  - cbn [app runHandlers]. rewrite (P g (or_introl eq_refl)). apply IH. intros g' I. apply P. right. exact I.
Qed.

Lemma init_wait u : (-9223372036854775808 <= 1000000 * int_or u (s2b "initClusterTimeout") 10000 <= 9223372036854775807)%Z ->
  initWait u = (1000000 * int_or u (s2b "initClusterTimeout") 10000)%Z.
Proof.
  intro H. unfold initWait, getIntValue. pose proof (getInt_ok (fresh u) (s2b "initClusterTimeout") (fresh_coherent u)) as (X & _).
  destruct (getInt (fresh u) (s2b "initClusterTimeout")) as [r c1]. cbn [fst] in X. cbn [fst]. rewrite X. change (cUrl (fresh u)) with u. fold (int_or u (s2b "initClusterTimeout") 10000).
  generalize dependent (int_or u (s2b "initClusterTimeout") 10000). intros z H. clear X. unfold wrapI64. rewrite Z.mod_small; [ring|]. clear - H. lia.
Qed.
