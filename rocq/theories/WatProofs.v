(* WatProofs.v *)
From Coq Require Import Lia Sorted.
From Verif Require Import Base WatModel WatSpec.
Ltac Zify.zify_post_hook ::= idtac.

Definition alive (w : wat) : Prop := wPh w <> PDead.
Definition working (w : wat) : Prop := (wCh w = Armed \/ wCh w = Changed) /\ (wPh w = PWait \/ exists v c, wPh w = PNotify v c).
Definition closer (s : wst) (c : nat) (w : wat) : Prop := wSw w = c /\ ((wPh w = PClose /\ ~ In c (zClosed s)) \/ wPh w = PDelete).
Definition pending (s : wst) : Prop := exists w, In w (zW s) /\ alive w /\ (wCh w = Changed \/ exists v c, wPh w = PNotify v c).
Record inv (s : wst) : Prop := mkInv {
  i_ex : zExists s = true;
  i_ch : forall w, In w (zW s) -> alive w -> wCh w = Armed \/ wCh w = Changed;
  i_fresh : (forall c, In c (zClosed s) -> c < zNext s) /\ (forall c, zSw s = Some c -> c < zNext s);
  i_wfresh : forall w, In w (zW s) -> wSw w < zNext s;
  i_blk : forall c, zBlocked s = Some c -> zLis s = Some [] /\ zSw s = Some c;
  i_some : forall ls, zLis s = Some ls -> exists c, zSw s = Some c /\ ~ In c (zClosed s) /\ (forall w, In w (zW s) -> alive w -> wSw w = c /\ working w) /\ (exists w, In w (zW s) /\ alive w);
  i_empty : zLis s = Some [] -> zBlocked s <> None;
  i_none : zLis s = None -> forall c, zSw s = Some c -> exists w, In w (zW s) /\ closer s c w;
  i_ver : forall w v c, In w (zW s) -> wPh w = PNotify v c -> v <= zVer s /\ (wCh w = Armed -> v = zVer s /\ c = zNodes s);
  i_latest : forall l v0, subscribed s l v0 -> v0 < zVer s -> zNodes s <> [] -> pending s \/ exists pre, told s l = pre ++ [(zVer s, zNodes s)]
}.
Lemma exb : forall c l, existsb (Nat.eqb c) l = true <-> In c l.
Proof. intros c l. rewrite existsb_exists. split; [intros (x & H & E); apply Nat.eqb_eq in E; subst; exact H|intros H; exists c; split; [exact H|apply Nat.eqb_refl]]. Qed.
Lemma exb_no : forall c l, existsb (Nat.eqb c) l = false <-> ~ In c l.
Proof. intros c l. rewrite <- exb. destruct (existsb (Nat.eqb c) l); split; intro H; [discriminate|exfalso; apply H; reflexivity|intro X; discriminate|reflexivity]. Qed.
Lemma in_set : forall (A : Type) (l : list A) i a b x, nth_error l i = Some a -> In x (list_set l i b) -> x = b \/ In x l.
Proof. intros A l. induction l as [|y l IH]; intros i a b x N H; [destruct i; discriminate|]. destruct i as [|i]; cbn in *; destruct H as [H|H]; auto. destruct (IH i a b x N H); auto. Qed.
Lemma in_set_new : forall (A : Type) (l : list A) i a b, nth_error l i = Some a -> In b (list_set l i b).
Proof. intros A l. induction l as [|y l IH]; intros i a b N; [destruct i; discriminate|]. destruct i as [|i]; cbn in *; [left; reflexivity|right; exact (IH i a b N)]. Qed.
Lemma in_set_old : forall (A : Type) (l : list A) i a b x, nth_error l i = Some a -> In x l -> x = a \/ In x (list_set l i b).
Proof. intros A l. induction l as [|y l IH]; intros i a b x N H; [destruct i; discriminate|]. destruct i as [|i]; cbn in *; [injection N as ->; destruct H as [H|H]; auto|]. destruct H as [H|H]; [auto|]. destruct (IH i a b x N H); auto. Qed.
Lemma nth_in : forall (A : Type) (l : list A) i a, nth_error l i = Some a -> In a l.
Proof. intros A l i a H. exact (nth_error_In l i H). Qed.
Lemma fire_in : forall e ws w, In w (fire e ws) -> exists w0, In w0 ws /\ wPh w = wPh w0 /\ wSw w = wSw w0 /\ ((wCh w0 = Armed /\ wCh w = e) \/ (wCh w0 <> Armed /\ wCh w = wCh w0)).
Proof.
  intros e ws w H. unfold fire in H. apply in_map_iff in H. destruct H as (w0 & <- & H). exists w0. split; [exact H|]. destruct (wCh w0) eqn:E; cbn [wPh wSw wCh]; repeat split; auto; right; split; congruence.
Qed.
Lemma fire_old : forall e ws w, In w ws -> exists w', In w' (fire e ws) /\ wPh w' = wPh w /\ wSw w' = wSw w /\ (wCh w = Armed -> wCh w' = e) /\ (wCh w <> Armed -> wCh w' = wCh w).
Proof.
  intros e ws w H. exists (match wCh w with Armed => mkWat e (wPh w) (wSw w) | _ => w end). split; [unfold fire; apply in_map_iff; exists w; auto|].
  destruct (wCh w) eqn:E; cbn [wPh wSw wCh]; repeat split; auto; try congruence.
Qed.

Lemma inv_init : inv (winit true).
Proof.
  constructor; cbn; try discriminate; try reflexivity; try (intros; contradiction).
  all: try (split; [intros c []|discriminate]); intros l v0 (ls & E & _); discriminate E.
Qed.

(* a new watcher *)
Definition with_new (s : wst) : wst :=
  let '(c, next) := match zSw s with Some c => (c, zNext s) | None => (zNext s, S (zNext s)) end in
  mkW true (zNodes s) (zVer s) (zAvail s) (zLis s) (Some c) (zClosed s) next (zW s ++ [mkWat Armed PWait c]) (zBlocked s) (zLog s).
Lemma doSub_new : forall cmd s, zExists s = true -> doSub cmd s true = with_new s.
Proof. intros cmd s H. unfold doSub. rewrite H. cbn [negb orb]. rewrite Bool.andb_false_r. reflexivity. Qed.
Lemma told_log : forall s s' l, zLog s' = zLog s -> told s' l = told s l.
Proof. intros s s' l H. unfold told. rewrite H. reflexivity. Qed.
Lemma inv_up : forall s, inv s -> (exists ls, zLis s = Some ls /\ ls <> []) -> zBlocked s = None -> inv (with_new s).
Proof.
  intros s V (ls & El & Ne) B. destruct (i_some s V ls El) as (c & Ec & Nc & Hw & w0 & Hw0 & Aw0).
  unfold with_new. rewrite Ec. constructor; cbn [zExists zNodes zVer zAvail zLis zSw zClosed zNext zW zBlocked zLog]; try reflexivity.
  - intros w H A. apply in_app_or in H. destruct H as [H|[<-|[]]]; [exact (i_ch s V w H A)|left; reflexivity].
  - split; [exact (proj1 (i_fresh s V))|]. intros c' E. injection E as <-. exact (proj2 (i_fresh s V) c Ec).
  - intros w H. apply in_app_or in H. destruct H as [H|[<-|[]]]; [exact (i_wfresh s V w H)|exact (proj2 (i_fresh s V) c Ec)].
  - rewrite B. discriminate.
  - intros ls' E. exists c. split; [reflexivity|]. split; [exact Nc|]. split.
    + intros w H A. apply in_app_or in H. destruct H as [H|[<-|[]]]; [exact (Hw w H A)|]. split; [reflexivity|]. split; [left|left]; reflexivity.
    + exists w0. split; [apply in_or_app; left; exact Hw0|exact Aw0].
  - intros E. rewrite El in E. injection E as E. contradiction.
  - intros E. rewrite El in E. discriminate.
  - intros w v x H P. apply in_app_or in H. destruct H as [H|[<-|[]]]; [exact (i_ver s V w v x H P)|discriminate].
  - intros l v0 Hs Hv Hn. destruct (i_latest s V l v0 Hs Hv Hn) as [(w & H & A & P)|H]; [left; exists w; split; [apply in_or_app; left; exact H|split; assumption]|right; exact H].
Qed.
Lemma inv_first : forall s l, inv s -> zLis s = None -> zBlocked s = None -> (forall w, In w (zW s) -> wPh w = PDead) -> inv (with_new (setLis s (Some [(l, zVer s)]))).
Proof.
  intros s l V El B D. assert (Es : zSw s = None). { destruct (zSw s) as [c|] eqn:E; [|reflexivity]. destruct (i_none s V El c E) as (w & H & _ & [[P _]|P]); rewrite (D w H) in P; discriminate. }
  unfold with_new, setLis. cbn [zSw]. rewrite Es. constructor; cbn [zExists zNodes zVer zAvail zLis zSw zClosed zNext zW zBlocked zLog]; try reflexivity.
  - intros w H A. apply in_app_or in H. destruct H as [H|[<-|[]]]; [exact (i_ch s V w H A)|left; reflexivity].
  - split; [intros c H; pose proof (proj1 (i_fresh s V) c H); lia|]. intros c E. injection E as <-. lia.
  - intros w H. apply in_app_or in H. destruct H as [H|[<-|[]]]; [pose proof (i_wfresh s V w H); lia|cbn [wSw]; lia].
  - rewrite B. discriminate.
  - intros ls' E. exists (zNext s). split; [reflexivity|]. split; [intros H; pose proof (proj1 (i_fresh s V) _ H); lia|]. split.
    + intros w H A. apply in_app_or in H. destruct H as [H|[<-|[]]]; [exfalso; exact (A (D w H))|]. split; [reflexivity|]. split; left; reflexivity.
    + eexists. split; [apply in_or_app; right; left; reflexivity|]. discriminate.
  - discriminate.
  - discriminate.
  - intros w v x H P. apply in_app_or in H. destruct H as [H|[<-|[]]]; [exact (i_ver s V w v x H P)|discriminate].
  - intros l' v0 (ls & E & H) Hv. cbn [zLis] in E. injection E as <-. destruct H as [H|[]]. injection H as _ <-. cbn [zVer] in Hv. lia.
Qed.
Lemma with_new_keeps : forall s, zLis (with_new s) = zLis s /\ zBlocked (with_new s) = zBlocked s /\ zExists (with_new s) = true /\ zLog (with_new s) = zLog s.
Proof. intros s. unfold with_new. destruct (zSw s); repeat split. Qed.
Lemma inv_ups : forall cmd oks s, inv s -> (oks = [] \/ exists ls, zLis s = Some ls /\ ls <> []) -> zBlocked s = None -> (forall b, In b oks -> b = true) -> inv (ups cmd s oks).
Proof.
  intros cmd oks. induction oks as [|b oks IH]; intros s V H B A; [exact V|]. cbn [ups]. destruct H as [H|H]; [discriminate|].
  rewrite (A b (or_introl eq_refl)), (doSub_new cmd s (i_ex s V)). destruct (with_new_keeps s) as (K1 & K2 & K3 & K4).
  apply IH; [apply inv_up; assumption|right; rewrite K1; exact H|rewrite K2; exact B|intros x Hx; apply A; right; exact Hx].
Qed.
Lemma inv_setAv : forall s b, inv s -> inv (setAv s b (zW s)).
Proof. intros s b V. destruct V as [V1 V2 V3 V3' V4 V5 V6 V7 V8 V9]. constructor; auto. Qed.
(* one goroutine changes *)
Lemma told_app : forall s s' l new, zLog s' = zLog s ++ new -> told s' l = told s l ++ map snd (filter (fun e => fst e =? l) new).
Proof. intros s s' l new H. unfold told. rewrite H, filter_app, map_app. reflexivity. Qed.
Lemma told_new : forall ls l v0 (x : nat * list bs), In (l, v0) ls -> exists pre, map snd (filter (fun e => fst e =? l) (map (fun e : nat * nat => (fst e, x)) ls)) = pre ++ [x].
Proof.
  intros ls l v0 x H.
  assert (E : exists n, map snd (filter (fun e => fst e =? l) (map (fun e : nat * nat => (fst e, x)) ls)) = repeat x n /\ (In (l, v0) ls -> n <> 0)).
  { clear H. induction ls as [|[k v] ls IH]; [exists 0; split; [reflexivity|intros []]|]. destruct IH as (n & E & N). cbn [map filter fst]. destruct (k =? l) eqn:K.
    - exists (S n). cbn [map snd]. rewrite E. split; [reflexivity|discriminate].
    - exists n. split; [exact E|]. intros [H|H]; [injection H as -> _; rewrite Nat.eqb_refl in K; discriminate|exact (N H)]. }
  destruct E as (n & E & N). rewrite E. destruct n as [|n]; [exfalso; exact (N H eq_refl)|]. exists (repeat x n). clear. change (repeat x (S n) = repeat x n ++ [x]). induction n; [reflexivity|]. cbn [repeat app] in *. congruence.
Qed.

Lemma inv_step : forall cmd s o s', inv s -> calm_op s o -> wstep cmd s o = Some s' -> inv s'.
Proof.
  intros cmd s o s' V C H. destruct o as [l ok|l|i| |c| | | | |oks|i ok|i|i|i|i]; cbn [wstep calm_op] in *.
  - (* OSub *)
    destruct (zBlocked s) eqn:B; [discriminate|]. destruct (negb (zAvail s)); [injection H as <-; exact V|]. destruct C as [-> C].
    destruct (zLis s) as [ls|] eqn:El.
    + injection H as <-. destruct V as [V1 V2 V3 V3' V4 V5 V6 V7 V8 V9]. constructor; cbn [setLis zExists zNodes zVer zAvail zLis zSw zClosed zNext zW zBlocked zLog]; auto.
      * rewrite B. discriminate.
      * intros ls' E. exact (V5 ls El).
      * intros E. exfalso. unfold addLis in E. injection E as E. destruct (filter (fun e => negb (fst e =? l)) ls); discriminate.
      * discriminate.
      * intros l' v0 (ls' & E & Hin) Hv Hn. cbn [setLis zLis] in E. injection E as <-. unfold addLis in Hin. apply in_app_or in Hin. destruct Hin as [Hin|[Hin|[]]].
        -- apply filter_In in Hin. apply (V9 l' v0); [exists ls; split; [exact El|exact (proj1 Hin)]|exact Hv|exact Hn].
        -- injection Hin as _ <-. cbn [setLis zVer] in Hv. lia.
    + injection H as <-. rewrite doSub_new by (exact (i_ex s V)). apply inv_first; auto.
  - (* OUnsub *)
    destruct (zBlocked s) eqn:B; [discriminate|]. destruct (negb (zAvail s)); [injection H as <-; exact V|].
    destruct (zLis s) as [ls|] eqn:El; [|injection H as <-; exact V]. destruct (i_some s V ls El) as (c & Ec & Nc & Hw & Ha). rewrite Ec in H.
    assert (L : forall l' v0, In (l', v0) (delLis ls l) -> In (l', v0) ls) by (intros l' v0 X; apply filter_In in X; exact (proj1 X)).
    assert (G : forall blk, (blk = None \/ (blk = Some c /\ delLis ls l = [])) -> (delLis ls l = [] -> blk <> None) -> inv (setBlk (setLis s (Some (delLis ls l))) blk)).
    { intros blk Hb He. destruct V as [V1 V2 V3 V3' V4 V5 V6 V7 V8 V9]. constructor; cbn [setBlk setLis zExists zNodes zVer zAvail zLis zSw zClosed zNext zW zBlocked zLog]; auto.
      - intros c' E. destruct Hb as [-> |[-> Hd]]; [discriminate|]. injection E as <-. split; [rewrite Hd; reflexivity|exact Ec].
      - intros ls' E. exists c. auto.
      - intros E. injection E as E. exact (He E).
      - discriminate.
      - intros l' v0 (ls' & E & Hin) Hv Hn. cbn [setBlk setLis zLis] in E. injection E as <-. apply (V9 l' v0); [exists ls; split; [exact El|exact (L l' v0 Hin)]|exact Hv|exact Hn]. }
    destruct (delLis ls l) as [|e r] eqn:D; injection H as <-.
    + apply G; [right; split; reflexivity|discriminate].
    + assert (E : setLis s (Some (e :: r)) = setBlk (setLis s (Some (e :: r))) None) by (unfold setBlk, setLis; cbn; rewrite B; reflexivity). rewrite E. apply G; [left; reflexivity|discriminate].
  - (* OSend *)
    destruct (zBlocked s) as [c|] eqn:B; [|discriminate]. destruct (nth_error (zW s) i) as [w|] eqn:N; [|discriminate]. destruct (wPh w) eqn:P; try discriminate.
    destruct ((wSw w =? c) && negb (existsb (Nat.eqb c) (zClosed s))) eqn:E; [|discriminate]. injection H as <-. apply andb_true_iff in E. destruct E as [E1 E2]. apply Nat.eqb_eq in E1. apply negb_true_iff, exb_no in E2.
    destruct (i_blk s V c B) as [El Es].
    constructor; cbn [setBlk setLis setW zExists zNodes zVer zAvail zLis zSw zClosed zNext zW zBlocked zLog]; try discriminate.
    + exact (i_ex s V).
    + intros x H A. apply (in_set _ _ _ _ _ _ N) in H. destruct H as [-> |H]; [|exact (i_ch s V x H A)]. cbn [wCh]. apply (i_ch s V w (nth_in _ _ _ _ N)). unfold alive. rewrite P. discriminate.
    + exact (i_fresh s V).
    + intros x H. apply (in_set _ _ _ _ _ _ N) in H. destruct H as [-> |H]; [exact (i_wfresh s V w (nth_in _ _ _ _ N))|exact (i_wfresh s V x H)].
    + intros _ c' E. rewrite Es in E. injection E as <-. eexists. split; [exact (in_set_new _ _ _ _ _ N)|]. split; [exact E1|]. left. split; [reflexivity|exact E2].
    + intros x v k H Q. apply (in_set _ _ _ _ _ _ N) in H. destruct H as [-> |H]; [discriminate|exact (i_ver s V x v k H Q)].
    + intros l' v0 (ls & E & _). discriminate E.
  - (* OPanic *)
    destruct (zBlocked s) as [c|] eqn:B; [|discriminate]. destruct (existsb (Nat.eqb c) (zClosed s)) eqn:E; [|discriminate]. apply exb in E.
    destruct (i_blk s V c B) as [El Es]. destruct (i_some s V [] El) as (c' & Ec & Nc & _). rewrite Es in Ec. injection Ec as <-. contradiction.
  - (* OChange *)
    destruct (zExists s) eqn:X; [|discriminate]. injection H as <-.
    constructor; cbn [setNode zExists zNodes zVer zAvail zLis zSw zClosed zNext zW zBlocked zLog].
    + reflexivity.
    + intros w H A. apply fire_in in H. destruct H as (w0 & H & P & S0 & [[_ E]|[Z E]]); [right; exact E|]. rewrite E. apply (i_ch s V w0 H). unfold alive in *. rewrite <- P. exact A.
    + exact (i_fresh s V).
    + intros w H. apply fire_in in H. destruct H as (w0 & H & _ & -> & _). exact (i_wfresh s V w0 H).
    + exact (i_blk s V).
    + intros ls El. destruct (i_some s V ls El) as (k & Ec & Nc & Hw & w0 & Hw0 & A0). exists k. split; [exact Ec|]. split; [exact Nc|]. split.
      * intros w H A. apply fire_in in H. destruct H as (w1 & H & P & S0 & E). assert (A1 : alive w1) by (unfold alive in *; rewrite <- P; exact A).
        destruct (Hw w1 H A1) as (S1 & Q1 & Q2). split; [congruence|]. split; [|rewrite P; exact Q2]. destruct E as [[_ E]|[_ E]]; rewrite E; [right; reflexivity|exact Q1].
      * destruct (fire_old Changed (zW s) w0 Hw0) as (w' & H' & P' & _). exists w'. split; [exact H'|]. unfold alive in *. rewrite P'. exact A0.
    + exact (i_empty s V).
    + intros El k Ek. destruct (i_none s V El k Ek) as (w & H & S0 & Q). destruct (fire_old Changed (zW s) w H) as (w' & H' & P' & S' & _). exists w'. split; [exact H'|]. split; [congruence|]. rewrite P'. exact Q.
    + intros w v k H P. apply fire_in in H. destruct H as (w0 & H & P0 & _ & E). rewrite P in P0. symmetry in P0. destruct (i_ver s V w0 v k H P0) as [Q1 Q2]. split; [lia|]. intros A. destruct E as [[_ E]|[Z E]]; congruence.
    + intros l v0 (ls & El & Hin) _ _. left. destruct (i_some s V ls El) as (k & Ec & Nc & Hw & w0 & Hw0 & A0). destruct (fire_old Changed (zW s) w0 Hw0) as (w' & H' & P' & _ & F1 & F2).
      exists w'. split; [exact H'|]. split; [unfold alive in *; rewrite P'; exact A0|]. left. destruct (Hw w0 Hw0 A0) as (_ & [Q|Q] & _); [exact (F1 Q)|]. rewrite F2; [exact Q|rewrite Q; discriminate].
  - rewrite (i_ex s V) in H. discriminate.
  - contradiction.
  - injection H as <-. apply inv_setAv. exact V.
  - contradiction.
  - (* OUp *)
    destruct (zBlocked s) eqn:B; [discriminate|]. destruct (zAvail s); [discriminate|]. destruct (length oks =? length (match zLis s with Some ls => ls | None => [] end)) eqn:Q; [|discriminate].
    injection H as <-. apply Nat.eqb_eq in Q. apply inv_ups; [apply inv_setAv; exact V| |exact B|exact C].
    cbn [setAv zLis]. destruct (zLis s) as [[|e ls]|] eqn:El.
    + exfalso. exact (i_empty s V El B).
    + right. exists (e :: ls). split; [reflexivity|discriminate].
    + left. destruct oks; [reflexivity|discriminate Q].
  - (* OEvent *)
    subst ok. destruct (nth_error (zW s) i) as [w|] eqn:N; [|discriminate]. pose proof (nth_in _ _ _ _ N) as Nw.
    destruct (wPh w) eqn:P; try discriminate. assert (A : alive w) by (unfold alive; rewrite P; discriminate).
    destruct (i_ch s V w Nw A) as [E|E]; rewrite E in H; [discriminate|]. rewrite (i_ex s V) in H. cbn [andb] in H. injection H as <-.
    constructor; cbn [setW zExists zNodes zVer zAvail zLis zSw zClosed zNext zW zBlocked zLog].
    + exact (i_ex s V).
    + intros x H Ax. apply (in_set _ _ _ _ _ _ N) in H. destruct H as [-> |H]; [left; reflexivity|exact (i_ch s V x H Ax)].
    + exact (i_fresh s V).
    + intros x H. apply (in_set _ _ _ _ _ _ N) in H. destruct H as [-> |H]; [exact (i_wfresh s V w (nth_in _ _ _ _ N))|exact (i_wfresh s V x H)].
    + exact (i_blk s V).
    + intros ls El. destruct (i_some s V ls El) as (k & Ec & Nc & Hw & w0 & Hw0 & A0). exists k. split; [exact Ec|]. split; [exact Nc|]. split.
      * intros x H Ax. apply (in_set _ _ _ _ _ _ N) in H. destruct H as [-> |H]; [|exact (Hw x H Ax)]. split; [exact (proj1 (Hw w Nw A))|]. split; [left; reflexivity|right; do 2 eexists; reflexivity].
      * eexists. split; [exact (in_set_new _ _ _ _ _ N)|discriminate].
    + exact (i_empty s V).
    + intros El k Ek. destruct (i_none s V El k Ek) as (x & H & S0 & Q). destruct (in_set_old _ _ _ _ (mkWat Armed (PNotify (zVer s) (zNodes s)) (wSw w)) x N H) as [-> |H']; [destruct Q as [[Q _]|Q]; congruence|].
      exists x. split; [exact H'|]. split; assumption.
    + intros x v k H Q. apply (in_set _ _ _ _ _ _ N) in H. destruct H as [-> |H]; [|exact (i_ver s V x v k H Q)]. injection Q as <- <-. split; [lia|]. split; reflexivity.
    + intros l v0 Hs Hv Hn. left. eexists. split; [exact (in_set_new _ _ _ _ _ N)|]. split; [discriminate|right; do 2 eexists; reflexivity].
  - (* ONotify *)
    destruct (nth_error (zW s) i) as [w|] eqn:N; [|discriminate]. pose proof (nth_in _ _ _ _ N) as Nw. destruct (wPh w) as [|v c| | |] eqn:P; try discriminate. assert (A : alive w) by (unfold alive; rewrite P; discriminate).
    set (new := match zLis s, c with Some ls, _ :: _ => map (fun e => (fst e, (v, c))) ls | _, _ => [] end) in *. injection H as <-.
    constructor; cbn [setW zExists zNodes zVer zAvail zLis zSw zClosed zNext zW zBlocked zLog].
    + exact (i_ex s V).
    + intros x H Ax. apply (in_set _ _ _ _ _ _ N) in H. destruct H as [-> |H]; [exact (i_ch s V w Nw A)|exact (i_ch s V x H Ax)].
    + exact (i_fresh s V).
    + intros x H. apply (in_set _ _ _ _ _ _ N) in H. destruct H as [-> |H]; [exact (i_wfresh s V w (nth_in _ _ _ _ N))|exact (i_wfresh s V x H)].
    + exact (i_blk s V).
    + intros ls El. destruct (i_some s V ls El) as (k & Ec & Nc & Hw & w0 & Hw0 & A0). exists k. split; [exact Ec|]. split; [exact Nc|]. split.
      * intros x H Ax. apply (in_set _ _ _ _ _ _ N) in H. destruct H as [-> |H]; [|exact (Hw x H Ax)]. destruct (Hw w Nw A) as (S0 & Q1 & Q2). split; [exact S0|]. split; [exact Q1|left; reflexivity].
      * eexists. split; [exact (in_set_new _ _ _ _ _ N)|discriminate].
    + exact (i_empty s V).
    + intros El k Ek. destruct (i_none s V El k Ek) as (x & H & S0 & Q). destruct (in_set_old _ _ _ _ (mkWat (wCh w) PWait (wSw w)) x N H) as [-> |H']; [destruct Q as [[Q _]|Q]; congruence|].
      exists x. split; [exact H'|]. split; assumption.
    + intros x v' k H Q. apply (in_set _ _ _ _ _ _ N) in H. destruct H as [-> |H]; [discriminate|exact (i_ver s V x v' k H Q)].
    + intros l v0 (ls & El & Hin) Hv Hn. cbn [setW zLis zVer zNodes] in El, Hv, Hn. destruct (i_ch s V w Nw A) as [E|E].
      * destruct (proj2 (i_ver s V w v c Nw P) E) as [-> ->]. right. destruct (zNodes s) as [|n ns] eqn:En; [exfalso; apply Hn; reflexivity|].
        assert (T : new = map (fun e : nat * nat => (fst e, (zVer s, n :: ns))) ls) by (unfold new; rewrite El; reflexivity).
        destruct (told_new ls l v0 (zVer s, n :: ns) Hin) as (pre & Epre). exists (told s l ++ pre).
        rewrite (told_app s _ l new) by reflexivity. rewrite T, Epre, app_assoc. reflexivity.
      * left. eexists. split; [exact (in_set_new _ _ _ _ _ N)|]. split; [discriminate|left; exact E].
  - (* OClose *)
    destruct (nth_error (zW s) i) as [w|] eqn:N; [|discriminate]. pose proof (nth_in _ _ _ _ N) as Nw. destruct (wPh w) eqn:P; try discriminate. assert (A : alive w) by (unfold alive; rewrite P; discriminate).
    assert (Ln : zLis s = None). { destruct (zLis s) as [ls|] eqn:El; [|reflexivity]. destruct (i_some s V ls El) as (k & _ & _ & Hw & _). destruct (Hw w Nw A) as (_ & _ & [Q|(v & x & Q)]); congruence. }
    destruct (existsb (Nat.eqb (wSw w)) (zClosed s)) eqn:E.
    + apply exb in E. injection H as <-. constructor; cbn [setW zExists zNodes zVer zAvail zLis zSw zClosed zNext zW zBlocked zLog].
      * exact (i_ex s V).
      * intros x H Ax. apply (in_set _ _ _ _ _ _ N) in H. destruct H as [-> |H]; [exfalso; apply Ax; reflexivity|exact (i_ch s V x H Ax)].
      * exact (i_fresh s V).
      * intros x H. apply (in_set _ _ _ _ _ _ N) in H. destruct H as [-> |H]; [exact (i_wfresh s V w (nth_in _ _ _ _ N))|exact (i_wfresh s V x H)].
      * exact (i_blk s V).
      * rewrite Ln. discriminate.
      * rewrite Ln. discriminate.
      * intros El k Ek. destruct (i_none s V El k Ek) as (x & H & S0 & Q). destruct (in_set_old _ _ _ _ (mkWat (wCh w) PDead (wSw w)) x N H) as [-> |H'].
        -- exfalso. destruct Q as [[_ Q]|Q]; [subst k; contradiction|congruence].
        -- exists x. split; [exact H'|]. split; [exact S0|exact Q].
      * intros x v' k H Q. apply (in_set _ _ _ _ _ _ N) in H. destruct H as [-> |H]; [discriminate|exact (i_ver s V x v' k H Q)].
      * intros l v0 (ls & El & _). cbn [setW zLis] in El. congruence.
    + apply exb_no in E. injection H as <-. constructor; cbn [setW zExists zNodes zVer zAvail zLis zSw zClosed zNext zW zBlocked zLog].
      * exact (i_ex s V).
      * intros x H Ax. apply (in_set _ _ _ _ _ _ N) in H. destruct H as [-> |H]; [exact (i_ch s V w Nw A)|exact (i_ch s V x H Ax)].
      * split; [intros k [<-|Hk]; [exact (i_wfresh s V w Nw)|exact (proj1 (i_fresh s V) k Hk)]|exact (proj2 (i_fresh s V))].
      * intros x H. apply (in_set _ _ _ _ _ _ N) in H. destruct H as [-> |H]; [exact (i_wfresh s V w (nth_in _ _ _ _ N))|exact (i_wfresh s V x H)].
      * exact (i_blk s V).
      * rewrite Ln. discriminate.
      * rewrite Ln. discriminate.
      * intros El k Ek. destruct (i_none s V El k Ek) as (x & H & S0 & Q). destruct (Nat.eq_dec (wSw w) k) as [Ew|Ew].
        -- eexists. split; [exact (in_set_new _ _ _ _ _ N)|]. split; [exact Ew|right; reflexivity].
        -- destruct (in_set_old _ _ _ _ (mkWat (wCh w) PDelete (wSw w)) x N H) as [-> |H']; [congruence|]. exists x. split; [exact H'|]. split; [exact S0|].
           destruct Q as [[Q1 Q2]|Q]; [left; split; [exact Q1|]|right; exact Q]. cbn [zClosed setW]. intros [X|X]; [congruence|contradiction].
      * intros x v' k H Q. apply (in_set _ _ _ _ _ _ N) in H. destruct H as [-> |H]; [discriminate|exact (i_ver s V x v' k H Q)].
      * intros l v0 (ls & El & _). cbn [setW zLis] in El. congruence.
  - (* ODel *)
    destruct (nth_error (zW s) i) as [w|] eqn:N; [|discriminate]. pose proof (nth_in _ _ _ _ N) as Nw. destruct (wPh w) eqn:P; try discriminate. assert (A : alive w) by (unfold alive; rewrite P; discriminate).
    assert (Ln : zLis s = None). { destruct (zLis s) as [ls|] eqn:El; [|reflexivity]. destruct (i_some s V ls El) as (k & _ & _ & Hw & _). destruct (Hw w Nw A) as (_ & _ & [Q|(v & x & Q)]); congruence. }
    injection H as <-. constructor; cbn [setW zExists zNodes zVer zAvail zLis zSw zClosed zNext zW zBlocked zLog].
    + exact (i_ex s V).
    + intros x H Ax. apply (in_set _ _ _ _ _ _ N) in H. destruct H as [-> |H]; [exfalso; apply Ax; reflexivity|exact (i_ch s V x H Ax)].
    + split; [exact (proj1 (i_fresh s V))|discriminate].
    + intros x H. apply (in_set _ _ _ _ _ _ N) in H. destruct H as [-> |H]; [exact (i_wfresh s V w (nth_in _ _ _ _ N))|exact (i_wfresh s V x H)].
    + intros k Ek. destruct (i_blk s V k Ek) as [X _]. congruence.
    + rewrite Ln. discriminate.
    + rewrite Ln. discriminate.
    + discriminate.
    + intros x v' k H Q. apply (in_set _ _ _ _ _ _ N) in H. destruct H as [-> |H]; [discriminate|exact (i_ver s V x v' k H Q)].
    + intros l v0 (ls & El & _). cbn [setW zLis] in El. congruence.
  - (* OSwitch *)
    destruct (nth_error (zW s) i) as [w|] eqn:N; [|discriminate]. pose proof (nth_in _ _ _ _ N) as Nw. destruct (wPh w) eqn:P; try discriminate. assert (A : alive w) by (unfold alive; rewrite P; discriminate).
    destruct (existsb (Nat.eqb (wSw w)) (zClosed s)) eqn:E; [|discriminate]. apply exb in E.
    assert (Ln : zLis s = None). { destruct (zLis s) as [ls|] eqn:El; [|reflexivity]. destruct (i_some s V ls El) as (k & _ & Nk & Hw & _). destruct (Hw w Nw A) as (X & _). congruence. }
    injection H as <-. constructor; cbn [setW zExists zNodes zVer zAvail zLis zSw zClosed zNext zW zBlocked zLog].
    + exact (i_ex s V).
    + intros x H Ax. apply (in_set _ _ _ _ _ _ N) in H. destruct H as [-> |H]; [exact (i_ch s V w Nw A)|exact (i_ch s V x H Ax)].
    + exact (i_fresh s V).
    + intros x H. apply (in_set _ _ _ _ _ _ N) in H. destruct H as [-> |H]; [exact (i_wfresh s V w (nth_in _ _ _ _ N))|exact (i_wfresh s V x H)].
    + exact (i_blk s V).
    + rewrite Ln. discriminate.
    + rewrite Ln. discriminate.
    + intros El k Ek. destruct (i_none s V El k Ek) as (x & H & S0 & Q). destruct (in_set_old _ _ _ _ (mkWat (wCh w) PClose (wSw w)) x N H) as [-> |H'].
      * exfalso. destruct Q as [[Q _]|Q]; congruence.
      * exists x. split; [exact H'|]. split; [exact S0|exact Q].
    + intros x v' k H Q. apply (in_set _ _ _ _ _ _ N) in H. destruct H as [-> |H]; [discriminate|exact (i_ver s V x v' k H Q)].
    + intros l v0 (ls & El & _). cbn [setW zLis] in El. congruence.
Qed.
Lemma calm_inv : forall cmd ok s, calm cmd ok s -> inv s.
Proof. intros cmd ok s H. induction H as [|s o s' H IH C O0 E]; [apply inv_init|exact (inv_step cmd s o s' IH C E)]. Qed.

(* what is notified was there *)
Lemma wruns_app : forall cmd a b s, wruns cmd s (a ++ b) = match wruns cmd s a with Some s' => wruns cmd s' b | None => None end.
Proof. intros cmd a. induction a as [|o a IH]; intros b s; [reflexivity|]. cbn [app wruns]. destruct (wstep cmd s o); [apply IH|reflexivity]. Qed.
Definition was (cmd : bool) (s0 : wst) (os : list wop) (v : nat) (c : list bs) : Prop :=
  exists pre post s1, os = pre ++ post /\ wruns cmd s0 pre = Some s1 /\ zExists s1 = true /\ zVer s1 = v /\ zNodes s1 = c.
Lemma was_more : forall cmd s0 os o v c, was cmd s0 os v c -> was cmd s0 (os ++ [o]) v c.
Proof. intros cmd s0 os o v c (pre & post & s1 & -> & H). exists pre, (post ++ [o]), s1. rewrite <- app_assoc. split; [reflexivity|exact H]. Qed.
Lemma ups_keeps : forall cmd oks s, zLis (ups cmd s oks) = zLis s /\ zLog (ups cmd s oks) = zLog s /\ (forall w v c, In w (zW (ups cmd s oks)) -> wPh w = PNotify v c -> In w (zW s)).
Proof.
  intros cmd oks. induction oks as [|b oks IH]; intros s; [repeat split; auto|]. cbn [ups]. destruct (IH (doSub cmd s b)) as (H1 & H2 & H3). rewrite H1, H2.
  unfold doSub in *. destruct (negb b || negb cmd && negb (zExists s)); [auto|]. destruct (match zSw s with Some c => (c, zNext s) | None => (zNext s, S (zNext s)) end) as [k n].
  cbn [zLis zLog zW] in *. split; [reflexivity|]. split; [reflexivity|]. intros w v c H P. specialize (H3 w v c H P). apply in_app_or in H3. destruct H3 as [H3|[<-|[]]]; [exact H3|discriminate].
Qed.
Lemma doSub_keeps : forall cmd s ok, zLis (doSub cmd s ok) = zLis s /\ zLog (doSub cmd s ok) = zLog s /\ (forall w v c, In w (zW (doSub cmd s ok)) -> wPh w = PNotify v c -> In w (zW s)).
Proof. intros cmd s ok. exact (ups_keeps cmd [ok] s). Qed.
(* every step: what it adds to the log, to the listeners, and which watchers have read *)
Definition lis_keys (s : wst) : list nat := match zLis s with Some ls => map fst ls | None => [] end.
Lemma step_facts : forall cmd s o s', wstep cmd s o = Some s' ->
  (exists new, zLog s' = zLog s ++ new /\ (forall l v c, In (l, (v, c)) new -> c <> [] /\ In l (lis_keys s) /\ exists w, In w (zW s) /\ wPh w = PNotify v c)) /\
  (forall l, In l (lis_keys s') -> In l (lis_keys s) \/ exists ok, o = OSub l ok) /\
  (forall w v c, In w (zW s') -> wPh w = PNotify v c -> (exists w0, In w0 (zW s) /\ wPh w0 = PNotify v c) \/ (zExists s = true /\ zVer s = v /\ zNodes s = c)).
Proof.
  intros cmd s o s' H.
  assert (NIL : exists new : list (nat * (nat * list bs)), zLog s = zLog s ++ new /\ (forall l v c, In (l, (v, c)) new -> c <> [] /\ In l (lis_keys s) /\ exists w, In w (zW s) /\ wPh w = PNotify v c)).
  { exists []. split; [symmetry; apply app_nil_r|intros l v c []]. }
  assert (SET : forall i w w' v c, nth_error (zW s) i = Some w -> (forall v c, wPh w' <> PNotify v c) -> forall x, In x (list_set (zW s) i w') -> wPh x = PNotify v c -> (exists w0, In w0 (zW s) /\ wPh w0 = PNotify v c) \/ (zExists s = true /\ zVer s = v /\ zNodes s = c)).
  { intros i w w' v c N Q x Hx P. apply (in_set _ _ _ _ _ _ N) in Hx. destruct Hx as [-> |Hx]; [exfalso; exact (Q v c P)|left; exists x; auto]. }
  destruct o as [l ok|l|i| |c| | | | |oks|i ok|i|i|i|i]; cbn [wstep] in H.
  - destruct (zBlocked s); [discriminate|]. destruct (negb (zAvail s)); [injection H as <-; split; [exact NIL|]; split; [auto|]; intros w v c Hw P; left; exists w; auto|].
    destruct (zLis s) as [ls|] eqn:El; injection H as <-.
    + split; [exact NIL|]. split; [|intros w v c Hw P; left; exists w; auto]. intros l' Hl. unfold lis_keys, setLis, addLis in Hl. cbn [zLis] in Hl. rewrite map_app, in_app_iff in Hl. destruct Hl as [Hl|[<-|[]]]; [left|right; exists ok; reflexivity].
      unfold lis_keys. rewrite El. apply in_map_iff in Hl. destruct Hl as (e & <- & He). apply filter_In in He. apply in_map. exact (proj1 He).
    + destruct (doSub_keeps cmd (setLis s (Some [(l, zVer s)])) ok) as (H1 & H2 & H3). rewrite H2. split; [exact NIL|]. split.
      * intros l' Hl. unfold lis_keys in Hl. rewrite H1 in Hl. destruct Hl as [<-|[]]. right. exists ok. reflexivity.
      * intros w v c Hw P. left. exists w. split; [exact (H3 w v c Hw P)|exact P].
  - destruct (zBlocked s); [discriminate|]. destruct (negb (zAvail s)); [injection H as <-; split; [exact NIL|]; split; [auto|]; intros w v c Hw P; left; exists w; auto|].
    destruct (zLis s) as [ls|] eqn:El; [|injection H as <-; split; [exact NIL|]; split; [auto|]; intros w v c Hw P; left; exists w; auto].
    assert (K : forall l', In l' (map fst (delLis ls l)) -> In l' (lis_keys s)). { intros l' Hl. unfold lis_keys. rewrite El. apply in_map_iff in Hl. destruct Hl as (e & <- & He). apply filter_In in He. apply in_map. exact (proj1 He). }
    assert (G : s' = setBlk (setLis s (Some (delLis ls l))) (zBlocked s') ). { destruct (zSw s), (delLis ls l); injection H as <-; reflexivity. }
    rewrite G. split; [exact NIL|]. split; [intros l' Hl; left; exact (K l' Hl)|]. intros w v c Hw P; left; exists w; auto.
  - destruct (zBlocked s) as [c|]; [|discriminate]. destruct (nth_error (zW s) i) as [w|] eqn:N; [|discriminate]. destruct (wPh w); try discriminate. destruct ((wSw w =? c) && _); [|discriminate]. injection H as <-.
    split; [exact NIL|]. split; [intros l []|]. intros x v k Hx P. apply (SET i w (mkWat (wCh w) PClose (wSw w)) v k N ltac:(discriminate) x Hx P).
  - destruct (zBlocked s) as [c|]; [|discriminate]. destruct (existsb _ _); [|discriminate]. injection H as <-. split; [exact NIL|]. split; [auto|]. intros w v k Hw P; left; exists w; auto.
  - destruct (zExists s) eqn:X; [|discriminate]. injection H as <-. split; [exact NIL|]. split; [auto|]. intros w v k Hw P. apply fire_in in Hw. destruct Hw as (w0 & H0 & P0 & _). left. exists w0. split; [exact H0|congruence].
  - destruct (zExists s) eqn:X; [discriminate|]. injection H as <-. split; [exact NIL|]. split; [auto|]. intros w v k Hw P; left; exists w; auto.
  - destruct (zExists s) eqn:X; [|discriminate]. injection H as <-. split; [exact NIL|]. split; [auto|]. intros w v k Hw P. apply fire_in in Hw. destruct Hw as (w0 & H0 & P0 & _). left. exists w0. split; [exact H0|congruence].
  - injection H as <-. split; [exact NIL|]. split; [auto|]. intros w v k Hw P; left; exists w; auto.
  - destruct (zAvail s); [discriminate|]. injection H as <-. split; [exact NIL|]. split; [auto|]. intros w v k Hw P. apply fire_in in Hw. destruct Hw as (w0 & H0 & P0 & _). left. exists w0. split; [exact H0|congruence].
  - destruct (zBlocked s); [discriminate|]. destruct (zAvail s); [discriminate|]. destruct (length oks =? _); [|discriminate]. injection H as <-.
    destruct (ups_keeps cmd oks (setAv s true (zW s))) as (H1 & H2 & H3). rewrite H2. split; [exact NIL|]. split; [unfold lis_keys; rewrite H1; auto|]. intros w v k Hw P. left. exists w. split; [exact (H3 w v k Hw P)|exact P].
  - destruct (nth_error (zW s) i) as [w|] eqn:N; [|discriminate]. destruct (wPh w) eqn:P; try discriminate. destruct (wCh w) eqn:E; try discriminate; injection H as <-.
    + split; [exact NIL|]. split; [auto|]. destruct (ok && zExists s) eqn:X.
      * apply andb_true_iff in X. intros x v c Hx Q. apply (in_set _ _ _ _ _ _ N) in Hx. destruct Hx as [-> |Hx]; [|left; exists x; auto]. injection Q as <- <-. right. split; [exact (proj2 X)|split; reflexivity].
      * intros x v c Hx Q. apply (SET i w (mkWat Drained PWait (wSw w)) v c N ltac:(discriminate) x Hx Q).
    + split; [exact NIL|]. split; [auto|]. intros x v c Hx Q. apply (SET i w (mkWat Drained PWait (wSw w)) v c N ltac:(discriminate) x Hx Q).
    + split; [exact NIL|]. split; [auto|]. intros x v c Hx Q. apply (SET i w (mkWat Drained PDead (wSw w)) v c N ltac:(discriminate) x Hx Q).
    + split; [exact NIL|]. split; [auto|]. intros x v c Hw Q; left; exists x; auto.
  - destruct (nth_error (zW s) i) as [w|] eqn:N; [|discriminate]. destruct (wPh w) as [|v c| | |] eqn:P; try discriminate. injection H as <-. cbn [zLog zLis zW setW lis_keys]. split.
    + eexists. split; [reflexivity|]. intros l v' c' Hin. unfold lis_keys. destruct (zLis s) as [ls|]; [|destruct Hin]. destruct c as [|b c]; [destruct Hin|]. apply in_map_iff in Hin. destruct Hin as ([k v0] & E & Hk). injection E as <- <- <-.
      split; [discriminate|]. split; [apply in_map_iff; exists (k, v0); auto|]. exists w. split; [exact (nth_in _ _ _ _ N)|exact P].
    + split; [auto|]. intros x v' c' Hx Q. apply (SET i w (mkWat (wCh w) PWait (wSw w)) v' c' N ltac:(discriminate) x Hx Q).
  - destruct (nth_error (zW s) i) as [w|] eqn:N; [|discriminate]. destruct (wPh w) eqn:P; try discriminate. destruct (existsb _ _); injection H as <-; cbn [zLog zLis zW setW]; split; try exact NIL; split; auto; intros x v c Hx Q.
    + apply (SET i w (mkWat (wCh w) PDead (wSw w)) v c N ltac:(discriminate) x Hx Q).
    + apply (SET i w (mkWat (wCh w) PDelete (wSw w)) v c N ltac:(discriminate) x Hx Q).
  - destruct (nth_error (zW s) i) as [w|] eqn:N; [|discriminate]. destruct (wPh w) eqn:P; try discriminate. injection H as <-; cbn [zLog zLis zW setW]; split; [exact NIL|]; split; [auto|]. intros x v c Hx Q.
    apply (SET i w (mkWat (wCh w) PDead (wSw w)) v c N ltac:(discriminate) x Hx Q).
  - destruct (nth_error (zW s) i) as [w|] eqn:N; [|discriminate]. destruct (wPh w) eqn:P; try discriminate. destruct (existsb _ _); [|discriminate]. injection H as <-; cbn [zLog zLis zW setW]; split; [exact NIL|]; split; [auto|]. intros x v c Hx Q.
    apply (SET i w (mkWat (wCh w) PClose (wSw w)) v c N ltac:(discriminate) x Hx Q).
Qed.
Lemma content_inv : forall cmd ex os s, wruns cmd (winit ex) os = Some s ->
  (forall l v c, In (l, (v, c)) (zLog s) -> c <> [] /\ was cmd (winit ex) os v c) /\ (forall w v c, In w (zW s) -> wPh w = PNotify v c -> was cmd (winit ex) os v c).
Proof.
  intros cmd ex os. induction os as [|o os IH] using rev_ind; intros s H; [injection H as <-; split; [intros l v c []|intros w v c []]|].
  rewrite wruns_app in H. destruct (wruns cmd (winit ex) os) as [s1|] eqn:R; [|discriminate]. cbn [wruns] in H. destruct (wstep cmd s1 o) as [s2|] eqn:E; [|discriminate]. injection H as <-.
  destruct (IH s1 eq_refl) as [I1 I2]. destruct (step_facts cmd s1 o s2 E) as ((new & En & Hn) & _ & Hw). split.
  - intros l v c Hin. rewrite En in Hin. apply in_app_or in Hin. destruct Hin as [Hin|Hin].
    + destruct (I1 l v c Hin) as [A B]. split; [exact A|apply was_more; exact B].
    + destruct (Hn l v c Hin) as (A & _ & w & W1 & W2). split; [exact A|]. apply was_more. exact (I2 w v c W1 W2).
  - intros w v c W P. destruct (Hw w v c W P) as [(w0 & W0 & P0)|(X & <- & <-)]; [apply was_more; exact (I2 w0 v c W0 P0)|].
    exists os, [o], s1. split; [reflexivity|]. split; [exact R|]. auto.
Qed.
(* not subscribed: not told *)
Lemma silent : forall cmd os s s' l, (forall ok, ~ In (OSub l ok) os) -> ~ In l (lis_keys s) -> wruns cmd s os = Some s' -> told s' l = told s l /\ ~ In l (lis_keys s').
Proof.
  intros cmd os. induction os as [|o os IH]; intros s s' l No Nl H; [injection H as <-; auto|]. cbn [wruns] in H. destruct (wstep cmd s o) as [s1|] eqn:E; [|discriminate].
  destruct (step_facts cmd s o s1 E) as ((new & En & Hn) & Hk & _).
  assert (N1 : ~ In l (lis_keys s1)). { intros X. destruct (Hk l X) as [Y|(ok & ->)]; [exact (Nl Y)|]. apply (No ok). left. reflexivity. }
  destruct (IH s1 s' l (fun ok X => No ok (or_intror X)) N1 H) as [I1 I2]. split; [|exact I2]. rewrite I1, (told_app s s1 l new En).
  assert (F : filter (fun e => fst e =? l) new = []). { destruct (filter (fun e : nat * (nat * list bs) => fst e =? l) new) as [|[k [v c]] r] eqn:F; [reflexivity|]. exfalso.
    assert (Hin : In (k, (v, c)) (filter (fun e : nat * (nat * list bs) => fst e =? l) new)) by (rewrite F; left; reflexivity). apply filter_In in Hin. destruct Hin as [Hin K]. apply Nat.eqb_eq in K. cbn [fst] in K. subst k.
    destruct (Hn l v c Hin) as (_ & X & _). exact (Nl X). }
  rewrite F. apply app_nil_r.
Qed.

(* without reconnection: every change is told once, in order *)
Record inv1 (s : wst) : Prop := mkInv1 {
  o_one : forall i j a b, nth_error (zW s) i = Some a -> nth_error (zW s) j = Some b -> alive a -> alive b -> i = j;
  o_keys : forall ls, zLis s = Some ls -> NoDup (map fst ls);
  o_le : forall l v c, In (l, (v, c)) (zLog s) -> v <= zVer s;
  o_w : forall w l v c, In w (zW s) -> alive w -> In (l, (v, c)) (zLog s) -> (wCh w = Changed -> v < zVer s) /\ (forall v' c', wPh w = PNotify v' c' -> v < v');
  o_w2 : forall w v c, In w (zW s) -> wPh w = PNotify v c -> wCh w = Changed -> v < zVer s;
  o_sort : forall l, StronglySorted lt (map fst (told s l))
}.
Lemma inv1_init : inv1 (winit true).
Proof.
  constructor; cbn.
  - intros [|i]; discriminate.
  - discriminate.
  - intros l v c [].
  - intros w l v c [].
  - intros w v c [].
  - intros l. constructor.
Qed.
Lemma set_one : forall s i w w', inv1 s -> nth_error (zW s) i = Some w -> (alive w' -> alive w) ->
  forall j k a b, nth_error (list_set (zW s) i w') j = Some a -> nth_error (list_set (zW s) i w') k = Some b -> alive a -> alive b -> j = k.
Proof.
  intros s i w w' V N A. 
  assert (G : forall j a, nth_error (list_set (zW s) i w') j = Some a -> alive a -> exists a0, nth_error (zW s) j = Some a0 /\ alive a0).
  { intros j a Hj Aa. destruct (Nat.eq_dec j i) as [->|D].
    - exists w. split; [exact N|]. apply A. rewrite list_set_nth_error in Hj by (apply nth_error_Some; rewrite N; discriminate). rewrite Nat.eqb_refl in Hj. injection Hj as ->. exact Aa.
    - rewrite list_set_nth_error in Hj by (apply nth_error_Some; rewrite N; discriminate). apply Nat.eqb_neq in D. rewrite D in Hj. exists a. auto. }
  intros j k a b Hj Hk Aa Ab. destruct (G j a Hj Aa) as (a0 & X1 & X2), (G k b Hk Ab) as (b0 & Y1 & Y2). exact (o_one s V j k a0 b0 X1 Y1 X2 Y2).
Qed.
Lemma NoDup_filter_fst : forall (p : nat * nat -> bool) ls, NoDup (map fst ls) -> NoDup (map fst (filter p ls)).
Proof.
  intros p ls. induction ls as [|e ls IH]; intros H; [constructor|]. cbn [map] in H. inversion H as [|? ? N H']; subst. cbn [filter]. destruct (p e); [|exact (IH H')].
  cbn [map]. constructor; [|exact (IH H')]. intros X. apply N. apply in_map_iff in X. destruct X as (x & Ex & Hx). apply filter_In in Hx. apply in_map_iff. exists x. split; [exact Ex|exact (proj1 Hx)].
Qed.

Lemma inv1_set : forall s s' i w w', inv1 s -> nth_error (zW s) i = Some w -> zW s' = list_set (zW s) i w' -> zLog s' = zLog s -> zVer s' = zVer s ->
  (zLis s' = zLis s \/ zLis s' = None) -> (alive w' -> alive w) ->
  (alive w' -> forall l v c, In (l, (v, c)) (zLog s) -> (wCh w' = Changed -> v < zVer s) /\ (forall v' c', wPh w' = PNotify v' c' -> v < v')) ->
  (forall v c, wPh w' = PNotify v c -> wCh w' = Changed -> v < zVer s) -> inv1 s'.
Proof.
  intros s s' i w w' V N W L E K A H1 H2. constructor.
  - rewrite W. exact (set_one s i w w' V N A).
  - intros ls Hl. destruct K as [K|K]; rewrite K in Hl; [exact (o_keys s V ls Hl)|discriminate].
  - rewrite L, E. exact (o_le s V).
  - intros x l v c Hx Ax Hin. rewrite L in Hin. rewrite E. rewrite W in Hx. apply (in_set _ _ _ _ _ _ N) in Hx. destruct Hx as [-> |Hx]; [exact (H1 Ax l v c Hin)|exact (o_w s V x l v c Hx Ax Hin)].
  - intros x v c Hx P C. rewrite E. rewrite W in Hx. apply (in_set _ _ _ _ _ _ N) in Hx. destruct Hx as [-> |Hx]; [exact (H2 v c P C)|exact (o_w2 s V x v c Hx P C)].
  - intros l. rewrite (told_log s s' l L). exact (o_sort s V l).
Qed.
Lemma told_fst_in : forall s l v, In v (map fst (told s l)) -> exists c, In (l, (v, c)) (zLog s).
Proof.
  intros s l v H. unfold told in H. rewrite map_map in H. apply in_map_iff in H. destruct H as ([k [v' c]] & E & H). apply filter_In in H. destruct H as [H K]. apply Nat.eqb_eq in K. cbn in E, K. subst. exists c. exact H.
Qed.
Lemma sorted_snoc : forall l x, StronglySorted lt l -> (forall y, In y l -> y < x) -> StronglySorted lt (l ++ [x]).
Proof.
  intros l x. induction l as [|a l IH]; intros H F; [constructor; constructor|]. cbn [app]. inversion H as [|? ? H1 H2]; subst. constructor; [apply IH; [exact H1|intros y Hy; apply F; right; exact Hy]|].
  apply Forall_app. split; [exact H2|]. constructor; [apply F; left; reflexivity|constructor].
Qed.
Lemma new_one : forall ls l (x : nat * list bs), NoDup (map fst ls) -> map snd (filter (fun e => fst e =? l) (map (fun e : nat * nat => (fst e, x)) ls)) = [] \/ map snd (filter (fun e => fst e =? l) (map (fun e : nat * nat => (fst e, x)) ls)) = [x].
Proof.
  intros ls l x. induction ls as [|[k v] ls IH]; intros H; [left; reflexivity|]. cbn [map fst] in H. inversion H as [|? ? N H']; subst. cbn [map filter fst]. destruct (k =? l) eqn:K; [|exact (IH H')]. apply Nat.eqb_eq in K. subst k.
  right. cbn [map snd]. assert (F : filter (fun e : nat * (nat * list bs) => fst e =? l) (map (fun e : nat * nat => (fst e, x)) ls) = []).
  { destruct (filter (fun e : nat * (nat * list bs) => fst e =? l) (map (fun e : nat * nat => (fst e, x)) ls)) as [|[a b] r] eqn:F; [reflexivity|]. exfalso. assert (Hin : In (a, b) (filter (fun e : nat * (nat * list bs) => fst e =? l) (map (fun e : nat * nat => (fst e, x)) ls))) by (rewrite F; left; reflexivity).
    apply filter_In in Hin. destruct Hin as [Hin E]. cbn [fst] in E. apply Nat.eqb_eq in E. subst a. apply in_map_iff in Hin. destruct Hin as ([a' b'] & E & Hin). cbn [fst] in E. injection E as -> _. apply N. apply in_map_iff. exists (l, b'). auto. }
  rewrite F. reflexivity.
Qed.
Lemma inv1_with_new : forall s, inv1 s -> (forall w, In w (zW s) -> wPh w = PDead) -> inv1 (with_new s).
Proof.
  intros s V D. unfold with_new. destruct (match zSw s with Some c => (c, zNext s) | None => (zNext s, S (zNext s)) end) as [c n].
  assert (NE : forall i a, nth_error (zW s ++ [mkWat Armed PWait c]) i = Some a -> alive a -> i = length (zW s)).
  { intros i a Hi Aa. destruct (Nat.lt_ge_cases i (length (zW s))) as [L|G].
    - rewrite nth_error_app1 in Hi by exact L. exfalso. apply Aa. apply D. exact (nth_in _ _ _ _ Hi).
    - rewrite nth_error_app2 in Hi by exact G. destruct (i - length (zW s)) as [|[|m]] eqn:M; [lia|discriminate|discriminate]. }
  constructor; cbn [zW zLis zLog zVer].
  - intros i j a b Hi Hj Aa Ab. rewrite (NE i a Hi Aa), (NE j b Hj Ab). reflexivity.
  - exact (o_keys s V).
  - exact (o_le s V).
  - intros w l v k H A Hin. apply in_app_or in H. destruct H as [H|[<-|[]]]; [exact (o_w s V w l v k H A Hin)|]. split; [discriminate|intros; discriminate].
  - intros w v k H P C. apply in_app_or in H. destruct H as [H|[<-|[]]]; [exact (o_w2 s V w v k H P C)|discriminate].
  - intros l. exact (o_sort s V l).
Qed.
Lemma inv1_lis : forall s s', inv1 s -> zW s' = zW s -> zLog s' = zLog s -> zVer s' = zVer s -> (forall ls, zLis s' = Some ls -> NoDup (map fst ls)) -> inv1 s'.
Proof.
  intros s s' [V1 V2 V3 V4 V5 V6] W L E K. constructor; rewrite ?W, ?L, ?E; auto. intros l. rewrite (told_log s s' l L). apply V6.
Qed.
Lemma addLis_nodup : forall ls l v, NoDup (map fst ls) -> NoDup (map fst (addLis ls l v)).
Proof.
  intros ls l v H. unfold addLis. rewrite map_app. cbn [map fst]. pose proof (NoDup_filter_fst (fun e => negb (fst e =? l)) ls H) as F.
  apply NoDup_rev in F. rewrite <- (rev_involutive (map fst (filter _ ls) ++ [l])). apply NoDup_rev. rewrite rev_app_distr. cbn [rev app]. constructor; [|exact F].
  intros X. apply in_rev in X. apply in_map_iff in X. destruct X as (e & Ee & He). apply filter_In in He. destruct He as [_ He]. rewrite Ee, Nat.eqb_refl in He. discriminate.
Qed.
Lemma inv1_step : forall cmd s o s', inv s -> inv1 s -> calm_op s o -> no_reconnect o -> wstep cmd s o = Some s' -> inv1 s'.
Proof.
  intros cmd s o s' V W C NR H. destruct o as [l ok|l|i| |c| | | | |oks|i ok|i|i|i|i]; cbn [wstep calm_op no_reconnect] in *.
  - destruct (zBlocked s) eqn:B; [discriminate|]. destruct (negb (zAvail s)); [injection H as <-; exact W|]. destruct C as [-> C].
    destruct (zLis s) as [ls|] eqn:El; injection H as <-.
    + apply (inv1_lis s); try reflexivity; [exact W|]. intros ls' E. cbn [setLis zLis] in E. injection E as <-. apply addLis_nodup. exact (o_keys s W ls El).
    + rewrite doSub_new by (exact (i_ex s V)). apply inv1_with_new; [|exact (C eq_refl)]. apply (inv1_lis s); try reflexivity; [exact W|]. intros ls' E. cbn [setLis zLis] in E. injection E as <-. constructor; [intros []|constructor].
  - destruct (zBlocked s) eqn:B; [discriminate|]. destruct (negb (zAvail s)); [injection H as <-; exact W|].
    destruct (zLis s) as [ls|] eqn:El; [|injection H as <-; exact W].
    assert (G : s' = setBlk (setLis s (Some (delLis ls l))) (zBlocked s') ). { destruct (zSw s), (delLis ls l); injection H as <-; reflexivity. }
    rewrite G. apply (inv1_lis s); try reflexivity; [exact W|]. intros ls' E. cbn [setBlk setLis zLis] in E. injection E as <-. apply NoDup_filter_fst. exact (o_keys s W ls El).
  - destruct (zBlocked s) as [c|]; [|discriminate]. destruct (nth_error (zW s) i) as [w|] eqn:N; [|discriminate]. destruct (wPh w) eqn:P; try discriminate. destruct ((wSw w =? c) && _); [|discriminate]. injection H as <-.
    assert (A : alive w) by (unfold alive; rewrite P; discriminate).
    apply (inv1_set s _ i w (mkWat (wCh w) PClose (wSw w)) W N); try reflexivity; [right; reflexivity|intros _; exact A| |intros; discriminate].
    intros _ l v k Hin. split; [|intros; discriminate]. exact (proj1 (o_w s W w l v k (nth_in _ _ _ _ N) A Hin)).
  - destruct (zBlocked s) as [c|]; [|discriminate]. destruct (existsb _ _); [|discriminate]. injection H as <-. apply (inv1_lis s); try reflexivity; [exact W|]. exact (o_keys s W).
  - destruct (zExists s) eqn:X; [|discriminate]. injection H as <-. constructor; cbn [setNode zW zLis zLog zVer].
    + assert (G : forall i a, nth_error (fire Changed (zW s)) i = Some a -> alive a -> exists a0, nth_error (zW s) i = Some a0 /\ alive a0).
      { intros i a Hi Aa. unfold fire in Hi. rewrite nth_error_map in Hi. destruct (nth_error (zW s) i) as [a0|] eqn:N; [|discriminate]. cbn [option_map] in Hi. injection Hi as <-. exists a0. split; [reflexivity|]. unfold alive in *. destruct (wCh a0); exact Aa. }
      intros i j a b Hi Hj Aa Ab. destruct (G i a Hi Aa) as (a0 & X1 & X2), (G j b Hj Ab) as (b0 & Y1 & Y2). exact (o_one s W i j a0 b0 X1 Y1 X2 Y2).
    + exact (o_keys s W).
    + intros l v k Hin. pose proof (o_le s W l v k Hin). lia.
    + intros w l v k Hw Aw Hin. apply fire_in in Hw. destruct Hw as (w0 & H0 & P0 & _ & _). pose proof (o_le s W l v k Hin). split; [intros _; lia|]. intros v' c' P.
      assert (A0 : alive w0) by (unfold alive in *; rewrite <- P0; exact Aw). apply (proj2 (o_w s W w0 l v k H0 A0 Hin) v' c'). congruence.
    + intros w v k Hw P _. apply fire_in in Hw. destruct Hw as (w0 & H0 & P0 & _ & _). rewrite P in P0. symmetry in P0. pose proof (proj1 (i_ver s V w0 v k H0 P0)). lia.
    + intros l. exact (o_sort s W l).
  - rewrite (i_ex s V) in H. discriminate.
  - contradiction.
  - injection H as <-. apply (inv1_lis s); try reflexivity; [exact W|]. exact (o_keys s W).
  - contradiction.
  - contradiction.
  - subst ok. destruct (nth_error (zW s) i) as [w|] eqn:N; [|discriminate]. pose proof (nth_in _ _ _ _ N) as Nw.
    destruct (wPh w) eqn:P; try discriminate. assert (A : alive w) by (unfold alive; rewrite P; discriminate).
    destruct (i_ch s V w Nw A) as [E|E]; rewrite E in H; [discriminate|]. rewrite (i_ex s V) in H. cbn [andb] in H. injection H as <-.
    apply (inv1_set s _ i w (mkWat Armed (PNotify (zVer s) (zNodes s)) (wSw w)) W N); try reflexivity; [left; reflexivity|intros _; exact A| |intros; discriminate].
    intros _ l v k Hin. split; [discriminate|]. intros v' c' Q. injection Q as <- _. exact (proj1 (o_w s W w l v k Nw A Hin) E).
  - destruct (nth_error (zW s) i) as [w|] eqn:N; [|discriminate]. pose proof (nth_in _ _ _ _ N) as Nw. destruct (wPh w) as [|v c| | |] eqn:P; try discriminate. assert (A : alive w) by (unfold alive; rewrite P; discriminate).
    set (new := match zLis s, c with Some ls, _ :: _ => map (fun e => (fst e, (v, c))) ls | _, _ => [] end) in *. injection H as <-.
    assert (New : forall l v' c', In (l, (v', c')) new -> v' = v). { intros l v' c' Hin. unfold new in Hin. destruct (zLis s); [|destruct Hin]. destruct c; [destruct Hin|]. apply in_map_iff in Hin. destruct Hin as (e & E & _). injection E as _ <- _. reflexivity. }
    destruct (i_ver s V w v c Nw P) as [Lv _]. constructor; cbn [setW zW zLis zLog zVer].
    + apply (set_one s i w _ W N). intros _. exact A.
    + exact (o_keys s W).
    + intros l v' c' Hin. apply in_app_or in Hin. destruct Hin as [Hin|Hin]; [exact (o_le s W l v' c' Hin)|]. rewrite (New l v' c' Hin). exact Lv.
    + intros x l v' c' Hx Ax Hin. apply In_nth_error in Hx. destruct Hx as (j & Hj). assert (Ej : j = i).
      { apply (set_one s i w (mkWat (wCh w) PWait (wSw w)) W N (fun _ => A) j i x (mkWat (wCh w) PWait (wSw w)) Hj); [|exact Ax|discriminate]. rewrite list_set_nth_error by (apply nth_error_Some; rewrite N; discriminate). rewrite Nat.eqb_refl. reflexivity. }
      subst j. rewrite list_set_nth_error in Hj by (apply nth_error_Some; rewrite N; discriminate). rewrite Nat.eqb_refl in Hj. injection Hj as <-. split; [|intros; discriminate].
      cbn [wCh]. intros E. apply in_app_or in Hin. destruct Hin as [Hin|Hin]; [exact (proj1 (o_w s W w l v' c' Nw A Hin) E)|]. rewrite (New l v' c' Hin). exact (o_w2 s W w v c Nw P E).
    + intros x v' c' Hx Q E. apply (in_set _ _ _ _ _ _ N) in Hx. destruct Hx as [-> |Hx]; [discriminate|exact (o_w2 s W x v' c' Hx Q E)].
    + intros l. rewrite (told_app s _ l new) by reflexivity. rewrite map_app. unfold new. destruct (zLis s) as [ls|] eqn:El; [|cbn; rewrite app_nil_r; exact (o_sort s W l)].
      destruct c as [|b c]; [cbn; rewrite app_nil_r; exact (o_sort s W l)|]. destruct (new_one ls l (v, b :: c) (o_keys s W ls El)) as [E|E]; rewrite E; cbn [map fst]; [rewrite app_nil_r; exact (o_sort s W l)|].
      apply sorted_snoc; [exact (o_sort s W l)|]. intros y Hy. apply told_fst_in in Hy. destruct Hy as (k & Hk). exact (proj2 (o_w s W w l y k Nw A Hk) v (b :: c) P).
  - destruct (nth_error (zW s) i) as [w|] eqn:N; [|discriminate]. destruct (wPh w) eqn:P; try discriminate. assert (A : alive w) by (unfold alive; rewrite P; discriminate). destruct (existsb _ _); injection H as <-.
    + apply (inv1_set s _ i w (mkWat (wCh w) PDead (wSw w)) W N); try reflexivity; [left; reflexivity|intros _; exact A|intros X; exfalso; apply X; reflexivity|intros; discriminate].
    + apply (inv1_set s _ i w (mkWat (wCh w) PDelete (wSw w)) W N); try reflexivity; [left; reflexivity|intros _; exact A| |intros; discriminate].
      intros _ l v k Hin. split; [|intros; discriminate]. exact (proj1 (o_w s W w l v k (nth_in _ _ _ _ N) A Hin)).
  - destruct (nth_error (zW s) i) as [w|] eqn:N; [|discriminate]. destruct (wPh w) eqn:P; try discriminate. assert (A : alive w) by (unfold alive; rewrite P; discriminate). injection H as <-.
    apply (inv1_set s _ i w (mkWat (wCh w) PDead (wSw w)) W N); try reflexivity; [left; reflexivity|intros _; exact A|intros X; exfalso; apply X; reflexivity|intros; discriminate].
  - destruct (nth_error (zW s) i) as [w|] eqn:N; [|discriminate]. destruct (wPh w) eqn:P; try discriminate. assert (A : alive w) by (unfold alive; rewrite P; discriminate). destruct (existsb _ _); [|discriminate]. injection H as <-.
    apply (inv1_set s _ i w (mkWat (wCh w) PClose (wSw w)) W N); try reflexivity; [left; reflexivity|intros _; exact A| |intros; discriminate].
    intros _ l v k Hin. split; [|intros; discriminate]. exact (proj1 (o_w s W w l v k (nth_in _ _ _ _ N) A Hin)).
Qed.
Lemma calm_inv1 : forall cmd s, calm cmd no_reconnect s -> inv1 s.
Proof.
  intros cmd s H. induction H as [|s o s' H IH C O0 E]; [apply inv1_init|]. exact (inv1_step cmd s o s' (calm_inv cmd no_reconnect s H) IH C O0 E).
Qed.

(* the watchers settle *)
Definition todo (w : wat) : nat := match wPh w, wCh w with PWait, Changed => 2 | PNotify _ _, Changed => 3 | PNotify _ _, _ => 1 | _, _ => 0 end.
Definition total (s : wst) : nat := list_sum (map todo (zW s)).
Lemma sum_cons : forall a l, list_sum (a :: l) = a + list_sum l.
Proof. reflexivity. Qed.
Lemma total_set : forall l i w w', nth_error l i = Some w -> list_sum (map todo (list_set l i w')) + todo w = list_sum (map todo l) + todo w'.
Proof. intros l. induction l as [|a l IH]; intros i w w' N; [destruct i; discriminate|]. destruct i as [|i]; cbn [list_set map nth_error] in *; rewrite !sum_cons; [injection N as ->; lia|]. pose proof (IH i w w' N). lia. Qed.
Lemma total_le : forall s, total s <= 3 * length (zW s).
Proof. intros s. unfold total. induction (zW s) as [|w l IH]; [apply Nat.le_refl|]. cbn [map length]. rewrite sum_cons. assert (todo w <= 3) by (unfold todo; destruct (wPh w), (wCh w); lia). lia. Qed.
Lemma watcher_less : forall cmd s o s', inv s -> watcher_step o -> wstep cmd s o = Some s' -> inv s' /\ S (total s') = total s /\ length (zW s') = length (zW s) /\ zLis s' = zLis s.
Proof.
  intros cmd s o s' V O0 H. split.
  - apply (inv_step cmd s o s' V); [|exact H]. destruct o; cbn in *; try contradiction; auto.
  - destruct o as [l ok|l|i| |c| | | | |oks|i ok|i|i|i|i]; cbn [watcher_step] in O0; try contradiction; cbn [wstep] in H.
    + subst ok. destruct (nth_error (zW s) i) as [w|] eqn:N; [|discriminate]. destruct (wPh w) eqn:P; try discriminate.
      assert (A : alive w) by (unfold alive; rewrite P; discriminate). destruct (i_ch s V w (nth_in _ _ _ _ N) A) as [E|E]; rewrite E in H; [discriminate|].
      rewrite (i_ex s V) in H. cbn [andb] in H. injection H as <-. unfold total. cbn [setW zW]. rewrite list_set_length.
      pose proof (total_set (zW s) i w (mkWat Armed (PNotify (zVer s) (zNodes s)) (wSw w)) N) as T. assert (T1 : todo w = 2) by (unfold todo; rewrite P, E; reflexivity). change (todo (mkWat Armed (PNotify (zVer s) (zNodes s)) (wSw w))) with 1 in T. split; [lia|split; reflexivity].
    + destruct (nth_error (zW s) i) as [w|] eqn:N; [|discriminate]. destruct (wPh w) as [|v c| | |] eqn:P; try discriminate.
      assert (A : alive w) by (unfold alive; rewrite P; discriminate). injection H as <-. unfold total. cbn [setW zW zLis]. rewrite list_set_length.
      pose proof (total_set (zW s) i w (mkWat (wCh w) PWait (wSw w)) N) as T. destruct (i_ch s V w (nth_in _ _ _ _ N) A) as [E|E]; rewrite E in *.
      * assert (T1 : todo w = 1) by (unfold todo; rewrite P, E; reflexivity). change (todo (mkWat Armed PWait (wSw w))) with 0 in T. split; [lia|split; reflexivity].
      * assert (T1 : todo w = 3) by (unfold todo; rewrite P, E; reflexivity). change (todo (mkWat Changed PWait (wSw w))) with 2 in T. split; [lia|split; reflexivity].
Qed.
Lemma settle : forall cmd os s s', inv s -> Forall watcher_step os -> wruns cmd s os = Some s' -> inv s' /\ length os + total s' = total s /\ zLis s' = zLis s.
Proof.
  intros cmd os. induction os as [|o os IH]; intros s s' V F H; [injection H as <-; auto|]. inversion F as [|? ? F1 F2]; subst. cbn [wruns] in H. destruct (wstep cmd s o) as [s1|] eqn:E; [|discriminate].
  destruct (watcher_less cmd s o s1 V F1 E) as (V1 & T1 & _ & L1). destruct (IH s1 s' V1 F2 H) as (V2 & T2 & L2). split; [exact V2|]. split; [cbn [length]; lia|congruence].
Qed.
Lemma quiet_or : forall cmd s ls, inv s -> zLis s = Some ls -> quiet s \/ exists o, watcher_step o /\ wstep cmd s o <> None.
Proof.
  intros cmd s ls V El. destruct (i_some s V ls El) as (c & _ & _ & Hw & _).
  assert (G : forall l, (forall i w, nth_error l i = Some w -> exists j, nth_error (zW s) j = Some w) -> (forall w, In w l -> wPh w = PDead \/ (wPh w = PWait /\ wCh w = Armed)) \/ exists o, watcher_step o /\ wstep cmd s o <> None).
  { induction l as [|w l IH]; intros Hl; [left; intros w []|]. destruct IH as [IH|IH]; [intros i x Hx; exact (Hl (S i) x Hx)| |right; exact IH].
    destruct (Hl 0 w eq_refl) as (j & Hj). destruct (wPh w) as [|v k| | |] eqn:P.
    - assert (A : alive w) by (unfold alive; rewrite P; discriminate). destruct (i_ch s V w (nth_in _ _ _ _ Hj) A) as [E|E].
      + left. intros x [<-|Hx]; [right; auto|exact (IH x Hx)].
      + right. exists (OEvent j true). split; [reflexivity|]. cbn [wstep]. rewrite Hj, P, E. discriminate.
    - right. exists (ONotify j). split; [exact Logic.I|]. cbn [wstep]. rewrite Hj, P. discriminate.
    - exfalso. assert (A : alive w) by (unfold alive; rewrite P; discriminate). destruct (Hw w (nth_in _ _ _ _ Hj) A) as (_ & _ & [Q|(a & b & Q)]); congruence.
    - exfalso. assert (A : alive w) by (unfold alive; rewrite P; discriminate). destruct (Hw w (nth_in _ _ _ _ Hj) A) as (_ & _ & [Q|(a & b & Q)]); congruence.
    - left. intros x [<-|Hx]; [left; exact P|exact (IH x Hx)]. }
  apply (G (zW s)). intros i w Hi. exists i. exact Hi.
Qed.
Lemma unblock : forall cmd s c, inv s -> zBlocked s = Some c -> exists i os s', (os = [OSend i] \/ os = [ONotify i; OSend i]) /\ wruns cmd s os = Some s' /\ zBlocked s' = None /\ zLis s' = None.
Proof.
  intros cmd s c V B. destruct (i_blk s V c B) as [El Es]. destruct (i_some s V [] El) as (c' & Ec & Nc & Hw & w & Hin & A). rewrite Es in Ec. injection Ec as <-.
  destruct (In_nth_error _ _ Hin) as (i & N). destruct (Hw w Hin A) as (S0 & _ & [P|(v & k & P)]); exists i.
  - exists [OSend i]. eexists. split; [left; reflexivity|]. cbn [wruns wstep]. rewrite B, N, P, S0, Nat.eqb_refl, (proj2 (exb_no _ _) Nc). cbn [negb andb]. split; [reflexivity|]. split; reflexivity.
  - exists [ONotify i; OSend i]. eexists. split; [right; reflexivity|]. cbn [wruns wstep]. rewrite N, P. cbn [wruns wstep zBlocked setW zW zClosed]. rewrite B.
    rewrite list_set_nth_error by (apply nth_error_Some; rewrite N; discriminate). rewrite Nat.eqb_refl. cbn [wPh wSw wCh]. rewrite S0, Nat.eqb_refl, (proj2 (exb_no _ _) Nc). cbn [negb andb]. split; [reflexivity|]. split; reflexivity.
Qed.
(* an Unsubscribe that nobody hears waits for ever *)
Lemma stuck : forall cmd os s s' c, zBlocked s = Some c -> ~ In c (zClosed s) -> (forall w, In w (zW s) -> wPh w = PDead) -> wruns cmd s os = Some s' -> zBlocked s' = Some c.
Proof.
  intros cmd os. induction os as [|o os IH]; intros s s' c B Nc D H; [injection H as <-; exact B|]. cbn [wruns] in H. destruct (wstep cmd s o) as [s1|] eqn:E; [|discriminate].
  assert (DN : forall i w, nth_error (zW s) i = Some w -> wPh w = PDead) by (intros i w N; apply D; exact (nth_in _ _ _ _ N)).
  assert (FD : forall e w, In w (fire e (zW s)) -> wPh w = PDead) by (intros e w Hw; apply fire_in in Hw; destruct Hw as (w0 & H0 & P0 & _); rewrite P0; exact (D w0 H0)).
  destruct o as [l ok|l|i| |k| | | | |oks|i ok|i|i|i|i]; cbn [wstep] in E; rewrite ?B in E; try discriminate;
    try (destruct (nth_error (zW s) i) as [w|] eqn:N; [|discriminate]; rewrite (DN i w N) in E; discriminate).
  - rewrite (proj2 (exb_no _ _) Nc) in E. discriminate.
  - destruct (zExists s); [|discriminate]. injection E as <-. apply (IH _ s' c) in H; auto. apply FD.
  - destruct (zExists s); [discriminate|]. injection E as <-. apply (IH _ s' c) in H; auto.
  - destruct (zExists s); [|discriminate]. injection E as <-. apply (IH _ s' c) in H; auto. apply FD.
  - injection E as <-. apply (IH _ s' c) in H; auto.
  - destruct (zAvail s); [discriminate|]. injection E as <-. apply (IH _ s' c) in H; auto. apply FD.
Qed.
(* a watcher whose read failed never notifies again *)
Lemma drained : forall cmd os s s' i w, nth_error (zW s) i = Some w -> wCh w = Drained -> (wPh w = PWait \/ wPh w = PClose \/ wPh w = PDelete \/ wPh w = PDead) -> wruns cmd s os = Some s' ->
  exists w', nth_error (zW s') i = Some w' /\ wCh w' = Drained /\ (wPh w' = PWait \/ wPh w' = PClose \/ wPh w' = PDelete \/ wPh w' = PDead).
Proof.
  intros cmd os. induction os as [|o os IH]; intros s s' i w N E P H; [injection H as <-; exists w; auto|]. cbn [wruns] in H. destruct (wstep cmd s o) as [s1|] eqn:ST; [|discriminate].
  assert (G : exists w1, nth_error (zW s1) i = Some w1 /\ wCh w1 = Drained /\ (wPh w1 = PWait \/ wPh w1 = PClose \/ wPh w1 = PDelete \/ wPh w1 = PDead)).
  { assert (NW : nth_error (zW s) i = Some w -> forall x, nth_error (zW s ++ [x]) i = Some w). { intros _ x. rewrite nth_error_app1; [exact N|]. apply nth_error_Some. rewrite N. discriminate. }
    assert (US : forall oks t, nth_error (zW t) i = Some w -> nth_error (zW (ups cmd t oks)) i = Some w).
    { induction oks as [|b oks IHo]; intros t Ht; [exact Ht|]. cbn [ups]. apply IHo. unfold doSub. destruct (negb b || negb cmd && negb (zExists t)); [exact Ht|].
      destruct (match zSw t with Some c => (c, zNext t) | None => (zNext t, S (zNext t)) end) as [k n]. cbn [zW]. rewrite nth_error_app1; [exact Ht|]. apply nth_error_Some. rewrite Ht. discriminate. }
    assert (FI : forall e, nth_error (fire e (zW s)) i = Some w). { intros e. unfold fire. rewrite nth_error_map, N. cbn [option_map]. rewrite E. reflexivity. }
    assert (ST2 : forall j x x', nth_error (zW s) j = Some x -> (j = i -> wCh x' = Drained /\ (wPh x' = PWait \/ wPh x' = PClose \/ wPh x' = PDelete \/ wPh x' = PDead)) ->
              exists w1, nth_error (list_set (zW s) j x') i = Some w1 /\ wCh w1 = Drained /\ (wPh w1 = PWait \/ wPh w1 = PClose \/ wPh w1 = PDelete \/ wPh w1 = PDead)).
    { intros j x x' Nj Hx. rewrite list_set_nth_error by (apply nth_error_Some; rewrite Nj; discriminate). destruct (i =? j) eqn:Q; [apply Nat.eqb_eq in Q; exists x'; split; [reflexivity|apply Hx; auto]|exists w; auto]. }
    destruct o as [l ok|l|j| |k| | | | |oks|j ok|j|j|j|j]; cbn [wstep] in ST.
    - destruct (zBlocked s); [discriminate|]. destruct (negb (zAvail s)); [injection ST as <-; exists w; auto|]. destruct (zLis s); injection ST as <-; exists w; split; auto. exact (US [ok] (setLis s (Some [(l, zVer s)])) N).
    - destruct (zBlocked s); [discriminate|]. destruct (negb (zAvail s)); [injection ST as <-; exists w; auto|]. destruct (zLis s) as [ls|]; [|injection ST as <-; exists w; auto]. destruct (zSw s), (delLis ls l); injection ST as <-; exists w; auto.
    - destruct (zBlocked s) as [c|]; [|discriminate]. destruct (nth_error (zW s) j) as [x|] eqn:Nj; [|discriminate]. destruct (wPh x) eqn:Px; try discriminate. destruct ((wSw x =? c) && _); [|discriminate]. injection ST as <-.
      apply (ST2 j x _ Nj). intros ->. rewrite N in Nj. injection Nj as <-. split; [exact E|cbn; auto].
    - destruct (zBlocked s) as [c|]; [|discriminate]. destruct (existsb _ _); [|discriminate]. injection ST as <-. exists w; auto.
    - destruct (zExists s); [|discriminate]. injection ST as <-. exists w; split; auto. apply FI.
    - destruct (zExists s); [discriminate|]. injection ST as <-. exists w; auto.
    - destruct (zExists s); [|discriminate]. injection ST as <-. exists w; split; auto. apply FI.
    - injection ST as <-. exists w; auto.
    - destruct (zAvail s); [discriminate|]. injection ST as <-. exists w; split; auto. apply FI.
    - destruct (zBlocked s); [discriminate|]. destruct (zAvail s); [discriminate|]. destruct (length oks =? _); [|discriminate]. injection ST as <-. exists w; split; auto.
    - destruct (nth_error (zW s) j) as [x|] eqn:Nj; [|discriminate]. destruct (wPh x) eqn:Px; try discriminate. destruct (wCh x) eqn:Ex; try discriminate; injection ST as <-; try (exists w; auto; fail);
        (apply (ST2 j x _ Nj); intros ->; rewrite N in Nj; injection Nj as <-; congruence).
    - destruct (nth_error (zW s) j) as [x|] eqn:Nj; [|discriminate]. destruct (wPh x) eqn:Px; try discriminate. injection ST as <-.
      apply (ST2 j x _ Nj); intros ->; rewrite N in Nj; injection Nj as <-. exfalso. destruct P as [P|[P|[P|P]]]; congruence.
    - destruct (nth_error (zW s) j) as [x|] eqn:Nj; [|discriminate]. destruct (wPh x) eqn:Px; try discriminate. destruct (existsb _ _); injection ST as <-; (apply (ST2 j x _ Nj); intros ->; rewrite N in Nj; injection Nj as <-; split; [exact E|cbn; auto]).
    - destruct (nth_error (zW s) j) as [x|] eqn:Nj; [|discriminate]. destruct (wPh x) eqn:Px; try discriminate. injection ST as <-. apply (ST2 j x _ Nj); intros ->; rewrite N in Nj; injection Nj as <-; split; [exact E|cbn; auto].
    - destruct (nth_error (zW s) j) as [x|] eqn:Nj; [|discriminate]. destruct (wPh x) eqn:Px; try discriminate. destruct (existsb _ _); [|discriminate]. injection ST as <-. apply (ST2 j x _ Nj); intros ->; rewrite N in Nj; injection Nj as <-; split; [exact E|cbn; auto]. }
  destruct G as (w1 & N1 & E1 & P1). exact (IH s1 s' i w1 N1 E1 P1 H).
Qed.
Fixpoint calm_run (cmd : bool) (ok : wop -> Prop) (s : wst) (os : list wop) : Prop :=
  match os with [] => True | o :: r => calm_op s o /\ ok o /\ match wstep cmd s o with Some s' => calm_run cmd ok s' r | None => False end end.
Lemma calm_runs : forall cmd ok os s s', calm cmd ok s -> calm_run cmd ok s os -> wruns cmd s os = Some s' -> calm cmd ok s'.
Proof.
  intros cmd ok os. induction os as [|o os IH]; intros s s' C R H; [injection H as <-; exact C|]. cbn [calm_run wruns] in *. destruct R as (R1 & R2 & R3). destruct (wstep cmd s o) as [s1|] eqn:E; [|contradiction].
  exact (IH s1 s' (calm_step cmd ok s o s1 C R1 R2 E) R3 H).
Qed.
