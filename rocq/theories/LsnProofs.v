From Coq Require Import Sorted Lia ZArith.
From Verif Require Import Base GoStrings GoStrings2 LsnModel LsnSpec.
Ltac Zify.zify_post_hook ::= idtac.

Lemma upd_eq {A} (f : nat -> A) k x : upd f k x k = x.
Proof. unfold upd. rewrite Nat.eqb_refl. reflexivity. Qed.
Lemma upd_neq {A} (f : nat -> A) k x j : j <> k -> upd f k x j = f j.
Proof. intro H. unfold upd. destruct (Nat.eqb_spec j k); [contradiction|reflexivity]. Qed.

(* ------------------------------------------------------------ one server *)

Definition srv_ok (v : srv) : Prop :=
  match v_lis v with
  | Never => v_loop v = Out /\ v_tok v = 0 /\ v_closing v = 0 /\ v_pend v = []
  | Listening => (v_loop v = AtAccept \/ v_loop v = AtSelect) /\ v_tok v = 0 /\ v_closing v = 0
  | Shut => v_pend v = [] /\ ((v_loop v = Returned /\ v_tok v = 0 /\ v_closing v = 0) \/ ((v_loop v = AtAccept \/ v_loop v = AtSelect) /\ v_tok v + v_closing v = 1))
  end.

Record inv (s : proc) : Prop := {
  i_srv : forall k, srv_ok (p_srv s k);
  i_lt : forall k c, In c (p_conns s k ++ v_pend (p_srv s k)) -> c < p_next s;
  i_sort : forall k, StronglySorted lt (p_conns s k ++ v_pend (p_srv s k));
  i_own : forall j k c, In c (p_conns s j ++ v_pend (p_srv s j)) -> In c (p_conns s k ++ v_pend (p_srv s k)) -> j = k;
  i_open : forall c, p_phase s c <> Ended -> exists k, In c (p_conns s k);
  i_pend : forall k c, In c (v_pend (p_srv s k)) -> p_phase s c = Ended;
  i_count : p_count s = Z.of_nat (length (handled s))
}.

Lemma inv0 : inv proc0.
Proof.
  constructor; cbn.
  - intros k. cbn. auto.
  - intros k c [].
  - intros k. constructor.
  - intros j k c [].
  - intros c H. congruence.
  - intros k c [].
  - reflexivity.
Qed.

Lemma ss_snoc l x : StronglySorted lt l -> (forall c, In c l -> c < x) -> StronglySorted lt (l ++ [x]).
Proof.
  induction l as [|a l IH]; intros H L; [constructor; constructor|]. inversion H as [|? ? H1 H2]; subst. cbn. constructor.
  - apply IH; [exact H1|]. intros c J. apply L. right. exact J.
  - apply Forall_app. split; [exact H2|]. constructor; [|constructor]. apply L. left. reflexivity.
Qed.
Lemma ss_left a b : StronglySorted lt (a ++ b) -> StronglySorted lt a.
Proof.
  induction a as [|x a IH]; intro H; [constructor|]. cbn in H. inversion H as [|? ? H1 H2]; subst. constructor; [apply IH, H1|].
  apply Forall_app in H2. apply H2.
Qed.
Lemma ss_apart a x b : StronglySorted lt (a ++ x :: b) -> ~ In x b.
Proof.
  induction a as [|y a IH]; intro H; cbn in H; inversion H as [|? ? H1 H2]; subst; [|exact (IH H1)].
  intro J. rewrite Forall_forall in H2. specialize (H2 _ J). lia.
Qed.

(* a server whose connections stay as they are changes *)
Lemma inv_set s k v : inv s -> srv_ok v -> (v_pend v = v_pend (p_srv s k) \/ v_pend v = []) -> inv (setSrv s k v).
Proof.
  intros V H P.
  assert (Sub : forall j c, In c (p_conns s j ++ v_pend (upd (p_srv s) k v j)) -> In c (p_conns s j ++ v_pend (p_srv s j))).
  { intros j c J. destruct (Nat.eq_dec j k) as [->|N]; [|rewrite upd_neq in J by exact N; exact J]. rewrite upd_eq in J.
    destruct P as [E|E]; rewrite E in J; [exact J|]. rewrite app_nil_r in J. apply in_or_app. left. exact J. }
  constructor; cbn [setSrv p_srv p_conns p_phase p_next p_count].
  - intro j. destruct (Nat.eq_dec j k) as [->|N]; [rewrite upd_eq; exact H|rewrite upd_neq by exact N; apply V].
  - intros j c J. apply (i_lt s V j), Sub, J.
  - intro j. destruct (Nat.eq_dec j k) as [->|N]; [rewrite upd_eq|rewrite upd_neq by exact N; apply V].
    destruct P as [E|E]; rewrite E; [apply V|]. rewrite app_nil_r. apply (ss_left _ (v_pend (p_srv s k))), V.
  - intros i j c J1 J2. apply (i_own s V i j c); apply Sub; assumption.
  - apply V.
  - intros j c J. apply (i_pend s V j). destruct (Nat.eq_dec j k) as [->|N]; [|rewrite upd_neq in J by exact N; exact J]. rewrite upd_eq in J.
    destruct P as [E|E]; rewrite E in J; [exact J|contradiction].
  - apply V.
Qed.

(* ------------------------------------------------------------ the counter *)

Definition cnt (f : nat -> cphase) (n : nat) : nat := length (filter (fun c => match f c with Handling => true | _ => false end) (seq 0 n)).
Definition one (p : cphase) : nat := match p with Handling => 1 | _ => 0 end.
Lemma cnt_S f n : cnt f (S n) = cnt f n + one (f n).
Proof. unfold cnt. rewrite seq_S, filter_app, app_length. cbn [Nat.add filter]. destruct (f n); reflexivity. Qed.
Lemma cnt_upd f c x n : cnt (upd f c x) n + (if c <? n then one (f c) else 0) = cnt f n + (if c <? n then one x else 0).
Proof.
  induction n as [|n IH]; [reflexivity|]. rewrite !cnt_S. destruct (Nat.eq_dec n c) as [->|N].
  - rewrite upd_eq. replace (c <? c) with false in IH by (symmetry; apply Nat.ltb_irrefl). replace (c <? S c) with true by (symmetry; apply Nat.ltb_lt; lia). lia.
  - rewrite upd_neq by exact N. destruct (Nat.ltb_spec c n); destruct (Nat.ltb_spec c (S n)); lia.
Qed.

Lemma phase_lt s c : inv s -> p_phase s c <> Ended -> c < p_next s.
Proof. intros V H. destruct (i_open s V c H) as (k & J). apply (i_lt s V k). apply in_or_app. left. exact J. Qed.

(* a goroutine's step *)
Lemma inv_phase s c x d : inv s -> p_phase s c <> Ended ->
  (d + Z.of_nat (one (p_phase s c)) = Z.of_nat (one x))%Z ->
  inv (mkProc (p_srv s) (p_conns s) (upd (p_phase s) c x) (p_next s) (p_count s + d)).
Proof.
  intros V N Hd. pose proof (phase_lt s c V N) as L. constructor; cbn [p_srv p_conns p_phase p_next p_count]; try apply V.
  - intros c' H. destruct (Nat.eq_dec c' c) as [->|Nc]; [apply V, N|]. rewrite upd_neq in H by exact Nc. apply V, H.
  - intros k c' J. destruct (Nat.eq_dec c' c) as [->|Nc]; [destruct (N (i_pend s V k c J))|]. rewrite upd_neq by exact Nc. apply (i_pend s V k), J.
  - rewrite (i_count s V). unfold handled. cbn [p_phase p_next]. pose proof (cnt_upd (p_phase s) c x (p_next s)) as E. unfold cnt in E.
    replace (c <? p_next s) with true in E by (symmetry; apply Nat.ltb_lt, L). lia.
Qed.

Lemma inv_step s o s' : inv s -> lstep s o = Some s' -> inv s'.
Proof.
  intros V H. destruct o as [k|k|k|k|k|k|k|c|c]; cbn [lstep] in H.
  - pose proof (i_srv s V k) as R. unfold srv_ok in R. destruct (v_lis (p_srv s k)) eqn:E; try discriminate H. injection H as <-.
    apply inv_set; [exact V|cbn; auto|right; reflexivity].
  - pose proof (i_srv s V k) as R. unfold srv_ok in R. destruct (v_lis (p_srv s k)) eqn:E; try discriminate H. injection H as <-.
    set (n := p_next s).
    assert (Sub : forall j c, In c (p_conns s j ++ v_pend (upd (p_srv s) k (mkSrv Listening (v_loop (p_srv s k)) (v_tok (p_srv s k)) (v_closing (p_srv s k)) (v_pend (p_srv s k) ++ [n]) (v_logged (p_srv s k))) j)) ->
             In c (p_conns s j ++ v_pend (p_srv s j)) \/ (j = k /\ c = n)).
    { intros j c J. destruct (Nat.eq_dec j k) as [->|N]; [|rewrite upd_neq in J by exact N; left; exact J]. rewrite upd_eq in J. cbn [v_pend] in J.
      rewrite app_assoc in J. apply in_app_or in J. destruct J as [J|[J|[]]]; [left; exact J|right; auto]. }
    assert (Fresh : p_phase s n = Ended).
    { destruct (p_phase s n) eqn:Ep; try reflexivity; exfalso; assert (N : p_phase s n <> Ended) by congruence; pose proof (phase_lt s n V N) as Q; unfold n in Q; lia. }
    constructor; cbn [p_srv p_conns p_phase p_next p_count].
    + intro j. destruct (Nat.eq_dec j k) as [->|N]; [rewrite upd_eq; exact R|rewrite upd_neq by exact N; apply V].
    + intros j c J. destruct (Sub j c J) as [Q|(-> & ->)]; [|unfold n; lia]. pose proof (i_lt s V j c Q). lia.
    + intro j. destruct (Nat.eq_dec j k) as [->|N]; [rewrite upd_eq|rewrite upd_neq by exact N; apply V]. cbn [v_pend]. rewrite app_assoc.
      apply ss_snoc; [apply V|]. intros c J. exact (i_lt s V k c J).
    + intros i j c J1 J2. destruct (Sub i c J1) as [Q1|(E1 & E2)], (Sub j c J2) as [Q2|(F1 & F2)].
      * exact (i_own s V i j c Q1 Q2).
      * rewrite F2 in Q1. pose proof (i_lt s V i n Q1). unfold n in *. lia.
      * rewrite E2 in Q2. pose proof (i_lt s V j n Q2). unfold n in *. lia.
      * congruence.
    + apply V.
    + intros j c J. destruct (Nat.eq_dec j k) as [->|N]; [|rewrite upd_neq in J by exact N; exact (i_pend s V j c J)]. rewrite upd_eq in J. cbn [v_pend] in J.
      apply in_app_or in J. destruct J as [J|[<-|[]]]; [exact (i_pend s V k c J)|exact Fresh].
    + rewrite (i_count s V). unfold handled. cbn [p_phase p_next]. rewrite seq_S, filter_app, app_length. cbn [Nat.add filter]. fold n. rewrite Fresh. cbn [length]. lia.
  - pose proof (i_srv s V k) as R. unfold srv_ok in R. destruct (v_lis (p_srv s k)) eqn:E; try discriminate H. destruct (v_loop (p_srv s k)) eqn:El; try discriminate H.
    destruct (v_pend (p_srv s k)) as [|c r] eqn:Ep; [discriminate H|]. injection H as <-.
    assert (Pc : p_phase s c = Ended) by (apply (i_pend s V k); rewrite Ep; left; reflexivity).
    assert (Same : forall j, upd (p_conns s) k (p_conns s k ++ [c]) j ++ v_pend (upd (p_srv s) k (mkSrv Listening AtAccept (v_tok (p_srv s k)) (v_closing (p_srv s k)) r (v_logged (p_srv s k))) j)
             = p_conns s j ++ v_pend (p_srv s j)).
    { intro j. destruct (Nat.eq_dec j k) as [->|N]; [rewrite !upd_eq, Ep; cbn [v_pend]; rewrite <- app_assoc; reflexivity|rewrite !upd_neq by exact N; reflexivity]. }
    constructor; cbn [p_srv p_conns p_phase p_next p_count].
    + intro j. destruct (Nat.eq_dec j k) as [->|N]; [rewrite upd_eq|rewrite upd_neq by exact N; apply V]. cbn. destruct R as (_ & R1 & R2). auto.
    + intros j c' J. rewrite Same in J. exact (i_lt s V j c' J).
    + intro j. rewrite Same. apply V.
    + intros i j c' J1 J2. rewrite Same in J1, J2. exact (i_own s V i j c' J1 J2).
    + intros c' J. destruct (Nat.eq_dec c' c) as [->|N].
      * exists k. rewrite upd_eq. apply in_or_app. right. left. reflexivity.
      * rewrite upd_neq in J by exact N. destruct (i_open s V c' J) as (j & Q). exists j.
        destruct (Nat.eq_dec j k) as [->|N']; [rewrite upd_eq; apply in_or_app; left; exact Q|rewrite upd_neq by exact N'; exact Q].
    + intros j c' J. assert (Q : In c' (v_pend (p_srv s j)) /\ c' <> c).
      { destruct (Nat.eq_dec j k) as [->|N].
        - rewrite upd_eq in J. cbn [v_pend] in J. split; [rewrite Ep; right; exact J|]. intros ->.
          pose proof (i_sort s V k) as Q. rewrite Ep in Q. exact (ss_apart _ _ _ Q J).
        - rewrite upd_neq in J by exact N. split; [exact J|]. intros ->. apply N. apply (i_own s V j k c); apply in_or_app; right; [exact J|rewrite Ep; left; reflexivity]. }
      destruct Q as (Q1 & Q2). rewrite upd_neq by exact Q2. exact (i_pend s V j c' Q1).
    + rewrite (i_count s V). unfold handled. cbn [p_phase p_next]. pose proof (cnt_upd (p_phase s) c Spawned (p_next s)) as Q. unfold cnt in Q.
      rewrite Pc in Q. cbn [one] in Q. destruct (c <? p_next s); lia.
  - pose proof (i_srv s V k) as R. unfold srv_ok in R. destruct (v_lis (p_srv s k)) eqn:E; [discriminate H| |]; destruct (v_loop (p_srv s k)) eqn:El; try discriminate H; injection H as <-;
      (apply inv_set; [exact V| |left; reflexivity]); cbn; intuition congruence.
  - pose proof (i_srv s V k) as R. unfold srv_ok in R. destruct (v_loop (p_srv s k)) eqn:El; try discriminate H. injection H as <-.
    apply inv_set; [exact V| |left; destruct (v_tok (p_srv s k)); reflexivity].
    destruct (v_tok (p_srv s k)) as [|n] eqn:Et; unfold srv_ok; cbn [v_lis v_loop v_tok v_closing v_pend]; destruct (v_lis (p_srv s k)); intuition (try congruence; try lia).
  - pose proof (i_srv s V k) as R. unfold srv_ok in R. destruct (v_lis (p_srv s k)) eqn:E; [discriminate H| |injection H as <-; exact V]. injection H as <-.
    apply inv_set; [exact V| |right; reflexivity]. cbn. destruct R as (R1 & -> & ->). auto.
  - pose proof (i_srv s V k) as R. unfold srv_ok in R. destruct (v_closing (p_srv s k)) as [|n] eqn:Ec; [discriminate H|]. destruct (v_tok (p_srv s k)) eqn:Et; [|discriminate H]. injection H as <-.
    apply inv_set; [exact V| |left; reflexivity]. unfold srv_ok. cbn [v_lis v_loop v_tok v_closing v_pend]. destruct (v_lis (p_srv s k)); intuition (try congruence; try lia).
  - destruct (p_phase s c) eqn:Ep; try discriminate H. injection H as <-. apply inv_phase; [exact V|congruence|rewrite Ep; reflexivity].
  - destruct (p_phase s c) eqn:Ep; try discriminate H. injection H as <-. apply (inv_phase s c Ended (-1)); [exact V|congruence|rewrite Ep; reflexivity].
Qed.

Lemma inv_runs os : forall s s', inv s -> lruns s os = Some s' -> inv s'.
Proof.
  induction os as [|o os IH]; intros s s' V H; cbn [lruns] in H; [injection H as <-; exact V|].
  destruct (lstep s o) as [s1|] eqn:E; [|discriminate H]. exact (IH s1 s' (inv_step s o s1 V E) H).
Qed.
Lemma reach_inv s : lreach s -> inv s.
Proof. intros (os & H). exact (inv_runs os proc0 s inv0 H). Qed.

(* ------------------------------------------------------------ what follows *)

Lemma keeps_running s k : lreach s -> isListening s k ->
  ~ loop_over s k /\
  forall c r, v_pend (p_srv s k) = c :: r ->
    exists os s', lruns s os = Some s' /\ forallb (own_step k) os = true /\ length os <= 2 /\ p_conns s' k = p_conns s k ++ [c] /\ p_phase s' c = Spawned.
Proof.
  intros H L. pose proof (i_srv s (reach_inv s H) k) as R. unfold srv_ok, isListening, loop_over in *. rewrite L in R. destruct R as (R & R1 & R2).
  split; [destruct R as [R|R]; rewrite R; discriminate|]. intros c r Ep. destruct R as [R|R].
  - exists [LAcceptOk k]. eexists. cbn [lruns lstep]. rewrite L, R, Ep. split; [reflexivity|]. cbn. rewrite Nat.eqb_refl, !upd_eq. auto.
  - exists [LSelect k; LAcceptOk k]. eexists. cbn [lruns lstep]. rewrite R, R1. cbn [setSrv p_srv]. rewrite !upd_eq. cbn [v_lis v_loop v_pend]. rewrite L, Ep.
    split; [reflexivity|]. cbn. rewrite Nat.eqb_refl, !upd_eq. auto.
Qed.

Lemma signal_goes s k : lreach s -> v_closing (p_srv s k) <> 0 -> exists s', lstep s (LSignal k) = Some s' /\ destroyed s' k.
Proof.
  intros H N. pose proof (i_srv s (reach_inv s H) k) as R. unfold srv_ok in R.
  destruct (v_closing (p_srv s k)) as [|n] eqn:Ec; [contradiction|].
  assert (E : v_lis (p_srv s k) = Shut /\ v_tok (p_srv s k) = 0 /\ n = 0) by (destruct (v_lis (p_srv s k)); intuition (try congruence; try lia)).
  destruct E as (E1 & E2 & ->). cbn [lstep]. rewrite Ec, E2. eexists. split; [reflexivity|]. unfold destroyed. cbn [setSrv p_srv]. rewrite upd_eq. cbn. auto.
Qed.

(* the steps the loop still has to take *)
Definition left_over (v : srv) : nat := match v_loop v with AtAccept => 2 | AtSelect => 1 | _ => 0 end.
Lemma destroyed_step s o s' k : inv s -> destroyed s k -> lstep s o = Some s' ->
  destroyed s' k /\ left_over (p_srv s' k) + (if own_step k o then 1 else 0) = left_over (p_srv s k).
Proof.
  intros V (D1 & D2) H. pose proof (i_srv s V k) as R. unfold srv_ok in R. rewrite D1, D2 in R. unfold destroyed, left_over.
  destruct o as [j|j|j|j|j|j|j|c|c]; cbn [lstep own_step] in *;
    try (destruct (Nat.eqb_spec j k) as [->|N];
         [rewrite ?D1, ?D2 in H; try discriminate H|
          assert (S1 : p_srv s' k = p_srv s k);
          [repeat (match goal with HH : context [match ?x with _ => _ end] |- _ => destruct x eqn:?; try discriminate HH end);
           injection H as <-; cbn [setSrv p_srv]; rewrite ?upd_neq by congruence; reflexivity|rewrite S1, D1, D2, Nat.add_0_r; auto]]).
  - destruct (v_loop (p_srv s k)) eqn:El; try discriminate H. injection H as <-. cbn [setSrv p_srv]. rewrite upd_eq. cbn. auto.
  - destruct (v_loop (p_srv s k)) eqn:El; try discriminate H. injection H as <-. cbn [setSrv p_srv]. rewrite upd_eq.
    destruct R as (_ & [(R & _)|(_ & R)]); [congruence|]. rewrite Nat.add_0_r in R. rewrite R. cbn. auto.
  - injection H as <-. rewrite D1, D2, Nat.add_0_r. auto.
  - destruct (p_phase s c); try discriminate H. injection H as <-. cbn [p_srv]. rewrite D1, D2, Nat.add_0_r. auto.
  - destruct (p_phase s c); try discriminate H. injection H as <-. cbn [p_srv]. rewrite D1, D2, Nat.add_0_r. auto.
Qed.
Lemma destroyed_runs os : forall s s' k, inv s -> destroyed s k -> lruns s os = Some s' ->
  destroyed s' k /\ left_over (p_srv s' k) + length (filter (own_step k) os) = left_over (p_srv s k).
Proof.
  induction os as [|o os IH]; intros s s' k V D H; cbn [lruns] in H.
  - injection H as <-. split; [exact D|]. cbn. lia.
  - destruct (lstep s o) as [s1|] eqn:E; [|discriminate H]. destruct (destroyed_step s o s1 k V D E) as (D1 & Q1).
    destruct (IH s1 s' k (inv_step s o s1 V E) D1 H) as (D2 & Q2). split; [exact D2|]. cbn [filter]. destruct (own_step k o); cbn [length]; lia.
Qed.
Lemma stops s k os s' : lreach s -> destroyed s k -> lruns s os = Some s' ->
  length (filter (own_step k) os) <= 2 /\
  (loop_over s' k \/ exists o s'', own_step k o = true /\ lstep s' o = Some s'').
Proof.
  intros H D R. pose proof (reach_inv s H) as V. destruct (destroyed_runs os s s' k V D R) as (D' & Q). pose proof (inv_runs os s s' V R) as V'.
  split. { unfold left_over in Q. destruct (v_loop (p_srv s k)); lia. }
  pose proof (i_srv s' V' k) as K. destruct D' as (D1 & D2). unfold srv_ok in K. rewrite D1 in K. unfold loop_over. destruct K as (_ & [(K & _)|([K|K] & _)]); [left; exact K| |]; right.
  - exists (LAcceptErr k). cbn [own_step lstep]. rewrite Nat.eqb_refl, D1, K. eexists. split; reflexivity.
  - exists (LSelect k). cbn [own_step lstep]. rewrite Nat.eqb_refl, K. eexists. split; reflexivity.
Qed.

(* the listener once closed *)
Lemma shut_step s o s' k : v_lis (p_srv s k) = Shut -> lstep s o = Some s' -> v_lis (p_srv s' k) = Shut /\ p_conns s' k = p_conns s k.
Proof.
  intros D H. destruct o as [j|j|j|j|j|j|j|c|c]; cbn [lstep] in H;
    try (destruct (Nat.eq_dec k j) as [<-|N]; [rewrite ?D in H; try discriminate H|
         repeat (match goal with HH : context [match ?x with _ => _ end] |- _ => destruct x eqn:?; try discriminate HH end);
         injection H as <-; cbn [setSrv p_srv p_conns]; rewrite ?upd_neq by exact N; auto]).
  - destruct (v_loop (p_srv s k)); try discriminate H. injection H as <-. cbn [setSrv p_srv p_conns]. rewrite upd_eq. auto.
  - destruct (v_loop (p_srv s k)); try discriminate H. injection H as <-. cbn [setSrv p_srv p_conns]. rewrite upd_eq. destruct (v_tok (p_srv s k)); cbn; auto.
  - injection H as <-. auto.
  - destruct (v_closing (p_srv s k)); try discriminate H. destruct (v_tok (p_srv s k)); try discriminate H. injection H as <-. cbn [setSrv p_srv p_conns]. rewrite upd_eq. auto.
  - destruct (p_phase s c); try discriminate H. injection H as <-. auto.
  - destruct (p_phase s c); try discriminate H. injection H as <-. auto.
Qed.
Lemma shut_runs os : forall s s' k, v_lis (p_srv s k) = Shut -> lruns s os = Some s' -> v_lis (p_srv s' k) = Shut /\ p_conns s' k = p_conns s k.
Proof.
  induction os as [|o os IH]; intros s s' k D H; cbn [lruns] in H; [injection H as <-; auto|].
  destruct (lstep s o) as [s1|] eqn:E; [|discriminate H]. destruct (shut_step s o s1 k D E) as (D1 & Q1). destruct (IH s1 s' k D1 H) as (D2 & Q2).
  split; [exact D2|]. congruence.
Qed.

(* a connection is left alone by everything but its own goroutine *)
Lemma left_alone s o s' k c : lreach s -> In c (p_conns s k) -> lstep s o = Some s' -> o <> LStart c -> o <> LFinish c -> p_phase s' c = p_phase s c /\ In c (p_conns s' k).
Proof.
  intros Hr Hin H N1 N2. pose proof (reach_inv s Hr) as V.
  destruct o as [j|j|j|j|j|j|j|c'|c']; cbn [lstep] in H;
    try (repeat (match goal with HH : context [match ?x with _ => _ end] |- _ => destruct x eqn:?; try discriminate HH end);
         injection H as <-; cbn [setSrv p_phase p_conns]; auto; fail).
  - destruct (v_lis (p_srv s j)); try discriminate H. destruct (v_loop (p_srv s j)); try discriminate H. destruct (v_pend (p_srv s j)) as [|c' r] eqn:Ep; [discriminate H|].
    injection H as <-. cbn [p_phase p_conns].
    assert (N : c <> c').
    { intros ->. assert (E : j = k) by (apply (i_own s V j k c'); apply in_or_app; [right; rewrite Ep; left; reflexivity|left; exact Hin]). subst j.
      pose proof (i_sort s V k) as Q. rewrite Ep in Q. apply in_split in Hin. destruct Hin as (a & b & Hab). rewrite Hab, <- app_assoc in Q. cbn in Q.
      apply (ss_apart _ _ _ Q). apply in_or_app. right. left. reflexivity. }
    rewrite upd_neq by exact N. split; [reflexivity|]. destruct (Nat.eq_dec k j) as [->|Nk]; [rewrite upd_eq; apply in_or_app; left; exact Hin|rewrite upd_neq by exact Nk; exact Hin].
  - destruct (p_phase s c'); try discriminate H. injection H as <-. cbn [p_phase p_conns]. rewrite upd_neq by congruence. auto.
  - destruct (p_phase s c'); try discriminate H. injection H as <-. cbn [p_phase p_conns]. rewrite upd_neq by congruence. auto.
Qed.

Lemma counted s : lreach s -> p_count s = Z.of_nat (length (handled s)) /\ (forall c, p_phase s c = Handling <-> In c (handled s)).
Proof.
  intro H. pose proof (reach_inv s H) as V. split; [apply V|]. intro c. unfold handled. rewrite filter_In, in_seq. split.
  - intro E. rewrite E. split; [|reflexivity]. assert (N : p_phase s c <> Ended) by congruence. pose proof (phase_lt s c V N). lia.
  - intros (_ & E). destruct (p_phase s c); try discriminate E. reflexivity.
Qed.
Lemma in_order s k : lreach s -> StronglySorted lt (p_conns s k ++ v_pend (p_srv s k)).
Proof. intro H. apply (reach_inv s H). Qed.

(* the loop spins *)
Lemma spins_more n : forall s k, v_loop (p_srv s k) = AtAccept -> v_tok (p_srv s k) = 0 -> v_lis (p_srv s k) <> Never ->
  exists os s', forallb (own_step k) os = true /\ lruns s os = Some s' /\ v_logged (p_srv s' k) = n + v_logged (p_srv s k) /\ v_lis (p_srv s' k) = v_lis (p_srv s k).
Proof.
  induction n as [|n IH]; intros s k H1 H2 H3; [exists [], s; auto|].
  destruct (IH (setSrv (setSrv s k (mkSrv (v_lis (p_srv s k)) AtSelect 0 (v_closing (p_srv s k)) (v_pend (p_srv s k)) (v_logged (p_srv s k)))) k
                 (mkSrv (v_lis (p_srv s k)) AtAccept 0 (v_closing (p_srv s k)) (v_pend (p_srv s k)) (S (v_logged (p_srv s k))))) k) as (os & s' & Q1 & Q2 & Q3 & Q4);
    [cbn [setSrv p_srv]; rewrite upd_eq; auto..|].
  exists (LAcceptErr k :: LSelect k :: os), s'. split; [cbn [forallb own_step]; rewrite Nat.eqb_refl; exact Q1|].
  cbn [setSrv p_srv] in Q3, Q4. rewrite upd_eq in Q3, Q4. cbn in Q3, Q4. split; [|split; [lia|exact Q4]].
  cbn [lruns lstep]. rewrite H1, H2. destruct (v_lis (p_srv s k)) eqn:El; [contradiction| |]; cbn [setSrv p_srv]; rewrite !upd_eq; cbn [v_loop v_tok v_lis v_closing v_pend v_logged]; exact Q2.
Qed.

(* ------------------------------------------------------------ addresses *)

Lemma remote_ip host port : host <> [] -> ~ In x3a host -> getRemoteIP (host ++ x3a :: port) = host.
Proof.
  intros N H. unfold getRemoteIP.
  assert (E : indexOf (host ++ x3a :: port) (s2b ":") = Some (length host)).
  { clear N. induction host as [|x r IH]; [cbn; destruct port; reflexivity|]. cbn [app indexOf]. change (s2b ":") with [x3a] in *.
    rewrite IH by (intro J; apply H; right; exact J). cbn [hasPrefix].
    destruct (byte_eqb x x3a) eqn:Ex; [apply byte_eqb_spec in Ex; subst x; destruct (H (or_introl eq_refl))|]. reflexivity. }
  rewrite E. destruct host as [|x r]; [contradiction|]. cbn [length].
  change (S (length r)) with (length (x :: r)). rewrite firstn_app, firstn_all, Nat.sub_diag. cbn [firstn]. apply app_nil_r.
Qed.
Lemma remote_ip_whole a : ~ In x3a a -> getRemoteIP a = a.
Proof.
  intro H. unfold getRemoteIP.
  assert (E : indexOf a (s2b ":") = None).
  { apply indexOf_None. intros p q ->. apply H. apply in_or_app. right. left. reflexivity. }
  rewrite E. reflexivity.
Qed.
