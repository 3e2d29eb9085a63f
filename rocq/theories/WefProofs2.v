(* WefProofs2.v: on time, what is installed is what was said. *)
From Verif Require Import Base Strconv LbModel WefModel WefSpec WefProofs.
From Coq Require Import Lia.
Ltac Zify.zify_post_hook ::= idtac.

Section P.
Variable static : nat -> Z.
Variable sup : nat -> bool.
Variable dynamic : bool.
Notation step := (wstep static sup dynamic).
Notation step1 := (wstep1 static sup dynamic).
Notation runs := (wruns static sup dynamic).

Definition ids (rs : list reader) : list nat := map rHolder rs.
Definition obs (hp : list wh) (h : nat) : list (nat * Z) := match nth_error hp h with Some x => [(whEp x, whWeight x)] | None => [] end.
Lemma seen_obs : forall s, seen s = match stored s with None => inst s | Some hs => Some (flat_map (obs (heap s)) hs) end.
Proof. reflexivity. Qed.
Lemma seen_eq : forall s s', stored s' = stored s -> inst s' = inst s -> (forall h, In h (holders s) -> obs (heap s') h = obs (heap s) h) -> seen s' = seen s.
Proof.
  intros s s' E1 E2 H. rewrite !seen_obs, E1, E2. unfold holders in H. destruct (stored s) as [hs|]; [|reflexivity]. f_equal. clear E1 E2.
  induction hs as [|h r IH]; [reflexivity|]. cbn [flat_map]. f_equal; [apply H; left; reflexivity|]. apply IH. intros h' Hh. apply H. right. exact Hh.
Qed.
Definition pend (s : wef) : Prop := (exists a t, lst s = Some (a, t) /\ tPc t = PNotify) \/ (exists t, tik s = Some t /\ tChanged t = true).
Definition settled (rs : list reader) : Prop := forallb (fun r => match rPc r with RDone => true | _ => false end) rs = true.
Record jinv (s : wef) : Prop := {
  j_late : late s = [];
  j_none : stored s = None -> inst s = None;
  j_lst : forall a t, lst s = Some (a, t) -> (tPc t <> PWait -> tReaders t = []) /\ (tSending t = true -> settled (tReaders t)) /\
            (forall h, In h (ids (tReaders t)) -> ~ In h (holders s) /\ (forall t', tik s = Some t' -> ~ In h (ids (tReaders t'))));
  j_tik : forall t, tik s = Some t -> (tSending t = true -> settled (tReaders t)) /\ (forall h, In h (ids (tReaders t)) -> h < length (heap s)) /\
            (tChanged t = false -> tPc t = PWait /\
               forall r old, In r (tReaders t) -> rPc r = RRead old -> exists x, nth_error (heap s) (rHolder r) = Some x /\ whDyn x = old);
  j_inst : pend s \/ inst s = seen s }.

Lemma ids_set : forall rs i r p, nth_error rs i = Some r -> ids (list_set rs i (mkReader (rHolder r) p)) = ids rs.
Proof.
  intros rs i r p H. unfold ids. apply nth_ext with (d := 0) (d' := 0); [rewrite !map_length, list_set_length; reflexivity|].
  intros n Hn. rewrite map_length, list_set_length in Hn. assert (L : i < length rs) by (apply nth_error_Some; congruence).
  assert (E : nth_error (map rHolder (list_set rs i (mkReader (rHolder r) p))) n = nth_error (map rHolder rs) n).
  { rewrite !nth_error_map, (list_set_nth_error _ _ _ _ L). destruct (Nat.eqb n i) eqn:E; [|reflexivity]. apply Nat.eqb_eq in E. subst n. rewrite H. reflexivity. }
  assert (N1 : n < length (map rHolder (list_set rs i (mkReader (rHolder r) p)))) by (rewrite map_length, list_set_length; exact Hn).
  assert (N2 : n < length (map rHolder rs)) by (rewrite map_length; exact Hn).
  rewrite (nth_error_nth' _ 0 N1), (nth_error_nth' _ 0 N2) in E. injection E as E. exact E.
Qed.
Lemma settled_not : forall rs i r, settled rs -> nth_error rs i = Some r -> rPc r = RDone.
Proof. intros rs i r H N. apply nth_error_In in N. unfold settled in H. rewrite forallb_forall in H. specialize (H _ N). destruct (rPc r); [discriminate|discriminate|reflexivity]. Qed.
Lemma In_set : forall (A : Type) (l : list A) i x y, In y (list_set l i x) -> y = x \/ In y l.
Proof.
  intros A l i x y H. apply In_nth_error in H as [n H]. destruct (Nat.lt_ge_cases i (length l)) as [L|L].
  - rewrite (list_set_nth_error _ _ _ _ L) in H. destruct (Nat.eqb n i); [left; congruence|right; exact (nth_error_In _ _ H)].
  - assert (Nl : n < length l) by (assert (Q : nth_error (list_set l i x) n <> None) by congruence; apply nth_error_Some in Q; rewrite list_set_length in Q; exact Q).
    assert (E : list_set l i x = l). { clear -L. revert i L. induction l as [|a l IH]; intros i L; destruct i; cbn in *; try lia; try reflexivity. f_equal. apply IH. lia. }
    rewrite E in H. right. exact (nth_error_In _ _ H).
Qed.
Lemma filter_settled : forall rs, settled rs -> filter (fun r => match rPc r with RDone => false | _ => true end) rs = [].
Proof. induction rs as [|r rs IH]; intros H; [reflexivity|]. unfold settled in *. cbn in *. destruct (rPc r); try discriminate. exact (IH H). Qed.
Lemma readersFor_in : forall hp hs h, In h (ids (readersFor hp hs)) -> In h hs /\ h < length hp.
Proof.
  intros hp hs h H. unfold ids in H. apply in_map_iff in H as (r & <- & H). unfold readersFor in H. apply in_flat_map in H as (h' & Hin & H).
  destruct (nth_error hp h') as [x|] eqn:X; [|destruct H]. destruct (whSup x); [|destruct H]. destruct H as [<-|[]]. cbn. split; [exact Hin|]. apply nth_error_Some. congruence.
Qed.
Lemma readersFor_new : forall hp hs r, In r (readersFor hp hs) -> rPc r = RNew.
Proof.
  intros hp hs r H. unfold readersFor in H. apply in_flat_map in H as (h' & Hin & H). destruct (nth_error hp h') as [x|]; [|destruct H]. destruct (whSup x); [|destruct H]. destruct H as [<-|[]]. reflexivity.
Qed.

Lemma jinit : jinv winit.
Proof. constructor; cbn; try reflexivity; try discriminate. right. reflexivity. Qed.

Lemma jstep : forall s o s' cur, base static sup s cur -> jinv s -> (forall k, o <> OTimeout k) -> step1 s o = Some s' -> jinv s'.
Proof.
  intros s o s' cur B J NT H. pose proof (base_step static sup dynamic _ _ _ _ B H) as B'. destruct B as (V & K & LS). destruct J as [JL JN JT JK JI]. destruct o; cbn [wstep1] in H.
  - destruct (lst s) eqn:EL; [discriminate|]. destruct (holdersFor static sup (heap s) (match stored s with Some l => l | None => [] end) eps) as [[a n] hp] eqn:E. injection H as <-.
    apply holders_ok in E; [|exact (proj1 V)]. destruct E as ((l & ->) & F & _ & N & _).
    assert (OB : forall h, In h (holders s) -> obs (heap s ++ l) h = obs (heap s) h) by (intros h Hh; unfold obs; rewrite nth_error_app1; [reflexivity|exact (proj1 V _ Hh)]).
    constructor; cbn [late setLst setHeap stored inst lst tik heap].
    + exact JL.
    + exact JN.
    + intros a0 t0 E0. injection E0 as <- <-. destruct n as [|n0 n]; [split; [reflexivity|split; [reflexivity|intros h []]]|]. unfold newTask. cbn [tReaders tPc tSending].
      split; [congruence|]. split; [discriminate|]. intros h Hh. apply readersFor_in in Hh as [Hh _]. specialize (N _ Hh). split.
      * intros Hin. pose proof (proj1 V _ Hin). lia.
      * intros t' Et Hin. destruct (JK _ Et) as (_ & Q & _). specialize (Q _ Hin). lia.
    + intros t Et. destruct (JK _ Et) as (Q1 & Q2 & Q3). split; [exact Q1|]. split; [intros h Hh; rewrite app_length; specialize (Q2 _ Hh); lia|].
      intros C. destruct (Q3 C) as (Q4 & Q5). split; [exact Q4|]. intros r old Hr Ho. destruct (Q5 _ _ Hr Ho) as (x & X & D). exists x. split; [|exact D]. rewrite nth_error_app1; [exact X|]. apply nth_error_Some. congruence.
    + destruct JI as [[(a0 & t0 & E0 & _)|Q]|Q]; [congruence|left; right; exact Q|]. right. rewrite Q. symmetry. apply seen_eq; [reflexivity|reflexivity|exact OB].
  - destruct (tik s) eqn:ET; [discriminate|]. destruct (stopped s || negb dynamic); [discriminate|]. injection H as <-. constructor; cbn [late setTik stored inst lst tik heap].
    + exact JL.
    + exact JN.
    + intros a t E0. destruct (JT _ _ E0) as (Q1 & Q2 & Q3). split; [exact Q1|]. split; [exact Q2|]. intros h Hh. split; [exact (proj1 (Q3 _ Hh))|].
      intros t' Et Hin. injection Et as <-. unfold newTask in Hin. cbn [tReaders] in Hin. apply readersFor_in in Hin as [Hin _]. exact (proj1 (Q3 _ Hh) Hin).
    + intros t Et. injection Et as <-. unfold newTask. cbn [tReaders tSending tChanged tPc]. split; [discriminate|]. split; [intros h Hh; apply readersFor_in in Hh; apply Hh|]. intros _. split; [reflexivity|].
      intros r old Hr Ho. apply readersFor_new in Hr. congruence.
    + destruct JI as [[Q|(t & E0 & _)]|Q]; [left; left; exact Q|congruence|right; exact Q].
  - destruct (nth_error (readersOf s k) i) as [r|] eqn:R; [|discriminate]. destruct (rPc r) eqn:P; try discriminate. destruct (nth_error (heap s) (rHolder r)) as [x|] eqn:X; [|discriminate]. injection H as <-.
    match goal with |- jinv ?z => set (z' := z); destruct (heap_setReaders s k (list_set (readersOf s k) i (mkReader (rHolder r) (RRead (whDyn x)))) false) as (E1 & E2 & E3 & E4 & _) end.
    pose proof (lst_setReaders s k (list_set (readersOf s k) i (mkReader (rHolder r) (RRead (whDyn x)))) false) as EL.
    pose proof (tik_setReaders s k (list_set (readersOf s k) i (mkReader (rHolder r) (RRead (whDyn x)))) false) as ET.
    pose proof (late_setReaders s k (list_set (readersOf s k) i (mkReader (rHolder r) (RRead (whDyn x)))) false) as EA.
    assert (SE : seen z' = seen s) by (apply seen_eq; [exact E3|exact E4|intros h _; unfold z'; rewrite E1; reflexivity]).
    fold z' in E1, E2, E3, E4, EL, ET, EA. clearbody z'. unfold readersOf, taskOf in R, EL, ET, EA.
    destruct k.
    + destruct (lst s) as [[a t]|] eqn:EQ; [|destruct i; discriminate]. destruct (JT _ _ eq_refl) as (Q1 & Q2 & Q3). cbv zeta iota beta in EL, ET, EA. destruct (tik s) as [tq|] eqn:ETQ; (constructor; [congruence|rewrite E3, E4; exact JN| | |]).
      all: try (intros a0 t0 E0; rewrite EL in E0; injection E0 as <- <-; cbn [tReaders tPc tSending]; split;
        [intros NP; rewrite (Q1 NP) in R; destruct i; discriminate|]; split;
        [intros SD; exfalso; pose proof (settled_not _ _ _ (Q2 SD) R); congruence|]; rewrite (ids_set _ _ _ _ R); intros h Hh; unfold holders; rewrite E3; split; [exact (proj1 (Q3 _ Hh))|];
        rewrite ET; exact (proj2 (Q3 _ Hh))).
      all: try (intros t0 E0; rewrite ET in E0; rewrite E1; exact (JK _ E0)).
      all: destruct JI as [[(a0 & t0 & E0 & EP)|(t0 & E0 & EC)]|Q]; [left; left; rewrite EQ in E0; injection E0 as <- <-; do 2 eexists; split; [exact EL|exact EP]|left; right; exists t0; split; [congruence|exact EC]|right; congruence].
    + destruct (tik s) as [t|] eqn:EQ; [|destruct i; discriminate]. destruct (JK _ eq_refl) as (Q1 & Q2 & Q3). cbv zeta iota beta in EL, ET, EA.
      assert (EL' : lst z' = lst s) by (destruct (lst s) as [[? ?]|]; exact EL). constructor.
      * congruence.
      * rewrite E3, E4; exact JN.
      * intros a0 t0 E0. rewrite EL' in E0. destruct (JT _ _ E0) as (W1 & W2 & W3). split; [exact W1|]. split; [exact W2|]. intros h Hh. unfold holders. rewrite E3. split; [exact (proj1 (W3 _ Hh))|].
        intros t' Et. rewrite ET in Et. injection Et as <-. cbn [tReaders]. rewrite (ids_set _ _ _ _ R). exact (proj2 (W3 _ Hh) t eq_refl).
      * intros t0 Et. rewrite ET in Et. injection Et as <-. cbn [tReaders tPc tSending tChanged]. split; [intros SD; exfalso; pose proof (settled_not _ _ _ (Q1 SD) R); congruence|]. rewrite (ids_set _ _ _ _ R), E1.
        split; [exact Q2|]. rewrite orb_false_r. intros C. destruct (Q3 C) as (Q4 & Q5). split; [exact Q4|]. intros r' old Hr Ho. apply In_set in Hr as [->|Hr]; [|exact (Q5 _ _ Hr Ho)].
        cbn in *. exists x. split; [exact X|congruence].
      * destruct JI as [[(a0 & t0 & E0 & EP)|(t0 & E0 & EC)]|Q]; [left; left; exists a0, t0; split; [congruence|exact EP]|left; right; rewrite EQ in E0; injection E0 as <-; eexists; split; [exact ET|cbn; rewrite EC; reflexivity]|right; congruence].
    + rewrite JL in R. destruct i; discriminate.
  - destruct (nth_error (readersOf s k) i) as [r|] eqn:R; [|discriminate]. destruct (rPc r) as [|old|] eqn:P; try discriminate. destruct (nth_error (heap s) (rHolder r)) as [x|] eqn:X; [|discriminate]. injection H as <-.
    set (x' := match a with ANot => mkWh (whEp x) (whStatic x) false (whDyn x) | AErr => x | AWeight w => mkWh (whEp x) (whStatic x) (whSup x) (adjustWeight w 0) end) in *.
    set (c := match a with AWeight w => negb (old =? adjustWeight w 0)%Z | _ => false end) in *.
    set (s1 := setHeap s (list_set (heap s) (rHolder r) x') ((rHolder r, a) :: said s)) in *.
    set (rs := list_set (readersOf s k) i (mkReader (rHolder r) RDone)) in *.
    match goal with |- jinv ?z => set (z' := z) in *; destruct (heap_setReaders s1 k rs c) as (E1 & E2 & E3 & E4 & _) end.
    pose proof (lst_setReaders s1 k rs c) as EL. pose proof (tik_setReaders s1 k rs c) as ET. pose proof (late_setReaders s1 k rs c) as EA.
    fold z' in E1, E2, E3, E4, EL, ET, EA. clearbody z'. unfold s1 in *. cbn [heap said stored inst lst tik late setHeap] in *. clear s1.
    assert (L : rHolder r < length (heap s)) by (apply nth_error_Some; congruence).
    assert (OT : forall h, h <> rHolder r -> nth_error (heap z') h = nth_error (heap s) h).
    { intros h Hh. rewrite E1, (list_set_nth_error _ _ _ _ L). destruct (Nat.eqb h (rHolder r)) eqn:E; [apply Nat.eqb_eq in E; contradiction|reflexivity]. }
    assert (LEN : length (heap z') = length (heap s)) by (rewrite E1; apply list_set_length).
    destruct k.
    + unfold readersOf, taskOf in R, rs. destruct (lst s) as [[a0 t]|] eqn:EQ; [|destruct i; discriminate]. destruct (JT _ _ eq_refl) as (Q1 & Q2 & Q3).
      assert (Hin : In (rHolder r) (ids (tReaders t))) by (unfold ids; apply in_map; exact (nth_error_In _ _ R)). destruct (Q3 _ Hin) as [Q4 Q5].
      assert (ET' : tik z' = tik s) by (destruct (tik s); exact ET).
      assert (SE : seen z' = seen s). { apply seen_eq; [exact E3|exact E4|]. intros h Hh. unfold obs. rewrite OT; [reflexivity|]. intros ->. contradiction. }
      constructor.
      * congruence.
      * rewrite E3, E4; exact JN.
      * intros a1 t1 E0. rewrite EL in E0. injection E0 as <- <-. cbn [tReaders tPc tSending]. split; [intros NP; rewrite (Q1 NP) in R; destruct i; discriminate|]. split; [intros SD; exfalso; pose proof (settled_not _ _ _ (Q2 SD) R); congruence|].
        unfold rs. rewrite (ids_set _ _ _ _ R). intros h Hh. unfold holders. rewrite E3, ET'. exact (Q3 _ Hh).
      * intros t0 Et. rewrite ET' in Et. destruct (JK _ Et) as (W1 & W2 & W3). split; [exact W1|]. split; [rewrite LEN; exact W2|]. intros C. destruct (W3 C) as (W4 & W5). split; [exact W4|].
        intros r' old' Hr Ho. destruct (W5 _ _ Hr Ho) as (y & Y & D). exists y. split; [|exact D]. rewrite OT; [exact Y|]. intros EE. apply (Q5 _ Et). rewrite <- EE. unfold ids. apply in_map. exact Hr.
      * destruct JI as [[(a1 & t0 & E0 & EP)|(t0 & E0 & EC)]|Q]; [left; left; rewrite EQ in E0; injection E0 as <- <-; do 2 eexists; split; [exact EL|exact EP]|left; right; exists t0; split; [congruence|exact EC]|right; congruence].
    + unfold readersOf, taskOf in R, rs. destruct (tik s) as [t|] eqn:EQ; [|destruct i; discriminate]. destruct (JK _ eq_refl) as (Q1 & Q2 & Q3).
      assert (EL' : lst z' = lst s) by (destruct (lst s) as [[? ?]|]; exact EL).
      assert (SAME : tChanged t || c = false -> whDyn x' = whDyn x /\ whStatic x' = whStatic x /\ whEp x' = whEp x).
      { intros C. apply orb_false_iff in C as [C1 C2]. destruct (Q3 C1) as (_ & Q5). destruct (Q5 r old (nth_error_In _ _ R) P) as (y & Y & D). assert (y = x) by congruence. subst y.
        unfold x', c in *. destruct a; try (repeat split; reflexivity). cbn. apply negb_false_iff, Z.eqb_eq in C2. repeat split; congruence. }
      constructor.
      * congruence.
      * rewrite E3, E4; exact JN.
      * intros a0 t0 E0. rewrite EL' in E0. destruct (JT _ _ E0) as (W1 & W2 & W3). split; [exact W1|]. split; [exact W2|]. intros h Hh. unfold holders. rewrite E3. split; [exact (proj1 (W3 _ Hh))|].
        intros t' Et. rewrite ET in Et. injection Et as <-. cbn [tReaders]. unfold rs. rewrite (ids_set _ _ _ _ R). exact (proj2 (W3 _ Hh) t eq_refl).
      * intros t0 Et. rewrite ET in Et. injection Et as <-. cbn [tReaders tPc tSending tChanged]. split; [intros SD; exfalso; pose proof (settled_not _ _ _ (Q1 SD) R); congruence|]. unfold rs. rewrite (ids_set _ _ _ _ R), LEN.
        split; [exact Q2|]. intros C. destruct (SAME C) as (S1 & S2 & S3). apply orb_false_iff in C as [C1 C2]. destruct (Q3 C1) as (Q4 & Q5). split; [exact Q4|].
        intros r' old' Hr Ho. apply In_set in Hr as [->|Hr]; [discriminate|]. destruct (Q5 _ _ Hr Ho) as (y & Y & D).
        destruct (Nat.eq_dec (rHolder r') (rHolder r)) as [EE|EE]; [|exists y; split; [rewrite OT; [exact Y|exact EE]|exact D]].
        exists x'. rewrite E1, EE, (list_set_nth_error _ _ _ _ L), Nat.eqb_refl. split; [reflexivity|]. rewrite S1. rewrite EE in Y. congruence.
      * destruct JI as [[(a1 & t0 & E0 & EP)|(t0 & E0 & EC)]|Q].
        { left. left. exists a1, t0. split; [congruence|exact EP]. }
        { left. right. rewrite EQ in E0. injection E0 as <-. eexists. split; [exact ET|]. cbn. rewrite EC. reflexivity. }
        destruct (tChanged t || c) eqn:C; [left; right; eexists; split; [exact ET|reflexivity]|]. right. rewrite E4, Q. symmetry. apply seen_eq; [exact E3|exact E4|]. intros h Hh. unfold obs.
        destruct (Nat.eq_dec h (rHolder r)) as [->|EE]; [|rewrite OT by exact EE; reflexivity]. destruct (SAME eq_refl) as (S1 & S2 & S3).
        rewrite E1, (list_set_nth_error _ _ _ _ L), Nat.eqb_refl, X. unfold whWeight. rewrite S1, S2, S3. reflexivity.
    + unfold readersOf in R. rewrite JL in R. destruct i; discriminate.
  - destruct (taskOf s k) as [t|] eqn:T; [|discriminate]. destruct (tPc t) eqn:P; try discriminate. destruct (idle t && negb (tSending t)) eqn:I0; [|discriminate]. injection H as <-.
    apply andb_true_iff in I0 as [I0 _]. unfold taskOf in T. destruct k; [| |discriminate].
    + destruct (lst s) as [[a t']|] eqn:EQ; [|discriminate]. injection T as ->. unfold setTask. rewrite EQ. destruct (JT _ _ eq_refl) as (Q1 & Q2 & Q3). constructor; cbn [late setLst stored inst lst tik heap].
      * exact JL.
      * exact JN.
      * intros a0 t0 E0. injection E0 as <- <-. cbn [tReaders tPc tSending]. split; [congruence|]. split; [intros _; exact I0|exact Q3].
      * exact JK.
      * destruct JI as [[(a1 & t0 & E0 & EP)|Q]|Q]; [rewrite EQ in E0; injection E0 as <- <-; congruence|left; right; exact Q|right; exact Q].
    + unfold setTask. destruct (JK _ T) as (W1 & W2 & W3). constructor; cbn [late setTik stored inst lst tik heap].
      * exact JL.
      * exact JN.
      * intros a0 t0 E0. destruct (JT _ _ E0) as (X1 & X2 & X3). split; [exact X1|]. split; [exact X2|]. intros h Hh. split; [exact (proj1 (X3 _ Hh))|]. intros t' Et. injection Et as <-. exact (proj2 (X3 _ Hh) t T).
      * intros t0 Et. injection Et as <-. cbn [tReaders tPc tSending tChanged]. split; [intros _; exact I0|]. split; [exact W2|exact (fun C => conj eq_refl (proj2 (W3 C)))].
      * destruct JI as [[Q|(t0 & E0 & EC)]|Q]; [left; left; exact Q|left; right; eexists; split; [reflexivity|cbn; congruence]|right; exact Q].
  - destruct (taskOf s k) as [t|] eqn:T; [|discriminate]. destruct (tPc t) eqn:P; try discriminate. destruct (tSending t) eqn:SD; [|discriminate]. injection H as <-. unfold taskOf in T. destruct k; [| |discriminate].
    + destruct (lst s) as [[a t']|] eqn:EQ; [|discriminate]. injection T as ->. destruct (JT _ _ eq_refl) as (Q1 & Q2 & Q3). unfold returned, setTask. cbn [lst setLate]. rewrite EQ. constructor; cbn [late setLst setLate stored inst lst tik heap].
      * rewrite JL, (filter_settled _ (Q2 SD)). reflexivity.
      * exact JN.
      * intros a0 t0 E0. injection E0 as <- <-. cbn. split; [reflexivity|]. split; [discriminate|intros h []].
      * exact JK.
      * destruct JI as [[(a1 & t0 & E0 & EP)|Q]|Q]; [rewrite EQ in E0; injection E0 as <- <-; congruence|left; right; exact Q|right; exact Q].
    + destruct (JK _ T) as (Q1 & Q2 & Q3). unfold returned. destruct (tChanged t) eqn:C; constructor; cbn [late setTik setTask setLate stored inst lst tik heap].
      * rewrite JL, (filter_settled _ (Q1 SD)). reflexivity.
      * exact JN.
      * intros a0 t0 E0. destruct (JT _ _ E0) as (X1 & X2 & X3). split; [exact X1|]. split; [exact X2|]. intros h Hh. split; [exact (proj1 (X3 _ Hh))|]. intros t' Et. injection Et as <-. intros [].
      * intros t0 Et. injection Et as <-. cbn. split; [discriminate|]. split; [intros h []|discriminate].
      * left. right. eexists. split; [reflexivity|reflexivity].
      * rewrite JL, (filter_settled _ (Q1 SD)). reflexivity.
      * exact JN.
      * intros a0 t0 E0. destruct (JT _ _ E0) as (X1 & X2 & X3). split; [exact X1|]. split; [exact X2|]. intros h Hh. split; [exact (proj1 (X3 _ Hh))|]. discriminate.
      * discriminate.
      * destruct JI as [[Q|(t0 & E0 & EC)]|Q]; [left; left; exact Q|congruence|right; exact Q].
  - exfalso. exact (NT k eq_refl).
  - destruct (lst s) as [[a t]|] eqn:EQ; [|discriminate]. destruct (tPc t) eqn:P; try discriminate. injection H as <-. constructor; cbn [late stored inst lst tik heap].
    + exact JL.
    + discriminate.
    + intros a0 t0 E0. injection E0 as <- <-. cbn. split; [reflexivity|]. split; [discriminate|intros h []].
    + exact JK.
    + left. left. do 2 eexists. split; reflexivity.
  - destruct (taskOf s k) as [t|] eqn:T; [|discriminate]. destruct (tPc t) eqn:P; try discriminate. injection H as <-. unfold taskOf in T. destruct k; [| |discriminate].
    + destruct (lst s) as [[a t']|] eqn:EQ; [|discriminate]. constructor; cbn [late setLst notified stored inst lst tik heap].
      * exact JL.
      * intros E. rewrite seen_obs, E. exact (JN E).
      * discriminate.
      * exact JK.
      * right. destruct (stored s) eqn:ES; unfold seen; cbn; rewrite ?ES; cbn; unfold seen; rewrite ?ES; reflexivity.
    + constructor; cbn [late setTik notified stored inst lst tik heap].
      * exact JL.
      * intros E. rewrite seen_obs, E. exact (JN E).
      * intros a0 t0 E0. destruct (JT _ _ E0) as (X1 & X2 & X3). split; [exact X1|]. split; [exact X2|]. intros h Hh. split; [exact (proj1 (X3 _ Hh))|]. discriminate.
      * discriminate.
      * right. destruct (stored s) eqn:ES; unfold seen; cbn; rewrite ?ES; cbn; unfold seen; rewrite ?ES; reflexivity.
  - injection H as <-. constructor; cbn; assumption.
  - destruct (tik s) eqn:ET; [discriminate|]. destruct (cancelled s && negb (stopped s)); [|discriminate]. injection H as <-. constructor; cbn [late stored inst lst tik heap]; try assumption; try exact JN.
    destruct JI as [[Q|(t & E & _)]|Q]; [left; left; exact Q|congruence|right; exact Q].
Qed.
Lemma on_time_snoc : forall os o, on_time (os ++ [o]) -> on_time os /\ forall k, o <> OTimeout k.
Proof. intros os o H. split; [intros k Hk; apply (H k), in_or_app; left; exact Hk|intros k ->; apply (H k), in_or_app; right; left; reflexivity]. Qed.
Lemma jruns : forall os s, runs winit os = Some s -> on_time os -> jinv s.
Proof.
  induction os as [|o os IH] using rev_ind; intros s H T; [injection H as <-; exact jinit|].
  apply runs_snoc in H as (s1 & H1 & _ & H2). apply on_time_snoc in T as [T1 T2]. exact (jstep _ _ _ _ (base_runs static sup dynamic _ _ H1) (IH _ H1 T1) T2 H2).
Qed.

Lemma adjust_weight : forall e x said h, whStatic x = static e -> whDyn x = match told said h with Some w => adjustWeight w 0 | None => 0%Z end -> whWeight x = weight_for static e (told said h).
Proof.
  intros e x sd h S D. unfold whWeight, weight_for. rewrite D, S. destruct (told sd h) as [[|c w]|]; [reflexivity| |reflexivity]. cbn [adjustWeight].
  destruct (parseInt64 (c :: w)) as [z [| | ]]; try reflexivity.
  destruct (z <? 1)%Z eqn:E1; [apply Z.ltb_lt in E1; cbn; lia|]. apply Z.ltb_ge in E1. destruct (500 <? z)%Z eqn:E2; [apply Z.ltb_lt in E2; cbn; lia|]. apply Z.ltb_ge in E2.
  destruct (0 <? z)%Z eqn:E3; [lia|apply Z.ltb_ge in E3; lia].
Qed.
Lemma seen_holders : forall s cur hs eps, base static sup s cur -> Forall2 (fun e h => ident (heap s) h e) eps hs ->
  map fst (flat_map (obs (heap s)) hs) = eps /\ up_to_date static (said s) hs (flat_map (obs (heap s)) hs).
Proof.
  intros s cur hs eps (V & K & _) F. induction F as [|e h r hs (x & X & E) _ [IH1 IH2]]; [split; [reflexivity|constructor]|].
  cbn [flat_map]. unfold obs at 1 3. rewrite X. cbn [app map fst]. split; [congruence|]. constructor; [|exact IH2]. cbn [fst snd].
  destruct (proj1 K h x X) as (A & B & _). apply adjust_weight; assumption.
Qed.
Lemma on_time_installed : forall os s, runs winit os = Some s -> on_time os -> quiet s ->
  match last_list os None with
  | None => inst s = None
  | Some eps => exists hs l, stored s = Some hs /\ inst s = Some l /\ map fst l = eps /\ up_to_date static (said s) hs l /\ Forall2 (fun e h => ep_of s h = Some e) eps hs
  end.
Proof.
  intros os s H T [Q1 Q2]. pose proof (base_runs static sup dynamic _ _ H) as B. pose proof (jruns _ _ H T) as [_ JN _ _ JI]. pose proof B as (_ & _ & L). unfold lists in L. rewrite Q1 in L.
  destruct (last_list os None) as [eps|]; destruct (stored s) as [hs|] eqn:ES; try contradiction; [|exact (JN eq_refl)].
  destruct (seen_holders _ _ _ _ B L) as [S1 S2]. exists hs, (flat_map (obs (heap s)) hs). split; [reflexivity|]. split; [|split; [exact S1|split; [exact S2|]]].
  - destruct JI as [[(a & t & E & _)|(t & E & _)]|E]; [congruence|congruence|]. rewrite E, seen_obs, ES. reflexivity.
  - clear -L. induction L as [|e h r hs (x & X & E) _ IH]; constructor; [|exact IH]. unfold ep_of. rewrite X. cbn. congruence.
Qed.
End P.
