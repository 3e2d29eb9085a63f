(* WefProofs.v: invariants of the weight refresher. *)
From Verif Require Import Base Strconv LbModel WefModel WefSpec.
From Coq Require Import Lia.
Ltac Zify.zify_post_hook ::= idtac.

Section P.
Variable static : nat -> Z.
Variable sup : nat -> bool.
Variable dynamic : bool.
Notation step := (wstep static sup dynamic).
Notation step1 := (wstep1 static sup dynamic).
Notation runs := (wruns static sup dynamic).

Lemma runs_app : forall os s os', runs s (os ++ os') = match runs s os with Some s' => runs s' os' | None => None end.
Proof. induction os as [|o r IH]; intros s os'; [reflexivity|]. cbn [wruns app]. destruct (step s o); [apply IH|reflexivity]. Qed.
Lemma runs_snoc : forall os o s s2, runs s (os ++ [o]) = Some s2 -> exists s1, runs s os = Some s1 /\ crashed s1 = false /\ step1 s1 o = Some s2.
Proof.
  intros os o s s2 H. rewrite runs_app in H. destruct (runs s os) as [s1|]; [|discriminate]. exists s1. split; [reflexivity|].
  cbn [wruns] in H. unfold wstep in H. destruct (crashed s1); [discriminate|]. split; [reflexivity|]. destruct (step1 s1 o); congruence.
Qed.

(* ------------------------------------------------------------ the heap and what was said *)
Definition okh (said : list (nat * wans)) (hp : list wh) : Prop :=
  (forall h x, nth_error hp h = Some x ->
     whStatic x = static (whEp x) /\ whDyn x = match told said h with Some w => adjustWeight w 0 | None => 0%Z end /\ whSup x = sup (whEp x) && negb (refused said h)) /\
  (forall h a, In (h, a) said -> h < length hp).
Lemma told_new : forall said h, (forall a, ~ In (h, a) said) -> told said h = None.
Proof.
  induction said as [|[h' a] r IH]; intros h H; [reflexivity|]. cbn [told]. assert (told r h = None) by (apply IH; intros a' Ha; apply (H a'); right; exact Ha).
  destruct a as [| |w]; try exact H0. destruct (Nat.eqb h h') eqn:E; [|exact H0]. apply Nat.eqb_eq in E. subst h'. exfalso. apply (H (AWeight w)). left. reflexivity.
Qed.
Lemma refused_new : forall said h, (forall a, ~ In (h, a) said) -> refused said h = false.
Proof.
  intros said h H. unfold refused. destruct (existsb _ said) eqn:E; [|reflexivity]. apply existsb_exists in E as ([h' a] & Hin & E). cbn [fst snd] in E.
  apply andb_true_iff in E as [E _]. apply Nat.eqb_eq in E. subst h'. exfalso. exact (H a Hin).
Qed.
Lemma okh_app : forall said hp e, okh said hp -> okh said (hp ++ [mkWh e (static e) (sup e) 0]).
Proof.
  intros said hp e [A B]. split.
  - intros h x Hx. destruct (Nat.lt_ge_cases h (length hp)) as [L|L].
    + rewrite nth_error_app1 in Hx by exact L. exact (A h x Hx).
    + rewrite nth_error_app2 in Hx by exact L. destruct (h - length hp) as [|k] eqn:Ek; [|destruct k; discriminate]. injection Hx as <-. cbn.
      assert (N : forall a, ~ In (h, a) said) by (intros a Ha; specialize (B h a Ha); lia).
      rewrite (told_new _ _ N), (refused_new _ _ N). repeat split. rewrite andb_true_r. reflexivity.
  - intros h a Ha. rewrite app_length. specialize (B h a Ha). cbn. lia.
Qed.
(* what holdersFor gives *)
Definition ident (hp : list wh) (h e : nat) : Prop := exists x, nth_error hp h = Some x /\ whEp x = e.
Lemma ident_app : forall hp l h e, ident hp h e -> ident (hp ++ l) h e.
Proof. intros hp l h e (x & H & E). exists x. split; [|exact E]. rewrite nth_error_app1; [exact H|]. apply nth_error_Some. congruence. Qed.
Lemma findHolder_app : forall hp l old e, (forall h, In h old -> h < length hp) -> findHolder (hp ++ l) old e = findHolder hp old e.
Proof.
  intros hp l old e. unfold findHolder. induction old as [|h r IH]; intros H; [reflexivity|]. cbn [find].
  rewrite nth_error_app1 by (apply H; left; reflexivity). rewrite IH by (intros h' Hh; apply H; right; exact Hh). reflexivity.
Qed.
Lemma holders_ok : forall eps hp old a n hp', (forall h, In h old -> h < length hp) -> holdersFor static sup hp old eps = (a, n, hp') ->
  (exists l, hp' = hp ++ l) /\ Forall2 (fun e h => ident hp' h e) eps a /\ (forall said, okh said hp -> okh said hp') /\
  (forall h, In h n -> length hp <= h < length hp') /\
  Forall2 (fun e h => match findHolder hp old e with Some h' => h = h' | None => In h n end) eps a.
Proof.
  induction eps as [|e r IH]; intros hp old a n hp' V H; cbn [holdersFor] in H.
  - injection H as <- <- <-. split; [exists []; rewrite app_nil_r; reflexivity|]. split; [constructor|]. split; [auto|]. split; [intros h []|constructor].
  - destruct (findHolder hp old e) as [h|] eqn:F.
    + destruct (holdersFor static sup hp old r) as [[a1 n1] hp1] eqn:E. injection H as <- <- <-.
      destruct (IH _ _ _ _ _ V E) as ((l & ->) & A & K & N & Q). split; [exists l; reflexivity|]. split; [|split; [exact K|split; [exact N|]]].
      * constructor; [|exact A]. unfold findHolder in F. apply find_some in F as [_ F]. destruct (nth_error hp h) as [x|] eqn:X; [|discriminate].
        apply Nat.eqb_eq in F. apply ident_app. exists x. split; assumption.
      * constructor; [rewrite F; reflexivity|exact Q].
    + destruct (holdersFor static sup (hp ++ [mkWh e (static e) (sup e) 0]) old r) as [[a1 n1] hp1] eqn:E. injection H as <- <- <-.
      assert (V' : forall h, In h old -> h < length (hp ++ [mkWh e (static e) (sup e) 0])) by (intros h Hh; rewrite app_length; specialize (V h Hh); lia).
      destruct (IH _ _ _ _ _ V' E) as ((l & ->) & A & K & N & Q). rewrite <- app_assoc in *. split; [exists ([mkWh e (static e) (sup e) 0] ++ l); reflexivity|]. split; [|split; [|split]].
      * constructor; [|exact A]. exists (mkWh e (static e) (sup e) 0). split; [|reflexivity]. rewrite nth_error_app2 by lia. rewrite Nat.sub_diag. reflexivity.
      * intros said O1. apply K. apply okh_app. exact O1.
      * intros h [<-|Hh]; [rewrite !app_length; cbn; lia|]. specialize (N h Hh). rewrite !app_length in *. cbn in *. lia.
      * constructor; [rewrite F; left; reflexivity|]. clear -Q V. induction Q as [|e' h r' a1' Q1 Q2 IH]; constructor; [|exact IH].
        rewrite findHolder_app in Q1 by exact V. destruct (findHolder hp old e'); [exact Q1|right; exact Q1].
Qed.

(* every stored holder is in the heap *)
Definition vld (s : wef) : Prop :=
  (forall h, In h (holders s) -> h < length (heap s)) /\
  (forall a t, lst s = Some (a, t) -> forall h, In h a -> h < length (heap s)).
Lemma F2_ident_lt : forall hp eps a, Forall2 (fun e h => ident hp h e) eps a -> forall h, In h a -> h < length hp.
Proof. induction 1 as [|e h r a (x & X & _) _ IH]; intros h' Hin; [destruct Hin|]. destruct Hin as [<-|Hin]; [apply nth_error_Some; congruence|exact (IH _ Hin)]. Qed.

Definition hp_ext (hp hp' : list wh) : Prop := length hp <= length hp' /\ forall h x, nth_error hp h = Some x -> exists x', nth_error hp' h = Some x' /\ whEp x' = whEp x /\ whStatic x' = whStatic x.
Lemma ext_refl : forall hp, hp_ext hp hp.
Proof. intros hp. split; [lia|]. intros h x H. exists x. auto. Qed.
Lemma ext_app : forall hp l, hp_ext hp (hp ++ l).
Proof. intros hp l. split; [rewrite app_length; lia|]. intros h x H. exists x. split; [|split; reflexivity]. rewrite nth_error_app1; [exact H|]. apply nth_error_Some. congruence. Qed.
Lemma ext_set : forall hp i x x', nth_error hp i = Some x -> whEp x' = whEp x -> whStatic x' = whStatic x -> hp_ext hp (list_set hp i x').
Proof.
  intros hp i x x' H E1 E2. assert (L : i < length hp) by (apply nth_error_Some; congruence). split; [rewrite list_set_length; lia|].
  intros h y Hy. rewrite (list_set_nth_error _ _ _ _ L). destruct (Nat.eqb h i) eqn:E; [apply Nat.eqb_eq in E; subst h; exists x'; assert (y = x) by congruence; subst y; auto|exists y; auto].
Qed.

(* the shape of a step *)
Lemma heap_setReaders : forall s k rs c, heap (setReaders s k rs c) = heap s /\ said (setReaders s k rs c) = said s /\ stored (setReaders s k rs c) = stored s /\ inst (setReaders s k rs c) = inst s /\
  stopped (setReaders s k rs c) = stopped s /\ cancelled (setReaders s k rs c) = cancelled s /\ crashed (setReaders s k rs c) = crashed s.
Proof.
  intros s k rs c. unfold setReaders, taskOf, setTask. destruct k; cbn.
  - destruct (lst s) as [[a t]|]; cbn; auto 10.
  - destruct (tik s); cbn; auto 10.
  - auto 10.
Qed.
Lemma lst_setReaders : forall s k rs c, lst (setReaders s k rs c) = match k, lst s with WList, Some (a, t) => Some (a, mkTask rs (tChanged t || c) (tSending t) (tPc t)) | _, l => l end.
Proof. intros s k rs c. unfold setReaders, taskOf, setTask. destruct k; cbn; destruct (lst s) as [[a t]|] eqn:E; cbn; try rewrite E; try reflexivity; destruct (tik s); cbn; rewrite ?E; reflexivity. Qed.
Lemma tik_setReaders : forall s k rs c, tik (setReaders s k rs c) = match k, tik s with WTick, Some t => Some (mkTask rs (tChanged t || c) (tSending t) (tPc t)) | _, l => l end.
Proof.
  intros s k rs c. unfold setReaders, taskOf, setTask. destruct k; cbn.
  - destruct (lst s) as [[a t]|] eqn:E; cbn; destruct (tik s); reflexivity.
  - destruct (tik s) eqn:E; cbn; [reflexivity|exact E].
  - destruct (tik s); reflexivity.
Qed.
Lemma late_setReaders : forall s k rs c, late (setReaders s k rs c) = match k with WLate => rs | _ => late s end.
Proof. intros s k rs c. unfold setReaders, taskOf, setTask. destruct k; cbn; [destruct (lst s) as [[a t]|]; reflexivity|destruct (tik s); reflexivity|reflexivity]. Qed.

Lemma told_cons : forall said h a h', told ((h, a) :: said) h' = match a with AWeight w => if Nat.eqb h' h then Some w else told said h' | _ => told said h' end.
Proof. intros said h a h'. destruct a; reflexivity. Qed.
Lemma okh_answer : forall said hp i x a, okh said hp -> nth_error hp i = Some x ->
  okh ((i, a) :: said) (list_set hp i match a with
                        | ANot => mkWh (whEp x) (whStatic x) false (whDyn x)
                        | AErr => x
                        | AWeight w => mkWh (whEp x) (whStatic x) (whSup x) (adjustWeight w 0)
                        end).
Proof.
  intros said hp i x a [A B] X. assert (L : i < length hp) by (apply nth_error_Some; congruence). split.
  - intros h y Hy. rewrite (list_set_nth_error _ _ _ _ L) in Hy. rewrite told_cons. unfold refused. cbn [existsb fst snd]. fold (refused said h).
    destruct (Nat.eqb h i) eqn:E.
    + apply Nat.eqb_eq in E. subst h. destruct (A i x X) as (A1 & A2 & A3). injection Hy as <-. destruct a as [| |w]; cbn.
      * split; [exact A1|]. split; [exact A2|]. rewrite andb_false_r. reflexivity.
      * split; [exact A1|]. split; [exact A2|exact A3].
      * split; [exact A1|]. split; [reflexivity|exact A3].
    + cbn [andb orb]. destruct (A h y Hy) as (A1 & A2 & A3). split; [exact A1|]. split; [|exact A3]. destruct a; exact A2.
  - intros h b [Hb|Hb]; rewrite list_set_length; [injection Hb as <- <-; exact L|exact (B h b Hb)].
Qed.

Lemma step_heap : forall s o s', step1 s o = Some s' -> vld s -> okh (said s) (heap s) -> hp_ext (heap s) (heap s') /\ okh (said s') (heap s').
Proof.
  intros s o s' H V K. destruct o; cbn [wstep1] in H.
  - destruct (lst s); [discriminate|]. destruct (holdersFor static sup (heap s) _ eps) as [[a n] hp] eqn:E. injection H as <-.
    apply holders_ok in E; [|exact (proj1 V)]. destruct E as ((l & ->) & _ & K' & _). cbn. split; [apply ext_app|exact (K' _ K)].
  - destruct (tik s); [discriminate|]. destruct (stopped s || negb dynamic); [discriminate|]. injection H as <-. split; [apply ext_refl|exact K].
  - destruct (nth_error (readersOf s k) i) as [r|]; [|discriminate]. destruct (rPc r); try discriminate. destruct (nth_error (heap s) (rHolder r)) as [x|]; [|discriminate].
    injection H as <-. destruct (heap_setReaders s k (list_set (readersOf s k) i (mkReader (rHolder r) (RRead (whDyn x)))) false) as (-> & -> & _). split; [apply ext_refl|exact K].
  - destruct (nth_error (readersOf s k) i) as [r|]; [|discriminate]. destruct (rPc r) as [|old|]; try discriminate. destruct (nth_error (heap s) (rHolder r)) as [x|] eqn:X; [|discriminate].
    injection H as <-. match goal with |- context [setReaders ?a ?b ?c ?d] => destruct (heap_setReaders a b c d) as (-> & -> & _) end. cbn [heap said setHeap].
    split; [eapply ext_set; [exact X| |]; destruct a; reflexivity|]. apply okh_answer; assumption.
  - destruct (taskOf s k) as [t|] eqn:T; [|discriminate]. destruct (tPc t); try discriminate. destruct (idle t && negb (tSending t)); [|discriminate]. injection H as <-.
    assert (E : heap (setTask s k (mkTask (tReaders t) (tChanged t) true PWait)) = heap s /\ said (setTask s k (mkTask (tReaders t) (tChanged t) true PWait)) = said s).
    { unfold setTask. destruct k; cbn; [destruct (lst s) as [[a' t']|]; split; reflexivity|split; reflexivity|split; reflexivity]. }
    destruct E as [-> ->]. split; [apply ext_refl|exact K].
  - destruct (taskOf s k) as [t|] eqn:T; [|discriminate]. destruct (tPc t); try discriminate. destruct (tSending t); [|discriminate]. injection H as <-.
    assert (E : heap (returned s k t) = heap s /\ said (returned s k t) = said s).
    { unfold returned, setTask. destruct k; cbn; [destruct (lst s) as [[a' t']|]; split; reflexivity|destruct (tChanged t); split; reflexivity|split; reflexivity]. }
    destruct E as [-> ->]. split; [apply ext_refl|exact K].
  - destruct (taskOf s k) as [t|] eqn:T; [|discriminate]. destruct (tPc t); try discriminate. injection H as <-. cbn [heap said].
    assert (E : heap (returned s k t) = heap s /\ said (returned s k t) = said s).
    { unfold returned, setTask. destruct k; cbn; [destruct (lst s) as [[a' t']|]; split; reflexivity|destruct (tChanged t); split; reflexivity|split; reflexivity]. }
    destruct E as [-> ->]. split; [apply ext_refl|exact K].
  - destruct (lst s) as [[a t]|]; [|discriminate]. destruct (tPc t); try discriminate. injection H as <-. split; [apply ext_refl|exact K].
  - destruct (taskOf s k) as [t|]; [|discriminate]. destruct (tPc t); try discriminate. injection H as <-. destruct k; (split; [apply ext_refl|exact K]).
  - injection H as <-. split; [apply ext_refl|exact K].
  - destruct (tik s); [discriminate|]. destruct (cancelled s && negb (stopped s)); [|discriminate]. injection H as <-. split; [apply ext_refl|exact K].
Qed.

(* ------------------------------------------------------------ the lists of holders *)
Lemma F2_ext : forall hp hp' eps a, hp_ext hp hp' -> Forall2 (fun e h => ident hp h e) eps a -> Forall2 (fun e h => ident hp' h e) eps a.
Proof. intros hp hp' eps a [_ X] H. induction H as [|e h r a' (x & Hx & E) _ IH]; constructor; [|exact IH]. destruct (X h x Hx) as (x' & H1 & H2 & _). exists x'. split; [exact H1|congruence]. Qed.
(* [cur]: the endpoint list last given *)
Definition lists (s : wef) (cur : option (list nat)) : Prop :=
  match lst s with
  | Some (a, t) => (exists eps, cur = Some eps /\ Forall2 (fun e h => ident (heap s) h e) eps a) /\ (tPc t = PNotify -> stored s = Some a)
  | None => match cur, stored s with Some eps, Some a => Forall2 (fun e h => ident (heap s) h e) eps a | None, None => True | _, _ => False end
  end.
Definition after (o : wop) (cur : option (list nat)) : option (list nat) := match o with OList eps => Some eps | _ => cur end.
Lemma last_snoc : forall os o c, last_list (os ++ [o]) c = after o (last_list os c).
Proof. induction os as [|p r IH]; intros o c; [destruct o; reflexivity|]. cbn [app last_list]. destruct p; apply IH. Qed.

(* how the parts other than the heap change *)
Lemma lst_step : forall s o s', step1 s o = Some s' ->
  match o with
  | OList eps => lst s = None /\ stored s' = stored s
  | OStore => exists a t, lst s = Some (a, t) /\ tPc t = PStore /\ lst s' = Some (a, mkTask [] (tChanged t) false PNotify) /\ stored s' = Some a
  | ONotify WList => exists a t, lst s = Some (a, t) /\ tPc t = PNotify /\ lst s' = None /\ stored s' = stored s
  | _ => stored s' = stored s /\ match lst s, lst s' with
                                 | Some (a, t), Some (a', t') => a' = a /\ (tPc t' = PNotify -> tPc t = PNotify)
                                 | None, None => True | _, _ => False end
  end.
Proof.
  intros s o s' H. destruct o; cbn [wstep1] in H.
  - destruct (lst s) eqn:E; [discriminate|]. destruct (holdersFor _ _ _ _ _) as [[a n] hp]. injection H as <-. split; reflexivity.
  - destruct (tik s); [discriminate|]. destruct (stopped s || negb dynamic); [discriminate|]. injection H as <-. cbn. destruct (lst s) as [[a t]|]; auto.
  - destruct (nth_error (readersOf s k) i) as [r|]; [|discriminate]. destruct (rPc r); try discriminate. destruct (nth_error (heap s) (rHolder r)) as [x|]; [|discriminate].
    injection H as <-. rewrite lst_setReaders. match goal with |- context [setReaders ?a ?b ?c ?d] => destruct (heap_setReaders a b c d) as (_ & _ & -> & _) end.
    destruct k; destruct (lst s) as [[a t]|]; cbn; auto.
  - destruct (nth_error (readersOf s k) i) as [r|]; [|discriminate]. destruct (rPc r) as [|old|]; try discriminate. destruct (nth_error (heap s) (rHolder r)) as [x|] eqn:X; [|discriminate].
    injection H as <-. rewrite lst_setReaders. match goal with |- context [setReaders ?a ?b ?c ?d] => destruct (heap_setReaders a b c d) as (_ & _ & -> & _) end.
    cbn [lst setHeap stored]. destruct k; destruct (lst s) as [[a' t]|]; cbn; auto.
  - destruct (taskOf s k) as [t|] eqn:T; [|discriminate]. destruct (tPc t) eqn:P; try discriminate. destruct (idle t && negb (tSending t)); [|discriminate]. injection H as <-.
    unfold taskOf, setTask in *. destruct k; cbn [lst setLst setTik stored]; destruct (lst s) as [[a t']|] eqn:EL; cbn; rewrite ?EL;  try discriminate; (split; [reflexivity|]; try exact Logic.I; try (split; [reflexivity|]; auto; discriminate)).
  - destruct (taskOf s k) as [t|] eqn:T; [|discriminate]. destruct (tPc t) eqn:P; try discriminate. destruct (tSending t); [|discriminate]. injection H as <-.
    unfold taskOf, returned, setTask in *. destruct k; cbn [setLate lst setLst setTik]; try destruct (tChanged t); cbn [setLate lst setLst setTik stored heap]; destruct (lst s) as [[a t']|] eqn:EL; try discriminate; cbn; rewrite ?EL; (split; [reflexivity|]; try exact Logic.I; try (split; [reflexivity|]; auto; discriminate)).
  - destruct (taskOf s k) as [t|] eqn:T; [|discriminate]. destruct (tPc t) eqn:P; try discriminate. injection H as <-.
    unfold taskOf, returned, setTask in *. destruct k; cbn [setLate lst setLst setTik]; try destruct (tChanged t); cbn [setLate lst setLst setTik stored heap]; destruct (lst s) as [[a t']|] eqn:EL; try discriminate; cbn; rewrite ?EL; (split; [reflexivity|]; try exact Logic.I; try (split; [reflexivity|]; auto; discriminate)).
  - destruct (lst s) as [[a t]|]; [|discriminate]. destruct (tPc t) eqn:P; try discriminate. injection H as <-. exists a, t. auto.
  - unfold taskOf in H. destruct k.
    + destruct (lst s) as [[a t]|] eqn:E; [|discriminate]. destruct (tPc t) eqn:P; try discriminate. injection H as <-. exists a, t. auto.
    + destruct (tik s) as [t|]; [|discriminate]. destruct (tPc t); try discriminate. injection H as <-. cbn. destruct (lst s) as [[a t']|]; auto.
    + discriminate.
  - injection H as <-. cbn. destruct (lst s) as [[a t]|]; auto.
  - destruct (tik s); [discriminate|]. destruct (cancelled s && negb (stopped s)); [|discriminate]. injection H as <-. cbn. destruct (lst s) as [[a t]|]; auto.
Qed.
Lemma lists_vld : forall s cur, lists s cur -> (lst s = None \/ True) -> (forall h, In h (holders s) -> h < length (heap s)) -> vld s.
Proof.
  intros s cur L _ H. split; [exact H|]. intros a t E. unfold lists in L. rewrite E in L. destruct L as ((eps & _ & F) & _). exact (F2_ident_lt _ _ _ F).
Qed.
Definition base (s : wef) (cur : option (list nat)) : Prop := vld s /\ okh (said s) (heap s) /\ lists s cur.
Lemma base_init : base winit None.
Proof. repeat split; cbn; intros; try contradiction; try discriminate; destruct h; discriminate. Qed.
Lemma base_step : forall s o s' cur, base s cur -> step1 s o = Some s' -> base s' (after o cur).
Proof.
  intros s o s' cur (V & K & L) H. destruct (step_heap _ _ _ H V K) as [X K']. pose proof (lst_step _ _ _ H) as T.
  assert (G : lists s' (after o cur) /\ (forall h, In h (holders s') -> h < length (heap s'))).
  { assert (Hk : stored s' = stored s -> forall h, In h (holders s') -> h < length (heap s')).
    { intros E h Hin. unfold holders in *. rewrite E in Hin. pose proof (proj1 V h Hin). destruct X as [X _]. lia. }
    assert (Hq : stored s' = stored s /\ match lst s, lst s' with
                                 | Some (a, t), Some (a', t') => a' = a /\ (tPc t' = PNotify -> tPc t = PNotify)
                                 | None, None => True | _, _ => False end -> lists s' cur /\ (forall h, In h (holders s') -> h < length (heap s'))).
    { intros [E Q]. split; [|exact (Hk E)]. unfold lists in *. destruct (lst s) as [[a t]|]; destruct (lst s') as [[a' t']|]; try contradiction.
      - destruct Q as [-> Q]. destruct L as ((eps & -> & F) & N). split; [exists eps; split; [reflexivity|exact (F2_ext _ _ _ _ X F)]|]. intros P. rewrite E. auto.
      - rewrite E. destruct cur; destruct (stored s); try contradiction; [exact (F2_ext _ _ _ _ X L)|exact Logic.I]. }
    destruct o; try (exact (Hq T)).
    - destruct T as [EL E]. split; [|exact (Hk E)]. cbn [wstep1] in H. rewrite EL in H.
      destruct (holdersFor static sup (heap s) (match stored s with Some l => l | None => [] end) eps) as [[a n] hp] eqn:EH. injection H as <-.
      apply holders_ok in EH; [|exact (proj1 V)]. destruct EH as ((l & ->) & F & _). cbn. split; [exists eps; split; [reflexivity|exact F]|]. destruct n; discriminate.
    - destruct T as (a & t & E1 & E2 & E3 & E4). unfold lists in *. rewrite E1 in L. rewrite E3. destruct L as ((eps & -> & F) & _). pose proof (F2_ext _ _ _ _ X F) as F'. split.
      + split; [exists eps; split; [reflexivity|exact F']|]. intros _. exact E4.
      + intros h Hin. unfold holders in Hin. rewrite E4 in Hin. exact (F2_ident_lt _ _ _ F' _ Hin).
    - destruct k; try exact (Hq T). destruct T as (a & t & E1 & E2 & E3 & E4). split; [|exact (Hk E4)]. unfold lists in *. rewrite E1 in L. rewrite E3, E4.
      destruct L as ((eps & -> & F) & N). rewrite (N E2). exact (F2_ext _ _ _ _ X F). }
  destruct G as [G1 G2]. split; [|split; [exact K'|exact G1]]. eapply lists_vld; eauto.
Qed.
Lemma base_runs : forall os s, runs winit os = Some s -> base s (last_list os None).
Proof.
  induction os as [|o os IH] using rev_ind; intros s H; [injection H as <-; exact base_init|].
  apply runs_snoc in H as (s1 & H1 & _ & H2). rewrite last_snoc. exact (base_step _ _ _ _ (IH _ H1) H2).
Qed.
End P.
