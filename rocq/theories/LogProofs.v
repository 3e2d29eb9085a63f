(* LogProofs.v: lemmas for C88. *)
From Verif Require Import Base GoStrings GoStrings2 Strconv UrlModel LogModel LogSpec.
From Coq Require Import Permutation Sorted.
Ltac Zify.zify_post_hook ::= idtac.

(* ------------------------------------------------------------ names *)

Lemma extRev_spec r acc e : extRev r acc = Some e -> exists a b, r = a ++ x2e :: b /\ e = x2e :: rev a ++ acc /\ ~ In x2e a.
Proof.
  revert acc. induction r as [|x r IH]; intros acc H; [discriminate H|]. cbn [extRev] in H. destruct (byte_eqb x x2e) eqn:E.
  - apply byte_eqb_spec in E as ->. injection H as <-. exists [], r. repeat split. intros [].
  - destruct (IH _ H) as (a & b & -> & -> & N). exists (x :: a), b. split; [reflexivity|]. split; [cbn [rev]; rewrite <- app_assoc; reflexivity|].
    intros [->|I]; [rewrite byte_eqb_refl in E; discriminate E|exact (N I)].
Qed.
Lemma name_split n : n = fileBase n ++ fileExt n /\ (fileExt n = [] \/ exists e, fileExt n = x2e :: e /\ ~ In x2e e).
Proof.
  unfold fileBase, fileExt. destruct (extRev (rev n) []) as [e|] eqn:E.
  - apply extRev_spec in E as (a & b & R & -> & N). rewrite app_nil_r. assert (Q : n = rev b ++ x2e :: rev a).
    { rewrite <- (rev_involutive n), R, rev_app_distr. cbn [rev]. rewrite <- app_assoc. reflexivity. }
    split.
    + rewrite Q. rewrite app_length, Nat.add_sub, firstn_app_exact by reflexivity. reflexivity.
    + right. exists (rev a). split; [reflexivity|]. intro I. apply in_rev in I. exact (N I).
  - split; [|left; reflexivity]. rewrite app_nil_r. cbn [length]. rewrite Nat.sub_0_r, firstn_all. reflexivity.
Qed.
Definition pre (c : lcfg) : bs := fileBase (l_name c) ++ s2b "-".
Lemma name_not_pre c : hasPrefix (l_name c) (pre c) = false.
Proof.
  apply not_true_is_false. intro H. apply hasPrefix_spec in H as (t & H). destruct (name_split (l_name c)) as [S E]. rewrite S in H at 1. unfold pre in H.
  rewrite <- app_assoc in H. apply app_inv_head in H. destruct E as [E|(e & E & _)]; rewrite E in H; discriminate H.
Qed.
Lemma pre_backup c t : hasPrefix (backupName c t) (pre c) = true.
Proof. apply hasPrefix_spec. unfold backupName, pre. eexists. rewrite <- app_assoc. reflexivity. Qed.
Lemma pre_app c n r : hasPrefix n (pre c) = true -> hasPrefix (n ++ r) (pre c) = true.
Proof. intro H. apply hasPrefix_spec in H as (t & ->). apply hasPrefix_spec. exists (t ++ r). rewrite app_assoc. reflexivity. Qed.
Lemma not_name c n : hasPrefix n (pre c) = true -> n <> l_name c.
Proof. intros H ->. rewrite name_not_pre in H. discriminate H. Qed.
Lemma not_name' c n : hasPrefix n (pre c) = true -> bs_eqb (l_name c) n = false.
Proof. intro H. apply bs_eqb_neq. intro E. exact (not_name c n H (eq_sym E)). Qed.
Lemma timeFromName_pre c n e h : timeFromName c n e = Some h -> hasPrefix n (pre c) = true.
Proof. unfold timeFromName. fold (pre c). destruct (hasPrefix n (pre c)); [reflexivity|discriminate]. Qed.
Lemma backupTime_pre c n h : backupTime c n = Some h -> hasPrefix n (pre c) = true.
Proof. unfold backupTime. destruct (timeFromName c n (fileExt (l_name c))) eqn:E; intro H; [exact (timeFromName_pre _ _ _ _ E)|exact (timeFromName_pre _ _ _ _ H)]. Qed.

Lemma In_old c fs h n : In (h, n) (oldLogFiles c fs) <-> In n (akeys fs) /\ backupTime c n = Some h.
Proof.
  unfold oldLogFiles. rewrite in_flat_map. split.
  - intros (m & I & J). destruct (backupTime c m) eqn:E; [|destruct J]. destruct J as [J|[]]. injection J as -> ->. auto.
  - intros (I & E). exists n. split; [exact I|]. rewrite E. left. reflexivity.
Qed.

(* tasks concern backups only; compression only names without .gz *)
Definition gz_end (n : bs) : Prop := exists r, n = r ++ gzSuffix.
Lemma gz_end_spec n : hasSuffix n gzSuffix = true <-> gz_end n.
Proof. apply hasSuffix_spec. Qed.
Lemma splitBackups_in maxb l : forall seen k r, splitBackups maxb seen l = (k, r) -> forall f, In f l <-> In f k \/ In f r.
Proof.
  induction l as [|[h n] l IH]; intros seen k r H f; cbn [splitBackups] in H.
  - injection H as <- <-. cbn. tauto.
  - destruct (splitBackups maxb _ l) as [k0 r0] eqn:E. specialize (IH _ _ _ E f). destruct (maxb <? _)%Z; injection H as <- <-; cbn [In]; rewrite IH; tauto.
Qed.
Definition task_name (k : task) : bs := match k with TRemove n | TCompress n => n end.
Lemma millTasks_in c ord now fs : (forall l, Permutation (ord l) l) -> forall k, In k (millTasks c ord now fs) ->
  exists h, In (task_name k) (akeys fs) /\ backupTime c (task_name k) = Some h /\ (forall n, k = TCompress n -> ~ gz_end n /\ l_compress c = true).
Proof.
  intros P k. unfold millTasks. destruct ((_ && _) && _)%bool; [intros []|].
  assert (P0 : forall f, In f (ord (oldLogFiles c fs)) -> In (snd f) (akeys fs) /\ backupTime c (snd f) = Some (fst f)).
  { intros [h n] I. apply (Permutation_in _ (P _)) in I. apply In_old in I. exact I. }
  destruct (if (_ && _)%bool then _ else _) as [files rm1] eqn:E1.
  assert (P1 : forall f, In f files \/ In f rm1 -> In f (ord (oldLogFiles c fs))).
  { intro f. destruct ((0 <? l_maxBackups c)%Z && _)%bool; [apply (splitBackups_in _ _ _ _ _ E1)|]. injection E1 as <- <-. intros [I|[]]. exact I. }
  destruct (if (0 <? l_maxAge c)%Z then _ else _) as [files2 rm2] eqn:E2.
  assert (P2 : forall f, In f files2 \/ In f rm2 -> In f files).
  { intro f. destruct (0 <? l_maxAge c)%Z; injection E2 as <- <-; [rewrite !filter_In; tauto|intros [I|[]]; exact I]. }
  intro I. apply in_app_or in I as [I|I].
  - apply in_map_iff in I as ([h n] & <- & I). exists h. cbn [task_name snd]. assert (J : In (h, n) (ord (oldLogFiles c fs))).
    { apply P1. apply in_app_or in I as [I|I]; [right; exact I|left; apply P2; right; exact I]. }
    apply P0 in J as [J1 J2]. split; [exact J1|]. split; [exact J2|]. discriminate.
  - destruct (l_compress c) eqn:C; [|destruct I]. apply in_map_iff in I as ([h n] & <- & I). apply filter_In in I as [I J]. exists h. cbn [task_name snd] in *.
    destruct (P0 (h, n)) as [J1 J2]; [apply P1; left; apply P2; left; exact I|]. split; [exact J1|]. split; [exact J2|].
    intros m E. injection E as <-. split; [|reflexivity]. intro G. apply gz_end_spec in G. rewrite G in J. discriminate J.
Qed.

(* ------------------------------------------------------------ one file operation *)

(* the open file is the log and its size is known *)
Definition open_ok (c : lcfg) (s : wst) : Prop :=
  forall k, w_open s = Some k -> exists x, aget bs_eqb (w_fs s) (l_name c) = Some x /\ k = Z.of_nat (length x).
Definition cur (c : lcfg) (s : wst) : bs := content (w_fs s) (l_name c).

Lemma rename_get c fs x t m : aget bs_eqb fs (l_name c) = Some x ->
  aget bs_eqb (rename fs (l_name c) (backupName c t)) m = if bs_eqb m (backupName c t) then Some x else if bs_eqb m (l_name c) then None else aget bs_eqb fs m.
Proof. intro E. unfold rename. rewrite E, (aget_aset bs_eqb bs_eqb_spec), (aget_adel bs_eqb bs_eqb_spec). reflexivity. Qed.

(* what opening, rotating and writing may do to the directory: nothing, or move the log aside once; then append *)
Inductive moved (c : lcfg) (s : wst) : wst -> list lev -> Prop :=
| M_none s' : (forall n, n <> l_name c -> aget bs_eqb (w_fs s') n = aget bs_eqb (w_fs s) n) -> cur c s' = cur c s ->
    w_todo s' = w_todo s -> (forall n, In n (akeys (w_fs s')) -> In n (akeys (w_fs s)) \/ n = l_name c) -> moved c s s' []
| M_back s' t x : aget bs_eqb (w_fs s) (l_name c) = Some x -> 
    (forall n, n <> l_name c -> aget bs_eqb (w_fs s') n = if bs_eqb n (backupName c t) then Some x else aget bs_eqb (w_fs s) n) ->
    cur c s' = [] -> w_todo s' = w_todo s -> (forall n, In n (akeys (w_fs s')) -> In n (akeys (w_fs s)) \/ n = l_name c \/ n = backupName c t) ->
    moved c s s' [EBackup t (backupName c t) x].

Lemma keys_get (m : list (bs * bs)) k : In k (akeys m) <-> aget bs_eqb m k <> None.
Proof.
  destruct (aget bs_eqb m k) eqn:E.
  - split; [discriminate|]. intros _. apply (aget_In bs_eqb bs_eqb_spec) in E. apply (in_map fst) in E. exact E.
  - apply (aget_None bs_eqb bs_eqb_spec) in E. split; [intro I; contradiction|intro H; contradiction H; reflexivity].
Qed.

Lemma openNew_ok c t f s s' ev ok : f_stat2 f = false -> w_open s = None -> openNew c t f s = (s', ev, ok) ->
  moved c s s' ev /\ open_ok c s' /\ (ok = true -> cur c s' = [] /\ w_open s' = Some 0%Z) /\ (ok = false -> w_open s' = None) /\
  (ok = true -> exists b, aget bs_eqb (w_fs s) (l_name c) = Some b -> ev = [EBackup t (backupName c t) b]).
Proof.
  intros F O H. unfold openNew in H. rewrite F in H.
  assert (NB : bs_eqb (l_name c) (backupName c t) = false) by (apply not_name', pre_backup).
  destruct (f_mkdir f).
  { injection H as <- <- <-. split; [constructor; auto|]. split; [intros k K; congruence|]. split; [discriminate|]. split; [auto|discriminate]. }
  destruct (aget bs_eqb (w_fs s) (l_name c)) as [x|] eqn:E.
  - set (fs1 := rename (w_fs s) (l_name c) (backupName c t)) in *.
    assert (G1 : forall n, n <> l_name c -> aget bs_eqb fs1 n = if bs_eqb n (backupName c t) then Some x else aget bs_eqb (w_fs s) n).
    { intros n N. unfold fs1. rewrite (rename_get c _ x) by exact E. destruct (bs_eqb n (backupName c t)); [reflexivity|]. apply bs_eqb_neq in N. rewrite N. reflexivity. }
    assert (G2 : aget bs_eqb fs1 (l_name c) = None).
    { unfold fs1. rewrite (rename_get c _ x) by exact E. rewrite NB, bs_eqb_refl. reflexivity. }
    assert (K1 : forall n, In n (akeys fs1) -> In n (akeys (w_fs s)) \/ n = l_name c \/ n = backupName c t).
    { intros n I. apply keys_get in I. destruct (bs_eq_dec n (l_name c)); [auto|]. rewrite G1 in I by assumption. destruct (bs_eqb n (backupName c t)) eqn:Q; [apply bs_eqb_spec in Q; auto|].
      left. apply keys_get. exact I. }
    assert (D : forall fs2 op, (forall n, n <> l_name c -> aget bs_eqb fs2 n = aget bs_eqb fs1 n) -> content fs2 (l_name c) = [] ->
              moved c s (mkW fs2 op (w_todo s)) [EBackup t (backupName c t) x]).
    { intros fs2 op D1 D2. apply M_back; cbn [w_fs w_todo]; auto.
      - intros n N. rewrite D1 by assumption. apply G1. exact N.
      - intros n I. destruct (bs_eq_dec n (l_name c)) as [->|N]; [auto|]. apply K1. apply keys_get. rewrite <- D1 by assumption. apply keys_get. exact I. }
    assert (S1 : forall n v, n <> l_name c -> aget bs_eqb (aset bs_eqb fs1 (l_name c) v) n = aget bs_eqb fs1 n).
    { intros n v N. rewrite (aget_aset bs_eqb bs_eqb_spec). apply bs_eqb_neq in N. rewrite N. reflexivity. }
    assert (S2 : content (aset bs_eqb fs1 (l_name c) []) (l_name c) = []).
    { unfold content. rewrite (aget_aset bs_eqb bs_eqb_spec), bs_eqb_refl. reflexivity. }
    destruct (f_rename f).
    { injection H as <- <- <-. split; [constructor; auto|]. split; [intros k K; congruence|]. split; [discriminate|]. split; [auto|discriminate]. }
    destruct (f_create f).
    { injection H as <- <- <-. split; [apply D; [auto|]; unfold content; rewrite G2; reflexivity|]. split; [intros k K; cbn in K; congruence|]. split; [discriminate|]. split; [auto|discriminate]. }
    destruct (f_chown f).
    { injection H as <- <- <-. split; [apply D; [intros; apply S1; assumption|exact S2]|]. split; [intros k K; cbn in K; congruence|]. split; [discriminate|]. split; [auto|discriminate]. }
    destruct (f_open f); injection H as <- <- <-.
    { split; [apply D; [intros; apply S1; assumption|exact S2]|]. split; [intros k K; cbn in K; congruence|]. split; [discriminate|]. split; [auto|discriminate]. }
    assert (S3 : forall n, n <> l_name c -> aget bs_eqb (aset bs_eqb (aset bs_eqb fs1 (l_name c) []) (l_name c) []) n = aget bs_eqb fs1 n).
    { intros n N. rewrite (aget_aset bs_eqb bs_eqb_spec). pose proof N as N'. apply bs_eqb_neq in N'. rewrite N'. apply S1. exact N. }
    assert (S4 : aget bs_eqb (aset bs_eqb (aset bs_eqb fs1 (l_name c) []) (l_name c) []) (l_name c) = Some []) by (rewrite (aget_aset bs_eqb bs_eqb_spec), bs_eqb_refl; reflexivity).
    split; [apply D; [exact S3|unfold content; rewrite S4; reflexivity]|]. split; [intros k K; cbn in K; injection K as <-; exists []; split; [exact S4|reflexivity]|].
    split; [intros _; split; [unfold cur, content; cbn [w_fs]; rewrite S4; reflexivity|reflexivity]|]. split; [discriminate|]. intros _. exists x. intros _. reflexivity.
  - assert (C0 : cur c s = []) by (unfold cur, content; rewrite E; reflexivity).
    destruct (f_open f); injection H as <- <- <-.
    { split; [constructor; cbn; auto|]. split; [intros k K; cbn in K; congruence|]. split; [discriminate|]. split; [auto|discriminate]. }
    assert (S4 : aget bs_eqb (aset bs_eqb (w_fs s) (l_name c) []) (l_name c) = Some []) by (rewrite (aget_aset bs_eqb bs_eqb_spec), bs_eqb_refl; reflexivity).
    assert (C1 : forall op, cur c (mkW (aset bs_eqb (w_fs s) (l_name c) []) op (w_todo s)) = []) by (intro op; unfold cur, content; cbn [w_fs]; rewrite S4; reflexivity).
    split; [constructor; cbn [w_fs w_todo]|].
    + intros n N. rewrite (aget_aset bs_eqb bs_eqb_spec). apply bs_eqb_neq in N. rewrite N. reflexivity.
    + rewrite C1, C0. reflexivity.
    + reflexivity.
    + intros n I. apply keys_get in I. rewrite (aget_aset bs_eqb bs_eqb_spec) in I. destruct (bs_eqb n (l_name c)) eqn:Q; [right; apply bs_eqb_spec; exact Q|left; apply keys_get; exact I].
    + split; [intros k K; cbn in K; injection K as <-; exists []; split; [exact S4|reflexivity]|].
      split; [intros _; split; [apply C1|reflexivity]|]. split; [discriminate|]. intros _. exists []. discriminate.
Qed.
Lemma moved_close c s s' ev : moved c (closeFile s) s' ev -> moved c s s' ev.
Proof. intro H. inversion H; subst; econstructor; eauto. Qed.
Lemma rotate_ok c t f s s' ev ok : f_stat2 f = false -> rotate c t f s = (s', ev, ok) ->
  moved c s s' ev /\ open_ok c s' /\ (ok = true -> cur c s' = [] /\ w_open s' = Some 0%Z) /\ (ok = false -> w_open s' = None).
Proof.
  intros F H. unfold rotate in H. destruct (w_open s) eqn:O.
  - destruct (f_close f).
    + injection H as <- <- <-. split; [constructor; cbn; auto|]. split; [intros k K; cbn in K; discriminate K|]. split; [discriminate|reflexivity].
    + apply openNew_ok in H as (H1 & H2 & H3 & H4 & _); [|exact F|reflexivity]. split; [apply moved_close; exact H1|]. auto.
  - apply openNew_ok in H as (H1 & H2 & H3 & H4 & _); auto.
Qed.
Lemma openExisting_ok c len t f s s' ev ok : f_stat2 f = false -> w_open s = None -> (0 <= len)%Z -> openExisting c len t f s = (s', ev, ok) ->
  moved c s s' ev /\ open_ok c s' /\ (ok = true -> exists k, w_open s' = Some k /\ (k = 0 \/ k + len < maxBytes c)%Z) /\ (ok = false -> w_open s' = None).
Proof.
  intros F O L H. unfold openExisting in H. destruct (f_stat f).
  { injection H as <- <- <-. split; [constructor; auto|]. split; [intros k K; congruence|]. split; [discriminate|auto]. }
  destruct (aget bs_eqb (w_fs s) (l_name c)) as [x|] eqn:E.
  - destruct (Z.leb_spec (maxBytes c) (Z.of_nat (length x) + len)) as [Q|Q].
    + apply rotate_ok in H as (H1 & H2 & H3 & H4); [|exact F]. split; [exact H1|]. split; [exact H2|]. split; [|exact H4]. intro K. destruct (H3 K) as [_ K2]. exists 0%Z. auto.
    + destruct (f_append f).
      * apply openNew_ok in H as (H1 & H2 & H3 & H4 & _); auto. split; [exact H1|]. split; [exact H2|]. split; [|exact H4]. intro K. destruct (H3 K) as [_ K2]. exists 0%Z. auto.
      * injection H as <- <- <-. split; [constructor; cbn; auto|]. split; [intros k K; cbn in K; injection K as <-; exists x; auto|]. split; [|discriminate].
        intros _. exists (Z.of_nat (length x)). split; [reflexivity|]. right. lia.
  - apply openNew_ok in H as (H1 & H2 & H3 & H4 & _); auto. split; [exact H1|]. split; [exact H2|]. split; [|exact H4]. intro K. destruct (H3 K) as [_ K2]. exists 0%Z. auto.
Qed.

(* the effect of writing: at most one move, then the bytes at the end of the log *)
Definition append (c : lcfg) (s : wst) (b : bs) : wst :=
  mkW (aset bs_eqb (w_fs s) (l_name c) (cur c s ++ b)) (match w_open s with Some k => Some (k + Z.of_nat (length b))%Z | None => None end) (w_todo s).
Lemma append_cur c s b : cur c (append c s b) = cur c s ++ b.
Proof. unfold cur at 1, content, append. cbn [w_fs]. rewrite (aget_aset bs_eqb bs_eqb_spec), bs_eqb_refl. reflexivity. Qed.
Lemma append_other c s b n : n <> l_name c -> aget bs_eqb (w_fs (append c s b)) n = aget bs_eqb (w_fs s) n.
Proof. intro N. unfold append. cbn [w_fs]. rewrite (aget_aset bs_eqb bs_eqb_spec). apply bs_eqb_neq in N. rewrite N. reflexivity. Qed.
Lemma append_open c s b : open_ok c s -> open_ok c (append c s b).
Proof.
  intros O k K. unfold append in K. cbn [w_open] in K. destruct (w_open s) as [k0|] eqn:E; [|discriminate K]. injection K as <-. destruct (O k0 E) as (x & X & ->).
  exists (cur c s ++ b). split; [unfold append; cbn [w_fs]; rewrite (aget_aset bs_eqb bs_eqb_spec), bs_eqb_refl; reflexivity|].
  unfold cur, content. rewrite X, app_length. lia.
Qed.

Lemma write_ok c p t f n s s' ev r : f_stat2 f = false -> open_ok c s -> writeLog c p t f n s = (s', ev, r) ->
  exists s1 ev1, moved c s s1 ev1 /\ open_ok c s1 /\
    match r with
    | None => s' = s1 /\ ev = ev1
    | Some m => s' = append c s1 (firstn n p) /\ ev = ev1 ++ [EWrote (firstn n p)] /\ m = length (firstn n p) /\ w_open s1 <> None /\
                (Z.of_nat (length (cur c s1)) + Z.of_nat (length p) <= maxBytes c)%Z
    end.
Proof.
  intros F O H. unfold writeLog in H. assert (R0 : moved c s s []) by (constructor; auto).
  destruct (Z.ltb_spec (maxBytes c) (Z.of_nat (length p))) as [L|L].
  { injection H as <- <- <-. exists s, []. auto. }
  destruct (w_open s) as [k|] eqn:Os.
  - cbn [negb] in H. rewrite Os in H. destruct (Z.ltb_spec (maxBytes c) (k + Z.of_nat (length p))) as [Q|Q].
    + destruct (rotate c t f s) as [[s2 ev2] ok] eqn:E. apply rotate_ok in E as (E1 & E2 & E3 & E4); [|exact F]. destruct ok; cbn [negb] in H.
      * destruct (E3 eq_refl) as [C W]. rewrite W in H. injection H as <- <- <-. exists s2, ev2. split; [exact E1|]. split; [exact E2|].
        split; [unfold append; rewrite W; reflexivity|]. split; [reflexivity|]. split; [reflexivity|]. split; [congruence|]. rewrite C. cbn [length]. lia.
      * injection H as <- <- <-. exists s2, ev2. auto.
    + cbn [negb] in H. rewrite Os in H. injection H as <- <- <-. exists s, []. split; [exact R0|]. split; [exact O|]. split; [unfold append; rewrite Os; reflexivity|].
      split; [reflexivity|]. split; [reflexivity|]. split; [congruence|]. destruct (O k Os) as (x & X & ->). unfold cur, content. rewrite X. exact Q.
  - destruct (openExisting c (Z.of_nat (length p)) t f s) as [[s1 ev1] ok] eqn:E. apply openExisting_ok in E as (E1 & E2 & E3 & E4); [|exact F|exact Os|lia].
    destruct ok; cbn [negb] in H.
    + destruct (E3 eq_refl) as (k & W & K). rewrite W in H. destruct (Z.ltb_spec (maxBytes c) (k + Z.of_nat (length p))) as [Q|Q]; [lia|]. cbn [negb] in H. rewrite W in H.
      injection H as <- <- <-. exists s1, ev1. split; [exact E1|]. split; [exact E2|]. split; [unfold append; rewrite W; reflexivity|]. split; [reflexivity|].
      split; [reflexivity|]. split; [congruence|]. destruct (E2 k W) as (x & X & ->). unfold cur, content. rewrite X. exact Q.
    + injection H as <- <- <-. exists s1, ev1. auto.
Qed.

(* ------------------------------------------------------------ the stream *)

Definition todo_ok (c : lcfg) (s : wst) : Prop := forall k, In k (w_todo s) -> hasPrefix (task_name k) (pre c) = true.
Definition ord_ok (o : logop) : Prop := match o with LMill _ ord => forall l, Permutation (ord l) l | _ => True end.
Definition datas (ev : list lev) : bs := concat (map snd (backed ev)).
Lemma written_app a b : written (a ++ b) = written a ++ written b. Proof. apply flat_map_app. Qed.
Lemma backed_app a b : backed (a ++ b) = backed a ++ backed b. Proof. apply flat_map_app. Qed.
Lemma removed_app a b : removed (a ++ b) = removed a ++ removed b. Proof. apply flat_map_app. Qed.
Lemma datas_app a b : datas (a ++ b) = datas a ++ datas b.
Proof. unfold datas. rewrite backed_app, map_app, concat_app. reflexivity. Qed.

Lemma moved_stream c s s' ev : moved c s s' ev -> cur c s ++ written ev = datas ev ++ cur c s'.
Proof.
  intro M. destruct M as [s' A B D E|s' t x X A B D E]; cbn [written datas flat_map backed map concat snd app].
  - rewrite app_nil_r, B. reflexivity.
  - unfold datas. cbn. rewrite B, !app_nil_r. unfold cur, content. rewrite X. reflexivity.
Qed.
Lemma moved_todo c s s' ev : moved c s s' ev -> w_todo s' = w_todo s.
Proof. intros []; assumption. Qed.

Lemma task_cur gzip c k rmok o fs fs' ev : hasPrefix (task_name k) (pre c) = true -> doTask gzip k rmok o fs = (fs', ev) ->
  aget bs_eqb fs' (l_name c) = aget bs_eqb fs (l_name c) /\ written ev = [] /\ backed ev = [].
Proof.
  intros P H. pose proof (not_name' c _ P) as N. pose proof (not_name' c _ (pre_app c _ gzSuffix P)) as N2. destruct k as [n|n]; cbn [doTask task_name] in *.
  - destruct rmok; injection H as <- <-; [rewrite (aget_adel bs_eqb bs_eqb_spec), N|]; auto.
  - injection H as <- <-. split; [|auto]. unfold compressFile. destruct (aget bs_eqb fs n); [|reflexivity]. destruct o;
      rewrite ?(aget_adel bs_eqb bs_eqb_spec), ?N, ?(aget_aset bs_eqb bs_eqb_spec), ?(aget_adel bs_eqb bs_eqb_spec), ?N2; reflexivity.
Qed.

Lemma step_stream gzip c s o s' ev : stat_works o -> ord_ok o -> open_ok c s -> todo_ok c s -> logStep gzip c s o = (s', ev) ->
  open_ok c s' /\ todo_ok c s' /\ cur c s ++ written ev = datas ev ++ cur c s'.
Proof.
  intros F P O T H. destruct o as [p t f n|t f| |now ord|rmok o|]; cbn [logStep stat_works ord_ok] in *.
  - destruct (writeLog c p t f n s) as [[s2 ev2] r] eqn:E. injection H as <- <-. apply write_ok in E as (s1 & ev1 & M & O1 & R); [|exact F|exact O].
    pose proof (moved_stream _ _ _ _ M) as Q. pose proof (moved_todo _ _ _ _ M) as Q2. destruct r as [m|].
    + destruct R as (-> & -> & _). split; [apply append_open; exact O1|]. split; [unfold todo_ok, append; cbn [w_todo]; rewrite Q2; exact T|].
      rewrite written_app, datas_app, append_cur, app_assoc, Q. change (datas [EWrote (firstn n p)]) with (@nil byte). change (written [EWrote (firstn n p)]) with (firstn n p ++ []).
      rewrite !app_nil_r, <- app_assoc. reflexivity.
    + destruct R as (-> & ->). split; [exact O1|]. split; [unfold todo_ok; rewrite Q2; exact T|exact Q].
  - destruct (rotate c t f s) as [[s2 ev2] r] eqn:E. injection H as <- <-. apply rotate_ok in E as (M & O1 & _); [|exact F].
    split; [exact O1|]. split; [unfold todo_ok; rewrite (moved_todo _ _ _ _ M); exact T|apply moved_stream; exact M].
  - injection H as <- <-. split; [intros k K; discriminate K|]. split; [exact T|]. cbn. rewrite app_nil_r. reflexivity.
  - assert (Z : cur c s ++ written [] = datas [] ++ cur c s) by (cbn; apply app_nil_r). destruct (w_todo s) eqn:E.
    + injection H as <- <-. split; [exact O|]. split; [|exact Z]. intros k K. cbn [w_todo] in K. destruct (millTasks_in c ord now (w_fs s) P k K) as (h & _ & B & _). exact (backupTime_pre _ _ _ B).
    + injection H as <- <-. auto.
  - destruct (w_todo s) as [|k r] eqn:E; [injection H as <- <-; split; [exact O|split; [exact T|cbn; apply app_nil_r]]|].
    destruct (doTask gzip k rmok o (w_fs s)) as [fs2 ev2] eqn:D. injection H as <- <-.
    assert (Pk : hasPrefix (task_name k) (pre c) = true) by (apply T; rewrite E; left; reflexivity).
    destruct (task_cur gzip c k rmok o _ _ _ Pk D) as (A1 & A2 & A3). split; [|split].
    + intros z Z. cbn [w_open w_fs] in *. rewrite A1. exact (O z Z).
    + intros z Z. cbn [w_todo] in Z. apply T. rewrite E. right. exact Z.
    + unfold datas. rewrite A2, A3. cbn. rewrite app_nil_r. unfold cur, content. cbn [w_fs]. rewrite A1. reflexivity.
  - injection H as <- <-. split; [intros k K; discriminate K|]. split; [intros k []|]. cbn. rewrite app_nil_r. reflexivity.
Qed.
Lemma run_stream gzip c l : forall s s' ev, Forall stat_works l -> Forall ord_ok l -> open_ok c s -> todo_ok c s -> logRun gzip c s l = (s', ev) ->
  open_ok c s' /\ todo_ok c s' /\ cur c s ++ written ev = datas ev ++ cur c s'.
Proof.
  induction l as [|o l IH]; intros s s' ev F P O T H; cbn [logRun] in H.
  - injection H as <- <-. split; [exact O|]. split; [exact T|]. cbn. apply app_nil_r.
  - destruct (logStep gzip c s o) as [s1 e1] eqn:E1. destruct (logRun gzip c s1 l) as [s2 e2] eqn:E2. injection H as <- <-.
    apply Forall_cons_iff in F as [F1 F2]. apply Forall_cons_iff in P as [P1 P2]. apply step_stream in E1 as (O1 & T1 & Q1); auto.
    apply IH in E2 as (O2 & T2 & Q2); auto. split; [exact O2|]. split; [exact T2|]. rewrite written_app, datas_app, app_assoc, Q1, <- app_assoc, Q2, app_assoc. reflexivity.
Qed.

(* ------------------------------------------------------------ sizes *)

Definition small (c : lcfg) (x : bs) : Prop := (Z.of_nat (length x) <= maxBytes c)%Z.
Lemma step_small gzip c s o s' ev : stat_works o -> ord_ok o -> open_ok c s -> todo_ok c s -> (0 <= maxBytes c)%Z -> small c (cur c s) -> logStep gzip c s o = (s', ev) ->
  small c (cur c s') /\ Forall (small c) (map snd (backed ev)).
Proof.
  intros F P O T L S H.
  assert (G : forall s' ev, moved c s s' ev -> small c (cur c s') /\ Forall (small c) (map snd (backed ev))).
  { intros s1 ev1 M. destruct M as [s1 A B D E|s1 t x X A B D E]; cbn.
    - rewrite B. auto.
    - rewrite B. split; [exact L|]. constructor; [|constructor]. unfold cur, content in S. rewrite X in S. exact S. }
  destruct o as [p t f n|t f| |now ord|rmok o|]; cbn [logStep stat_works ord_ok] in *.
  - destruct (writeLog c p t f n s) as [[s2 ev2] r] eqn:E. injection H as <- <-. apply write_ok in E as (s1 & ev1 & M & O1 & R); [|exact F|exact O].
    destruct (G _ _ M) as [G1 G2]. destruct r as [m|].
    + destruct R as (-> & -> & _ & _ & R). rewrite append_cur, backed_app. cbn. rewrite app_nil_r. split; [|exact G2]. unfold small. rewrite app_length.
      pose proof (firstn_length n p). lia.
    + destruct R as (-> & ->). auto.
  - destruct (rotate c t f s) as [[s2 ev2] r] eqn:E. injection H as <- <-. apply rotate_ok in E as (M & O1 & _); [|exact F]. auto.
  - injection H as <- <-. cbn. auto.
  - destruct (w_todo s); injection H as <- <-; cbn; auto.
  - destruct (w_todo s) as [|k r] eqn:E; [injection H as <- <-; cbn; auto|].
    destruct (doTask gzip k rmok o (w_fs s)) as [fs2 ev2] eqn:D. injection H as <- <-.
    assert (Pk : hasPrefix (task_name k) (pre c) = true) by (apply T; rewrite E; left; reflexivity).
    destruct (task_cur gzip c k rmok o _ _ _ Pk D) as (A1 & A2 & A3). rewrite A3. split; [|constructor]. unfold cur, content in *. cbn [w_fs]. rewrite A1. exact S.
  - injection H as <- <-. cbn. auto.
Qed.
Lemma run_small gzip c l : forall s s' ev, Forall stat_works l -> Forall ord_ok l -> open_ok c s -> todo_ok c s -> (0 <= maxBytes c)%Z -> small c (cur c s) -> logRun gzip c s l = (s', ev) ->
  small c (cur c s') /\ Forall (small c) (map snd (backed ev)).
Proof.
  induction l as [|o l IH]; intros s s' ev F P O T L S H; cbn [logRun] in H.
  - injection H as <- <-. cbn. auto.
  - destruct (logStep gzip c s o) as [s1 e1] eqn:E1. destruct (logRun gzip c s1 l) as [s2 e2] eqn:E2. injection H as <- <-.
    apply Forall_cons_iff in F as [F1 F2]. apply Forall_cons_iff in P as [P1 P2]. pose proof E1 as E1'. apply step_stream in E1 as (O1 & T1 & _); auto.
    apply step_small in E1' as (S1 & B1); auto. apply IH in E2 as (S2 & B2); auto. split; [exact S2|]. rewrite backed_app, map_app, Forall_app. auto.
Qed.

(* ------------------------------------------------------------ nothing lost *)

Definition files (ev : list lev) : list (bs * bs) := map (fun b => (snd (fst b), snd b)) (backed ev).
Lemma files_app a b : files (a ++ b) = files a ++ files b.
Proof. unfold files. rewrite backed_app, map_app. reflexivity. Qed.
Lemma gz_app n : n ++ gzSuffix <> n.
Proof. intro E. apply (f_equal (@length byte)) in E. rewrite app_length in E. cbn in E. lia. Qed.
Lemma gz_inj a b : a ++ gzSuffix = b ++ gzSuffix -> a = b.
Proof. apply app_inv_tail. Qed.

Lemma nodup_app_l {A} (a b : list A) : NoDup (a ++ b) -> NoDup a.
Proof.
  induction a as [|x a IH]; intro H; [constructor|]. cbn [app] in H. apply NoDup_cons_iff in H as [H1 H2]. constructor; [|auto]. intro I. apply H1. apply in_or_app. auto.
Qed.

Section Kept.
Variable gzip : bs -> bs. Variable gunzip : bs -> option bs. Variable c : lcfg.
Hypothesis gz_law : forall x, gunzip (gzip x) = Some x.

Record kept (s : wst) (done : list (bs * bs)) (gone : list bs) : Prop := {
  k_keys : forall k, In k (akeys (w_fs s)) -> k = l_name c \/ In k (map fst done) \/ exists a, In a (map fst done) /\ k = a ++ gzSuffix;
  k_todo : forall k, In (TCompress k) (w_todo s) -> In k (map fst done) /\ ~ gz_end k;
  k_data : forall n x, In (n, x) done -> n <> l_name c /\ (In n gone \/ In (n ++ gzSuffix) gone \/ retrievable gunzip (w_fs s) n x) }.

Lemma kept_moved s s' ev done gone rest : kept s done gone -> moved c s s' ev -> apart (map fst (done ++ files ev) ++ rest) ->
  (forall m n, In m (map fst (done ++ files ev)) -> n = l_name c -> m ++ gzSuffix <> n) ->
  kept s' (done ++ files ev) gone.
Proof.
  intros [K1 K2 K3] M [N1 N2] NN. assert (G : forall n, In n (map fst done) -> n <> l_name c /\ n ++ gzSuffix <> l_name c).
  { intros n I. split; [|apply (NN n _); [rewrite map_app; apply in_or_app; left; exact I|reflexivity]]. apply in_map_iff in I as ([n' x] & <- & I). apply (K3 n' x I). }
  destruct M as [s' A B D E|s' t x X A B D E].
  - cbn. rewrite app_nil_r. constructor.
    + intros k I. apply E in I as [I| ->]; auto.
    + rewrite D. exact K2.
    + intros n x I. destruct (K3 n x I) as [J1 J]. split; [exact J1|]. destruct J as [J|[J|J]]; auto. right. right. unfold retrievable in *.
      destruct (G n (in_map fst _ _ I)) as [G1 G2]. rewrite !A by assumption. exact J.
  - unfold files in *. cbn [backed flat_map app map fst snd] in *. rewrite map_app in *. cbn [map fst] in *. set (b := backupName c t) in *.
    assert (Nb : ~ In b (map fst done)).
    { rewrite <- app_assoc in N1. cbn [app] in N1. apply NoDup_remove_2 in N1. intro I. apply N1. apply in_or_app. left. exact I. }
    constructor.
    + intros k I. rewrite map_app. apply E in I as [I|[->| ->]]; auto.
      * apply K1 in I as [I|[I|(a & I & ->)]]; auto; right; [left; apply in_or_app; auto|right; exists a; split; [apply in_or_app; auto|reflexivity]].
      * right. left. apply in_or_app. right. left. reflexivity.
    + rewrite D. intros k I. destruct (K2 k I) as [J1 J2]. split; [rewrite map_app; apply in_or_app; auto|exact J2].
    + intros n y I. apply in_app_or in I as [I|[I|[]]].
      * destruct (K3 n y I) as [J1 J]. split; [exact J1|]. destruct J as [J|[J|J]]; auto. right. right. unfold retrievable in *.
        destruct (G n (in_map fst _ _ I)) as [G1 G2]. rewrite !A by assumption.
        assert (Q1 : bs_eqb n b = false). { apply bs_eqb_neq. intros ->. apply Nb. apply (in_map fst) in I. exact I. }
        assert (Q2 : bs_eqb (n ++ gzSuffix) b = false).
        { apply bs_eqb_neq. apply N2; apply in_or_app; left; apply in_or_app; [left; apply (in_map fst) in I; exact I|right; left; reflexivity]. }
        change (s2b ".gz") with gzSuffix. rewrite Q1, Q2. exact J.
      * injection I as <- <-. assert (B1 : b <> l_name c) by (apply not_name, pre_backup). split; [exact B1|]. right. right. left. rewrite A by exact B1. rewrite bs_eqb_refl. reflexivity.
Qed.
Lemma kept_append s done gone b : kept s done gone -> (forall m, In m (map fst done) -> m ++ gzSuffix <> l_name c) -> kept (append c s b) done gone.
Proof.
  intros [K1 K2 K3] NN. constructor.
  - intros k I. apply keys_get in I. destruct (bs_eq_dec k (l_name c)) as [->|N]; [auto|]. rewrite append_other in I by exact N. apply K1. apply keys_get. exact I.
  - exact K2.
  - intros n x I. destruct (K3 n x I) as [J1 J]. split; [exact J1|]. destruct J as [J|[J|J]]; auto. right. right. unfold retrievable in *.
    rewrite !append_other; [exact J| |exact J1]. apply NN. apply (in_map fst) in I. exact I.
Qed.
Lemma kept_task s done gone k r rmok o fs ev : kept s done gone -> w_todo s = k :: r -> apart (map fst done) ->
  doTask gzip k rmok o (w_fs s) = (fs, ev) -> kept (mkW fs (w_open s) r) done (gone ++ removed ev).
Proof.
  intros [K1 K2 K3] T [N1 N2] D.
  assert (R2 : forall k0, In (TCompress k0) r -> In k0 (map fst done) /\ ~ gz_end k0) by (intros k0 I; apply K2; rewrite T; right; exact I).
  destruct k as [n|n]; cbn [doTask] in D.
  - destruct rmok; injection D as <- <-; cbn [removed flat_map app].
    + constructor; cbn [w_fs w_todo]; auto.
      * intros k I. apply K1. apply keys_get in I. rewrite (aget_adel bs_eqb bs_eqb_spec) in I. destruct (bs_eqb k n); [contradiction I; reflexivity|]. apply keys_get. exact I.
      * intros m x I. destruct (K3 m x I) as [J1 J]. split; [exact J1|]. destruct (bs_eq_dec m n) as [->|E1]; [left; apply in_or_app; right; left; reflexivity|].
        destruct (bs_eq_dec (m ++ gzSuffix) n) as [<-|E2]; [right; left; apply in_or_app; right; left; reflexivity|].
        destruct J as [J|[J|J]]; [left; apply in_or_app; auto|right; left; apply in_or_app; auto|]. right. right. unfold retrievable in *. change (s2b ".gz") with gzSuffix in *.
        rewrite !(aget_adel bs_eqb bs_eqb_spec). apply bs_eqb_neq in E1, E2. rewrite E1, E2. exact J.
    + rewrite app_nil_r. constructor; cbn [w_fs w_todo]; auto.
  - injection D as <- <-. cbn [removed flat_map]. rewrite app_nil_r. destruct (K2 n) as [In1 Ng]; [rewrite T; left; reflexivity|].
    assert (KK : forall m, In m (map fst done) -> m <> n -> m ++ gzSuffix <> n /\ n ++ gzSuffix <> m /\ n ++ gzSuffix <> m ++ gzSuffix).
    { intros m I E. split; [intro Q; apply Ng; exists m; symmetry; exact Q|]. split; [apply N2; assumption|]. intro Q. apply gz_inj in Q. congruence. }
    unfold compressFile. destruct (aget bs_eqb (w_fs s) n) as [x0|] eqn:E; [|constructor; cbn [w_fs w_todo]; auto].
    constructor; cbn [w_fs w_todo]; auto.
    + intros k I. destruct (bs_eq_dec k (n ++ gzSuffix)) as [->|Nk]; [right; right; exists n; auto|]. apply K1. apply keys_get in I. apply keys_get. apply bs_eqb_neq in Nk. destruct o;
        rewrite ?(aget_adel bs_eqb bs_eqb_spec), ?(aget_aset bs_eqb bs_eqb_spec), ?(aget_adel bs_eqb bs_eqb_spec), ?Nk in I; auto.
      destruct (bs_eqb k n); [contradiction I; reflexivity|exact I].
    + intros m x I. destruct (K3 m x I) as [J1 J]. split; [exact J1|]. destruct J as [J|[J|J]]; auto. right. right. unfold retrievable in *. change (s2b ".gz") with gzSuffix in *.
      destruct (bs_eq_dec m n) as [->|Em].
      * destruct J as [J|[J _]]; [|congruence]. rewrite E in J. injection J as ->. assert (Q : bs_eqb n (n ++ gzSuffix) = false) by (apply bs_eqb_neq; intro Q; exact (gz_app n (eq_sym Q))).
        assert (Q' : bs_eqb (n ++ gzSuffix) n = false) by (apply bs_eqb_neq; apply gz_app).
        destruct o.
        -- right. rewrite !(aget_adel bs_eqb bs_eqb_spec), bs_eqb_refl, Q', (aget_aset bs_eqb bs_eqb_spec), bs_eqb_refl. split; [reflexivity|]. exists (gzip x). split; [reflexivity|apply gz_law].
        -- left. exact E.
        -- left. rewrite (aget_adel bs_eqb bs_eqb_spec), Q. exact E.
        -- left. rewrite (aget_aset bs_eqb bs_eqb_spec), Q. exact E.
      * destruct (KK m (in_map fst _ _ I) Em) as (Q1 & Q2 & Q3).
        assert (E1 : bs_eqb m n = false) by (apply bs_eqb_neq; exact Em).
        assert (E2 : bs_eqb m (n ++ gzSuffix) = false) by (apply bs_eqb_neq; congruence).
        assert (E3 : bs_eqb (m ++ gzSuffix) n = false) by (apply bs_eqb_neq; exact Q1).
        assert (E4 : bs_eqb (m ++ gzSuffix) (n ++ gzSuffix) = false) by (apply bs_eqb_neq; congruence).
        destruct o; rewrite ?(aget_adel bs_eqb bs_eqb_spec), ?E1, ?E2, ?E3, ?E4, ?(aget_aset bs_eqb bs_eqb_spec), ?(aget_adel bs_eqb bs_eqb_spec), ?E1, ?E2, ?E3, ?E4; exact J.
Qed.

Lemma kept_step s o s' ev done gone rest : stat_works o -> ord_ok o -> open_ok c s -> kept s done gone -> logStep gzip c s o = (s', ev) ->
  apart (map fst (done ++ files ev) ++ rest) -> (forall m, In m (map fst (done ++ files ev)) -> m ++ gzSuffix <> l_name c) ->
  kept s' (done ++ files ev) (gone ++ removed ev).
Proof.
  intros F P O K H N NN. destruct o as [p t f n|t f| |now ord|rmok o|]; cbn [logStep stat_works ord_ok] in *.
  - destruct (writeLog c p t f n s) as [[s2 ev2] r] eqn:E. injection H as <- <-. apply write_ok in E as (s1 & ev1 & M & O1 & R); [|exact F|exact O].
    assert (R1 : removed ev1 = []) by (destruct M; reflexivity). destruct r as [m|].
    + destruct R as (-> & -> & _). rewrite files_app, removed_app, R1 in *. cbn [files backed flat_map map app] in *. rewrite app_nil_r in *.
      change (removed [EWrote (firstn n p)]) with (@nil bs). rewrite app_nil_r. apply kept_append; [|exact NN]. eapply kept_moved; eauto. intros m' n' I ->. apply NN. exact I.
    + destruct R as (-> & ->). rewrite R1, app_nil_r. eapply kept_moved; eauto. intros m' n' I ->. apply NN. exact I.
  - destruct (rotate c t f s) as [[s2 ev2] r] eqn:E. injection H as <- <-. apply rotate_ok in E as (M & O1 & _); [|exact F].
    assert (R1 : removed ev2 = []) by (destruct M; reflexivity). rewrite R1, app_nil_r. eapply kept_moved; eauto. intros m' n' I ->. apply NN. exact I.
  - injection H as <- <-. cbn. rewrite !app_nil_r. destruct K as [K1 K2 K3]. constructor; auto.
  - destruct (w_todo s) eqn:T; injection H as <- <-; cbn; rewrite !app_nil_r; [|exact K]. destruct K as [K1 K2 K3]. constructor; auto. cbn [w_todo]. intros k I.
    destruct (millTasks_in c ord now (w_fs s) P _ I) as (h & I1 & B & C). destruct (C k eq_refl) as [C1 C2]. split; [|exact C1]. cbn [task_name] in *.
    apply K1 in I1 as [->|[I1|(a & _ & ->)]]; [|exact I1|].
    + apply backupTime_pre in B. rewrite name_not_pre in B. discriminate B.
    + contradiction C1. exists a. reflexivity.
  - destruct (w_todo s) as [|k r] eqn:E; [injection H as <- <-; cbn; rewrite !app_nil_r; exact K|].
    destruct (doTask gzip k rmok o (w_fs s)) as [fs2 ev2] eqn:D. injection H as <- <-.
    assert (F0 : files ev2 = []) by (destruct k; cbn [doTask] in D; [destruct rmok|]; injection D as <- <-; reflexivity). rewrite F0, app_nil_r in *.
    eapply kept_task; eauto. destruct N as [N1 N2]. split; [exact (nodup_app_l _ _ N1)|]. intros m n I J. apply N2; apply in_or_app; auto.
  - injection H as <- <-. cbn. rewrite !app_nil_r. destruct K as [K1 K2 K3]. constructor; auto. intros k [].
Qed.
Lemma kept_run l : forall s s' ev done gone, Forall stat_works l -> Forall ord_ok l -> open_ok c s -> todo_ok c s -> kept s done gone -> logRun gzip c s l = (s', ev) ->
  apart (map fst (done ++ files ev)) -> (forall m, In m (map fst (done ++ files ev)) -> m ++ gzSuffix <> l_name c) ->
  kept s' (done ++ files ev) (gone ++ removed ev).
Proof.
  induction l as [|o l IH]; intros s s' ev done gone F P O T K H N NN; cbn [logRun] in H.
  - injection H as <- <-. cbn. rewrite !app_nil_r. exact K.
  - destruct (logStep gzip c s o) as [s1 e1] eqn:E1. destruct (logRun gzip c s1 l) as [s2 e2] eqn:E2. injection H as <- <-.
    apply Forall_cons_iff in F as [F1 F2]. apply Forall_cons_iff in P as [P1 P2]. rewrite files_app, removed_app, !app_assoc in *.
    pose proof E1 as E1'. apply step_stream in E1 as (O1 & T1 & _); auto.
    assert (K1 : kept s1 (done ++ files e1) (gone ++ removed e1)).
    { apply (kept_step s o s1 e1 done gone (map fst (files e2))); auto; [rewrite <- map_app; exact N|]. intros m I. apply NN. rewrite map_app. apply in_or_app. left. exact I. }
    apply (IH s1); auto.
Qed.
End Kept.

Lemma kept_init gunzip c fs op : (forall k, In k (akeys fs) -> k ++ gzSuffix <> l_name c) -> NoDup (akeys fs) ->
  kept gunzip c (mkW fs op []) (around c fs) [].
Proof.
  intros H N. constructor; cbn [w_fs w_todo].
  - intros k I. destruct (bs_eq_dec k (l_name c)) as [->|E]; [auto|]. right. left. unfold akeys in I. apply in_map_iff in I as (f & <- & I). apply in_map. unfold around. apply filter_In.
    split; [exact I|]. apply bs_eqb_neq in E. rewrite E. reflexivity.
  - intros k [].
  - intros n x I. unfold around in I. apply filter_In in I as [I J]. cbn [fst] in J. split; [intros ->; rewrite bs_eqb_refl in J; discriminate J|]. right. right. left.
    apply (In_aget bs_eqb bs_eqb_spec); assumption.
Qed.

(* names of rotations in different hours *)
Lemma backup_shape c t : exists st, backupName c t = pre c ++ st ++ fileExt (l_name c) /\ st = l_stamp c (if l_perHour c then wall_hour c t - 1 else wall_hour c t)%Z.
Proof.
  exists (l_stamp c (hourOf ((if l_perHour c then t - nsHour else t) + l_zone c))). unfold backupName, pre. split; [rewrite <- app_assoc; reflexivity|].
  f_equal. unfold hourOf, wall_hour. destruct (l_perHour c); [|reflexivity].
  replace (t - nsHour + l_zone c)%Z with (t + l_zone c + (-1) * nsHour)%Z by ring. rewrite Z.div_add by discriminate. ring.
Qed.
Lemma backupName_inj c t1 t2 : clock_ok c -> time_ok c t1 -> time_ok c t2 -> backupName c t1 = backupName c t2 -> wall_hour c t1 = wall_hour c t2.
Proof.
  intros [C1 _] H1 H2 E. destruct (backup_shape c t1) as (s1 & E1 & Q1). destruct (backup_shape c t2) as (s2 & E2 & Q2). rewrite E1, E2 in E.
  apply app_inv_head in E. apply app_inv_tail in E. rewrite Q1, Q2 in E. apply (f_equal (l_parse c)) in E. unfold time_ok in *. rewrite !C1 in E by assumption. injection E as E.
  destruct (l_perHour c); lia.
Qed.
Lemma backupName_same c t1 t2 : wall_hour c t1 = wall_hour c t2 -> backupName c t1 = backupName c t2.
Proof.
  intro E. destruct (backup_shape c t1) as (s1 & E1 & Q1). destruct (backup_shape c t2) as (s2 & E2 & Q2). rewrite E1, E2. subst s1 s2. rewrite E. reflexivity.
Qed.
Lemma backupName_gz c t1 t2 : clock_ok c -> backupName c t1 ++ gzSuffix <> backupName c t2.
Proof.
  intros [_ C] E. destruct (backup_shape c t1) as (s1 & E1 & Q1). destruct (backup_shape c t2) as (s2 & E2 & Q2). rewrite E1, E2 in E. clear E1 E2.
  rewrite <- !app_assoc in E. apply app_inv_head in E.
  assert (D1 : ~ In x2e s1) by (subst s1; apply C). assert (D2 : ~ In x2e s2) by (subst s2; apply C). clear Q1 Q2.
  destruct (name_split (l_name c)) as [_ [X|(e & X & _)]]; rewrite X in E.
  - cbn [app] in E. rewrite app_nil_r in E. apply D2. rewrite <- E. apply in_or_app. right. left. reflexivity.
  - revert s2 E D2. induction s1 as [|a s1 IH]; intros s2 E D2.
    + destruct s2 as [|b s2].
      * cbn [app] in E. apply (f_equal (@length byte)) in E. cbn [length] in E. rewrite app_length in E. cbn in E. lia.
      * cbn [app] in E. injection E as E0 E. apply D2. left. symmetry. exact E0.
    + destruct s2 as [|b s2].
      * cbn [app] in E. injection E as E0 E. apply D1. left. exact E0.
      * cbn [app] in E. injection E as E0 E. apply (IH ltac:(intro I; apply D1; right; exact I) s2 E). intro I. apply D2. right. exact I.
Qed.

(* ------------------------------------------------------------ cleaning *)

Lemma stem_strip n : stem n (stripGz n).
Proof.
  unfold stem, stripGz. destruct (hasSuffix n gzSuffix) eqn:E.
  - left. apply hasSuffix_spec in E as (r & ->). rewrite app_length, Nat.add_sub, firstn_app_exact by reflexivity. reflexivity.
  - right. split; [reflexivity|]. intro G. change (gz_end n) in G. apply gz_end_spec in G. congruence.
Qed.
Definition later (W : list (Z * bs)) (h : Z) (k : nat) : Prop :=
  exists l, NoDup l /\ length l = k /\ forall h', In h' l -> (h < h')%Z /\ exists n, In (h', n) W.

Lemma filter_remove (h : Z) l : NoDup l -> In h l -> S (length (filter (fun x => negb (x =? h)%Z) l)) = length l.
Proof.
  induction l as [|a l IH]; intros N I; [destruct I|]. apply NoDup_cons_iff in N as [N1 N2]. cbn [filter]. destruct (Z.eqb_spec a h) as [->|E]; cbn [negb length].
  - f_equal. clear IH I. assert (Q : filter (fun x => negb (x =? h)%Z) l = l); [|rewrite Q; reflexivity].
    induction l as [|b l IH2]; [reflexivity|]. cbn [filter]. destruct (Z.eqb_spec b h) as [->|E]; [contradiction N1; left; reflexivity|]. cbn [negb]. f_equal. apply IH2.
    + intro I. apply N1. right. exact I.
    + apply NoDup_cons_iff in N2 as [_ N2]. exact N2.
  - f_equal. destruct I as [I|I]; [contradiction|]. apply IH; assumption.
Qed.

Lemma split_spec maxb l : (0 < maxb)%Z -> forall p seen hs keep rm,
  splitBackups maxb seen l = (keep, rm) ->
  StronglySorted (fun a b => (fst b <= fst a)%Z) (p ++ l) ->
  (forall h1 n1 h2 n2, In (h1, n1) (p ++ l) -> In (h2, n2) (p ++ l) -> (stripGz n1 = stripGz n2 <-> h1 = h2)) ->
  (forall s, In s seen <-> exists h n, In (h, n) p /\ stripGz n = s) ->
  NoDup hs -> (forall h, In h hs <-> exists n, In (h, n) p) -> length seen = length hs ->
  (forall h n, In (h, n) rm -> In (h, n) l /\ later (p ++ l) h (Z.to_nat maxb)) /\
  (forall h n, In (h, n) keep -> In (h, n) l /\ ~ later (p ++ l) h (Z.to_nat maxb)).
Proof.
  intro M. induction l as [|[h n] l IH]; intros p seen hs keep rm H S B Sn Nh Hs L; cbn [splitBackups] in H.
  - injection H as <- <-. split; intros ? ? [].
  - set (seen' := if existsb (bs_eqb (stripGz n)) seen then seen else stripGz n :: seen) in *.
    destruct (splitBackups maxb seen' l) as [k0 r0] eqn:E.
    assert (EX : existsb (bs_eqb (stripGz n)) seen = true <-> In h hs).
    { rewrite existsb_exists. split.
      - intros (s & I & Q). apply bs_eqb_spec in Q as <-. apply Sn in I as (h1 & n1 & I & Q). apply Hs. exists n1.
        assert (h1 = h) as ->; [|exact I]. apply (B h1 n1 h n); [apply in_or_app; auto|apply in_or_app; right; left; reflexivity|exact Q].
      - intro I. apply Hs in I as (n1 & I). exists (stripGz n). split; [|apply bs_eqb_refl]. apply Sn. exists h, n1. split; [exact I|].
        apply (B h n1 h n); [apply in_or_app; auto|apply in_or_app; right; left; reflexivity|reflexivity]. }
    set (hs' := if existsb (bs_eqb (stripGz n)) seen then hs else h :: hs).
    assert (Nh' : NoDup hs').
    { unfold hs'. destruct (existsb _ seen); [exact Nh|]. constructor; [|exact Nh]. intro I. apply EX in I. discriminate I. }
    assert (Hs' : forall h0, In h0 hs' <-> exists n0, In (h0, n0) (p ++ [(h, n)])).
    { intro h0. assert (G : In h0 hs' <-> h0 = h \/ In h0 hs).
      { unfold hs'. destruct (existsb _ seen); cbn [In]; [|split; intros [?|?]; auto]. split; [auto|]. intros [->|I]; [apply EX; reflexivity|exact I]. }
      rewrite G. split.
      - intros [->|I]; [exists n; apply in_or_app; right; left; reflexivity|]. apply Hs in I as (n0 & I). exists n0. apply in_or_app. auto.
      - intros (n0 & I). apply in_app_or in I as [I|[I|[]]]; [right; apply Hs; exists n0; exact I|]. injection I as -> ->. auto. }
    assert (L' : length seen' = length hs') by (unfold seen', hs'; destruct (existsb _ seen); cbn [length]; congruence).
    assert (Sn' : forall s, In s seen' <-> exists h0 n0, In (h0, n0) (p ++ [(h, n)]) /\ stripGz n0 = s).
    { intro s. assert (G : In s seen' <-> s = stripGz n \/ In s seen).
      { unfold seen'. destruct (existsb _ seen) eqn:X; cbn [In]; [|split; intros [?|?]; auto]. split; [auto|]. intros [->|I]; [|exact I].
        apply existsb_exists in X as (s & I & Q). apply bs_eqb_spec in Q as ->. exact I. }
      rewrite G. split.
      - intros [->|I]; [exists h, n; split; [apply in_or_app; right; left; reflexivity|reflexivity]|]. apply Sn in I as (h0 & n0 & I & Q). exists h0, n0. split; [apply in_or_app; auto|exact Q].
      - intros (h0 & n0 & I & Q). apply in_app_or in I as [I|[I|[]]]; [right; apply Sn; exists h0, n0; auto|]. injection I as -> ->. auto. }
    assert (W : p ++ (h, n) :: l = (p ++ [(h, n)]) ++ l) by (rewrite <- app_assoc; reflexivity).
    rewrite W in S, B. specialize (IH (p ++ [(h, n)]) seen' hs' k0 r0 E S B Sn' Nh' Hs' L'). destruct IH as [IH1 IH2].
    assert (Low : forall h0, In h0 hs' -> (h <= h0)%Z).
    { intros h0 I. apply Hs' in I as (n0 & I). rewrite <- W in S. clear -I S. induction p as [|q p IHp]; cbn [app] in *.
      - destruct I as [I|[]]. injection I as -> _. lia.
      - apply StronglySorted_inv in S as [S1 S2]. destruct I as [->|I]; [|exact (IHp S1 I)]. rewrite Forall_forall in S2.
        specialize (S2 (h, n)). cbn [fst] in S2. apply S2. apply in_or_app. right. left. reflexivity. }
    assert (High : forall h0 n0, In (h0, n0) ((p ++ [(h, n)]) ++ l) -> (h < h0)%Z -> In h0 hs').
    { intros h0 n0 I Q. apply Hs'. exists n0. rewrite <- W in S. rewrite <- W in I. apply in_or_app. left. clear -I S Q. induction p as [|q p IHp]; cbn [app] in *.
      - apply StronglySorted_inv in S as [S1 S2]. destruct I as [I|I]; [injection I as -> ->; lia|]. rewrite Forall_forall in S2. apply S2 in I. cbn in I. lia.
      - apply StronglySorted_inv in S as [S1 S2]. destruct I as [->|I]; [left; reflexivity|right; auto]. }
    assert (Hh : In h hs') by (apply Hs'; exists n; apply in_or_app; right; left; reflexivity).
    assert (K : (maxb < Z.of_nat (length seen'))%Z <-> later ((p ++ [(h, n)]) ++ l) h (Z.to_nat maxb)).
    { rewrite L'. split.
      - intro Q. set (ls := filter (fun x => negb (x =? h)%Z) hs'). pose proof (filter_remove h hs' Nh' Hh) as FR. fold ls in FR.
        exists (firstn (Z.to_nat maxb) ls). split; [|split].
        + apply (nodup_app_l _ (skipn (Z.to_nat maxb) ls)). rewrite firstn_skipn. apply NoDup_filter. exact Nh'.
        + rewrite firstn_length. lia.
        + intros h' I. assert (J : In h' ls) by (rewrite <- (firstn_skipn (Z.to_nat maxb) ls); apply in_or_app; left; exact I).
          apply filter_In in J as [J1 J2]. destruct (Z.eqb_spec h' h) as [->|Ne]; [discriminate J2|]. pose proof (Low h' J1). split; [lia|].
          apply Hs' in J1 as (n0 & J1). exists n0. apply in_or_app. left. exact J1.
      - intros (ls & N1 & N2 & N3). assert (Q : length (h :: ls) <= length hs').
        { apply NoDup_incl_length.
          - constructor; [|exact N1]. intro I. apply N3 in I as [I _]. lia.
          - intros h' [<-|I]; [exact Hh|]. apply N3 in I as [I1 (n0 & I2)]. exact (High h' n0 I2 I1). }
        cbn [length] in Q. lia. }
    rewrite W. destruct (Z.ltb_spec maxb (Z.of_nat (length seen'))) as [Q|Q]; injection H as <- <-; split; intros h0 n0 I.
    + destruct I as [I|I]; [injection I as <- <-; split; [left; reflexivity|apply K; exact Q]|]. destruct (IH1 h0 n0 I) as [I1 I2]. split; [right; exact I1|exact I2].
    + destruct (IH2 h0 n0 I) as [I1 I2]. split; [right; exact I1|exact I2].
    + destruct (IH1 h0 n0 I) as [I1 I2]. split; [right; exact I1|exact I2].
    + destruct I as [I|I]; [injection I as <- <-; split; [left; reflexivity|]; intro J; apply K in J; lia|]. destruct (IH2 h0 n0 I) as [I1 I2]. split; [right; exact I1|exact I2].
Qed.

Lemma old_nodup c fs : NoDup (akeys fs) -> NoDup (map snd (oldLogFiles c fs)).
Proof.
  unfold oldLogFiles. generalize (akeys fs). intro l. induction l as [|n l IH]; intro N; [constructor|]. apply NoDup_cons_iff in N as [N1 N2]. cbn [flat_map].
  destruct (backupTime c n); [|exact (IH N2)]. cbn [app map snd]. constructor; [|exact (IH N2)]. intro I. apply in_map_iff in I as ([h m] & Q & I). cbn in Q. subst m.
  apply in_flat_map in I as (m & J & I). destruct (backupTime c m); [|destruct I]. destruct I as [I|[]]. injection I as _ ->. contradiction.
Qed.
Lemma wrap_age a : (0 <= a <= 106751)%Z -> wrapI64 (24 * nsHour * a) = (a * (24 * nsHour))%Z.
Proof. intro H. unfold wrapI64, nsHour. rewrite Z.mod_small by lia. lia. Qed.

(* the tasks of a cleaning: first what is removed, then what is compressed *)
Lemma tasks_spec c ord now fs : dir_ok c fs -> newest_first ord -> (l_maxAge c <= 106751)%Z ->
  exists R C, millTasks c ord now fs = map TRemove R ++ map TCompress C /\ NoDup C /\
    (forall n, In n R <-> exists h, In n (akeys fs) /\ is_backup c n h /\ (too_many c fs h \/ too_old c now h)) /\
    (forall n, In n C <-> l_compress c = true /\ ~ gz_end n /\ exists h, In n (akeys fs) /\ is_backup c n h /\ ~ too_many c fs h /\ ~ too_old c now h).
Proof.
  intros [D1 D2] O Ma. unfold millTasks.
  destruct ((l_maxBackups c =? 0)%Z && (l_maxAge c =? 0)%Z && negb (l_compress c)) eqn:G.
  { apply andb_prop in G as [G G3]. apply andb_prop in G as [G1 G2]. apply Z.eqb_eq in G1, G2. apply negb_true_iff in G3. exists [], []. split; [reflexivity|]. split; [constructor|].
    split; intro n; split.
    - intros [].
    - intros (h & _ & _ & [[T _]|[T _]]); lia.
    - intros [].
    - intros (Q & _). congruence. }
  clear G. destruct (O (oldLogFiles c fs)) as [P S]. set (L := ord (oldLogFiles c fs)) in *.
  assert (IL : forall h n, In (h, n) L <-> In n (akeys fs) /\ is_backup c n h).
  { intros h n. rewrite <- (In_old c fs h n). split; apply Permutation_in; [exact P|apply Permutation_sym; exact P]. }
  assert (NL : NoDup (map snd L)).
  { apply (Permutation_NoDup (Permutation_sym (Permutation_map snd P))). apply old_nodup. exact D1. }
  assert (LT : forall h, later L h (Z.to_nat (l_maxBackups c)) <-> later_hours c fs h (Z.to_nat (l_maxBackups c))).
  { intro h. split; intros (l & A1 & A2 & A3); exists l; (split; [exact A1|]); (split; [exact A2|]); intros h' I; destruct (A3 h' I) as [B1 (n & B2)]; (split; [exact B1|]); exists n; apply IL; exact B2. }
  destruct (if (_ && _)%bool then _ else _) as [F1 R1] eqn:E1.
  assert (Q1 : (forall h n, In (h, n) R1 -> In (h, n) L /\ too_many c fs h) /\ (forall h n, In (h, n) F1 -> In (h, n) L /\ ~ too_many c fs h) /\
               (forall f, In f L <-> In f F1 \/ In f R1) /\ NoDup (map snd F1)).
  { destruct (Z.ltb_spec 0 (l_maxBackups c)) as [M1|M1]; cbn [andb] in E1.
    - destruct (Z.ltb_spec (l_maxBackups c) (Z.of_nat (length L))) as [M2|M2].
      + destruct (split_spec (l_maxBackups c) L M1 [] [] [] F1 R1 E1 S) as [S1 S2].
        * intros h1 n1 h2 n2 I1 I2. apply IL in I1 as [I1 B1]. apply IL in I2 as [I2 B2]. apply (D2 n1 n2 h1 h2 _ _ I1 I2 B1 B2); apply stem_strip.
        * intro s. split; [intros []|intros (? & ? & [] & _)].
        * constructor.
        * intro h. split; [intros []|intros (? & [])].
        * reflexivity.
        * cbn [app] in S1, S2. unfold too_many. split; [intros h n I; destruct (S1 h n I) as [A B]; apply LT in B; auto|]. split.
          -- intros h n I. destruct (S2 h n I) as [A B]. split; [exact A|]. intros [_ T]. apply B. apply LT. exact T.
          -- split; [exact (splitBackups_in _ _ _ _ _ E1)|]. clear -E1 NL. revert F1 R1 E1. generalize (@nil bs). induction L as [|[h n] l IH]; intros seen F1 R1 E1; cbn [splitBackups] in E1.
             ++ injection E1 as <- <-. constructor.
             ++ destruct (splitBackups (l_maxBackups c) _ l) as [k0 r0] eqn:E. cbn [map snd] in NL. apply NoDup_cons_iff in NL as [N1 N2]. pose proof (IH N2 _ _ _ E) as K.
                destruct (l_maxBackups c <? _)%Z; injection E1 as <- <-; [exact K|]. cbn [map snd]. constructor; [|exact K]. intro I. apply N1.
                apply in_map_iff in I as (f & Q & I). apply in_map_iff. exists f. split; [exact Q|]. apply (splitBackups_in _ _ _ _ _ E). left. exact I.
      + injection E1 as <- <-. split; [intros h n []|]. split; [|split; [intro f; cbn; tauto|exact NL]]. intros h n I. split; [exact I|]. intros [_ T].
        apply LT in T as (ls & N1 & N2 & N3). assert (Q : length (h :: ls) <= length (map fst L)).
        { apply NoDup_incl_length.
          - constructor; [|exact N1]. intro J. apply N3 in J as [J _]. lia.
          - intros h' [<-|J]; [apply in_map_iff; exists (h, n); auto|]. apply N3 in J as [_ (m & J)]. apply in_map_iff. exists (h', m). auto. }
        rewrite map_length in Q. cbn [length] in Q. lia.
    - injection E1 as <- <-. split; [intros h n []|]. split; [|split; [intro f; cbn; tauto|exact NL]]. intros h n I. split; [exact I|]. intros [T _]. lia. }
  destruct Q1 as (Q1 & Q2 & Q3 & Q4). clear E1.
  destruct (if (0 <? l_maxAge c)%Z then _ else _) as [F2 R2] eqn:E2.
  assert (W2 : forall h n, (In (h, n) R2 <-> In (h, n) F1 /\ too_old c now h) /\ (In (h, n) F2 <-> In (h, n) F1 /\ ~ too_old c now h)).
  { intros h n. unfold too_old. destruct (Z.ltb_spec 0 (l_maxAge c)) as [A|A]; cbv zeta in E2; pose proof (f_equal fst E2) as E3; pose proof (f_equal snd E2) as E4; cbn [fst snd] in E3, E4; subst F2 R2.
    - rewrite wrap_age by lia. rewrite !filter_In. cbn [fst]. destruct (Z.ltb_spec (h * nsHour) (now - l_maxAge c * (24 * nsHour))) as [B|B]; cbn [negb]; split; split; intros [X Y]; split; auto; try discriminate; try lia.
    - cbn [In]. split; split; try tauto; try lia. intro X. split; [exact X|lia]. }
  assert (NF2 : NoDup (map snd F2)).
  { assert (NF : forall (g : Z * bs -> bool) l, NoDup (map snd l) -> NoDup (map snd (filter g l))).
    { clear. intros g l. induction l as [|a l IH]; intro N; [constructor|]. cbn [map] in N. apply NoDup_cons_iff in N as [N1 N2]. cbn [filter]. destruct (g a); [|exact (IH N2)].
      cbn [map]. constructor; [|exact (IH N2)]. intro I. apply N1. apply in_map_iff in I as (b & Q & I). apply filter_In in I as [I _]. apply in_map_iff. exists b. auto. }
    destruct (0 <? l_maxAge c)%Z; injection E2 as <- <-; [apply NF|]; exact Q4. }
  clear E2. exists (map snd (R1 ++ R2)), (if l_compress c then map snd (filter (fun f => negb (hasSuffix (snd f) gzSuffix)) F2) else []).
  split; [rewrite map_map; destruct (l_compress c); [rewrite map_map|]; reflexivity|]. split.
  { destruct (l_compress c); [|constructor]. clear -NF2. induction F2 as [|a l IH]; [constructor|]. cbn [map] in NF2. apply NoDup_cons_iff in NF2 as [N1 N2]. cbn [filter]. destruct (negb _); [|exact (IH N2)].
    cbn [map]. constructor; [|exact (IH N2)]. intro I. apply N1. apply in_map_iff in I as (b & Q & I). apply filter_In in I as [I _]. apply in_map_iff. exists b. auto. }
  assert (UN : forall n h1 h2, is_backup c n h1 -> is_backup c n h2 -> h1 = h2) by (unfold is_backup; intros; congruence).
  split; intro n; split.
  - intro I. apply in_map_iff in I as ([h m] & Q & I). cbn in Q. subst m. exists h. apply in_app_or in I as [I|I].
    + destruct (Q1 h n I) as [A B]. apply IL in A as [A1 A2]. auto.
    + apply W2 in I as [I B]. destruct (Q2 h n I) as [A _]. apply IL in A as [A1 A2]. auto.
  - intros (h & I & B & T). apply in_map_iff. exists (h, n). split; [reflexivity|]. apply in_or_app. assert (J : In (h, n) L) by (apply IL; auto). apply Q3 in J as [J|J]; [|auto].
    destruct (Q2 h n J) as [_ K]. right. apply W2. split; [exact J|]. destruct T as [T|T]; [contradiction|exact T].
  - destruct (l_compress c); [|intros []]. intro I. split; [reflexivity|]. apply in_map_iff in I as ([h m] & Q & I). cbn in Q. subst m. apply filter_In in I as [I J]. cbn [snd] in J.
    split; [intro X; apply gz_end_spec in X; rewrite X in J; discriminate J|]. exists h. apply W2 in I as [I B]. destruct (Q2 h n I) as [A K]. apply IL in A as [A1 A2]. auto.
  - intros (C & X & h & I & B & T1 & T2). rewrite C. apply in_map_iff. exists (h, n). split; [reflexivity|]. apply filter_In. cbn [snd]. split.
    + apply W2. split; [|exact T2]. assert (J : In (h, n) L) by (apply IL; auto). apply Q3 in J as [J|J]; [exact J|]. destruct (Q1 h n J) as [_ K]. contradiction.
    + destruct (hasSuffix n gzSuffix) eqn:Y; [|reflexivity]. apply gz_end_spec in Y. contradiction.
Qed.

Definition runTasks (gzip : bs -> bs) (l : list task) (fs : list (bs * bs)) : list (bs * bs) := fold_left (fun fs k => fst (doTask gzip k true CDone fs)) l fs.
Lemma run_remove gzip R : forall fs n, aget bs_eqb (runTasks gzip (map TRemove R) fs) n = if existsb (bs_eqb n) R then None else aget bs_eqb fs n.
Proof.
  induction R as [|r R IH]; intros fs n; [reflexivity|]. cbn [map existsb]. unfold runTasks in *. cbn [fold_left doTask fst]. rewrite IH, (aget_adel bs_eqb bs_eqb_spec).
  destruct (bs_eqb n r), (existsb (bs_eqb n) R); reflexivity.
Qed.
Lemma run_compress gzip C : forall fs, NoDup C -> (forall n, In n C -> ~ gz_end n /\ aget bs_eqb fs n <> None) ->
  (forall n x, In n C -> aget bs_eqb fs n = Some x -> aget bs_eqb (runTasks gzip (map TCompress C) fs) n = None /\ aget bs_eqb (runTasks gzip (map TCompress C) fs) (n ++ gzSuffix) = Some (gzip x)) /\
  (forall n, ~ In n C -> (forall k, In k C -> n <> k ++ gzSuffix) -> aget bs_eqb (runTasks gzip (map TCompress C) fs) n = aget bs_eqb fs n).
Proof.
  induction C as [|k C IH]; intros fs N H; [split; [intros n x []|reflexivity]|]. apply NoDup_cons_iff in N as [N1 N2].
  destruct (H k (or_introl eq_refl)) as [Gk Xk]. destruct (aget bs_eqb fs k) as [xk|] eqn:Ek; [|contradiction Xk; reflexivity].
  set (fs' := adel bs_eqb (aset bs_eqb fs (k ++ gzSuffix) (gzip xk)) k).
  assert (St : runTasks gzip (map TCompress (k :: C)) fs = runTasks gzip (map TCompress C) fs').
  { unfold runTasks. cbn [map fold_left doTask fst]. unfold compressFile. rewrite Ek. reflexivity. }
  assert (Get : forall n, aget bs_eqb fs' n = if bs_eqb n k then None else if bs_eqb n (k ++ gzSuffix) then Some (gzip xk) else aget bs_eqb fs n).
  { intro n. unfold fs'. rewrite (aget_adel bs_eqb bs_eqb_spec), (aget_aset bs_eqb bs_eqb_spec). reflexivity. }
  assert (H' : forall n, In n C -> ~ gz_end n /\ aget bs_eqb fs' n = aget bs_eqb fs n).
  { intros n I. destruct (H n (or_intror I)) as [A B]. split; [exact A|]. rewrite Get.
    assert (E1 : bs_eqb n k = false) by (apply bs_eqb_neq; intros ->; contradiction).
    assert (E2 : bs_eqb n (k ++ gzSuffix) = false) by (apply bs_eqb_neq; intros ->; apply A; exists k; reflexivity). rewrite E1, E2. reflexivity. }
  destruct (IH fs' N2) as [IH1 IH2]; [intros n I; destruct (H' n I) as [A B]; split; [exact A|rewrite B; apply H; right; exact I]|].
  rewrite St. split.
  - intros n x [<-|I] E.
    + rewrite Ek in E. injection E as <-. split.
      * rewrite IH2; [rewrite Get, bs_eqb_refl; reflexivity|exact N1|]. intros k' _ Q. apply Gk. exists k'. exact Q.
      * rewrite IH2; [rewrite Get, bs_eqb_refl|intro I; destruct (H' _ I) as [A _]; apply A; exists k; reflexivity|].
        -- assert (E1 : bs_eqb (k ++ gzSuffix) k = false) by (apply bs_eqb_neq; apply gz_app). rewrite E1. reflexivity.
        -- intros k' I Q. apply gz_inj in Q. subst k'. contradiction.
    + apply IH1; [exact I|]. rewrite (proj2 (H' n I)). exact E.
  - intros n I K. rewrite IH2; [|intro J; apply I; right; exact J|intros k' J; apply K; right; exact J]. rewrite Get.
    assert (E1 : bs_eqb n k = false) by (apply bs_eqb_neq; intros ->; apply I; left; reflexivity).
    assert (E2 : bs_eqb n (k ++ gzSuffix) = false) by (apply bs_eqb_neq; apply K; left; reflexivity). rewrite E1, E2. reflexivity.
Qed.

Lemma gz_backup c k h : is_backup c k h -> ~ gz_end k -> exists h', is_backup c (k ++ gzSuffix) h'.
Proof.
  unfold is_backup, backupTime. intros B G. destruct (timeFromName c k (fileExt (l_name c))) as [h0|] eqn:E.
  - destruct (timeFromName c (k ++ gzSuffix) (fileExt (l_name c))) as [h1|]; [exists h1; reflexivity|]. exists h0. unfold timeFromName in *. fold (pre c) in *.
    destruct (hasPrefix k (pre c)) eqn:P; [|discriminate E]. rewrite (pre_app c k gzSuffix P). cbn [negb] in *.
    destruct (hasSuffix k (fileExt (l_name c))) eqn:Q; [|discriminate E]. cbn [negb] in E.
    assert (Q2 : hasSuffix (k ++ gzSuffix) (fileExt (l_name c) ++ gzSuffix) = true).
    { apply hasSuffix_spec in Q as (t & ->). apply hasSuffix_spec. exists t. rewrite <- app_assoc. reflexivity. }
    rewrite Q2. cbn [negb]. rewrite <- E. f_equal. apply hasPrefix_spec in P as (t & ->). rewrite <- app_assoc, !skipn_app_exact by reflexivity.
    rewrite !app_length. rewrite firstn_app. replace (_ - length t) with 0 by lia. cbn [firstn]. rewrite app_nil_r. f_equal. lia.
  - exfalso. apply G. unfold timeFromName in B. destruct (negb _); [discriminate B|]. destruct (hasSuffix k (fileExt (l_name c) ++ gzSuffix)) eqn:Q; [|discriminate B].
    apply hasSuffix_spec in Q as (t & ->). exists (t ++ fileExt (l_name c)). rewrite app_assoc. reflexivity.
Qed.

Lemma clean_spec gzip c ord now fs n : dir_ok c fs -> newest_first ord -> (l_maxAge c <= 106751)%Z ->
  ((forall h, ~ is_backup c n h) -> aget bs_eqb (cleanAll gzip c ord now fs) n = aget bs_eqb fs n) /\
  forall h x, aget bs_eqb fs n = Some x -> is_backup c n h ->
    (too_many c fs h \/ too_old c now h -> aget bs_eqb (cleanAll gzip c ord now fs) n = None) /\
    (~ too_many c fs h -> ~ too_old c now h ->
       (l_compress c = false \/ (exists r, n = r ++ s2b ".gz" /\ aget bs_eqb fs r = None) -> aget bs_eqb (cleanAll gzip c ord now fs) n = Some x) /\
       (l_compress c = true -> (~ exists r, n = r ++ s2b ".gz") ->
          aget bs_eqb (cleanAll gzip c ord now fs) n = None /\ aget bs_eqb (cleanAll gzip c ord now fs) (n ++ s2b ".gz") = Some (gzip x))).
Proof.
  intros D O Ma. destruct (tasks_spec c ord now fs D O Ma) as (R & C & E & NC & HR & HC). destruct D as [D1 D2].
  assert (UN : forall m h1 h2, is_backup c m h1 -> is_backup c m h2 -> h1 = h2) by (unfold is_backup; intros; congruence).
  assert (Run : cleanAll gzip c ord now fs = runTasks gzip (map TCompress C) (runTasks gzip (map TRemove R) fs)).
  { unfold cleanAll. rewrite E. unfold runTasks. rewrite fold_left_app. reflexivity. }
  set (fs1 := runTasks gzip (map TRemove R) fs) in *.
  assert (G1 : forall m, aget bs_eqb fs1 m = if existsb (bs_eqb m) R then None else aget bs_eqb fs m) by (intro m; apply run_remove).
  assert (InR : forall m, existsb (bs_eqb m) R = true <-> In m R).
  { intro m. rewrite existsb_exists. split; [intros (y & I & Q); apply bs_eqb_spec in Q as ->; exact I|intro I; exists m; split; [exact I|apply bs_eqb_refl]]. }
  assert (NR : forall m, ~ In m R -> aget bs_eqb fs1 m = aget bs_eqb fs m).
  { intros m I. rewrite G1. destruct (existsb (bs_eqb m) R) eqn:Q; [apply InR in Q; contradiction|reflexivity]. }
  assert (CR : forall m, In m C -> ~ In m R).
  { intros m I J. apply HC in I as (_ & _ & h & _ & B & T1 & T2). apply HR in J as (h' & _ & B' & T). rewrite (UN m h' h B' B) in T. tauto. }
  destruct (run_compress gzip C fs1 NC) as [C1 C2].
  { intros m I. pose proof (CR m I) as J. apply HC in I as (_ & Gm & h & I & _). split; [exact Gm|]. rewrite NR by exact J. apply keys_get. exact I. }
  rewrite Run. split.
  - intro NB. rewrite C2.
    + apply NR. intro I. apply HR in I as (h & _ & B & _). exact (NB h B).
    + intro I. apply HC in I as (_ & _ & h & _ & B & _). exact (NB h B).
    + intros k I ->. apply HC in I as (_ & Gk & h & _ & B & _). destruct (gz_backup c k h B Gk) as (h' & B'). exact (NB h' B').
  - intros h x X B. assert (In1 : In n (akeys fs)) by (apply keys_get; congruence).
    assert (Sib : forall k, In k C -> n = k ++ gzSuffix -> ~ too_many c fs h /\ ~ too_old c now h).
    { intros k I Q. apply HC in I as (_ & Gk & hk & Ik & Bk & T1 & T2). assert (hk = h) as <-; [|auto].
      apply (D2 k n hk h k k Ik In1 Bk B); [right; split; [reflexivity|exact Gk]|left; exact Q|reflexivity]. }
    split.
    + intro T. assert (J : In n R) by (apply HR; exists h; auto). rewrite C2.
      * rewrite G1. apply InR in J. rewrite J. reflexivity.
      * intro I. exact (CR n I J).
      * intros k I Q. destruct (Sib k I Q). tauto.
    + intros T1 T2. assert (J : ~ In n R). { intro J. apply HR in J as (h' & _ & B' & T). rewrite (UN n h' h B' B) in T. tauto. }
      split.
      * intro Z. rewrite C2, NR; auto.
        -- intro I. apply HC in I as (Cc & Gn & _). destruct Z as [Z|(r & Z & _)]; [congruence|]. apply Gn. exists r. exact Z.
        -- intros k I Q. apply HC in I as (Cc & Gk & hk & Ik & _). destruct Z as [Z|(r & Z & Zr)]; [congruence|]. change (s2b ".gz") with gzSuffix in Z. rewrite Z in Q. apply gz_inj in Q. subst r.
           apply keys_get in Ik. contradiction.
      * intros Cc Gn. apply (C1 n x); [|rewrite NR; assumption]. apply HC. split; [exact Cc|]. split; [exact Gn|]. exists h. auto.
Qed.

(* the slice in timeFromName is in range *)
Lemma slice_ok c n e : ~ In x2d (fileExt (l_name c)) -> e = fileExt (l_name c) \/ e = fileExt (l_name c) ++ gzSuffix ->
  hasPrefix n (fileBase (l_name c) ++ s2b "-") = true -> hasSuffix n e = true -> length (fileBase (l_name c) ++ s2b "-") <= length n - length e.
Proof.
  intros N He P S. assert (Ne : ~ In x2d e).
  { destruct He as [->| ->]; [exact N|]. intro I. apply in_app_or in I as [I|I]; [exact (N I)|]. cbn in I. repeat destruct I as [I|I]; try discriminate I. exact I. }
  apply hasPrefix_spec in P as (t & P). apply hasSuffix_spec in S as (u & S). rewrite S at 1. rewrite (app_length u e), Nat.add_sub.
  destruct (Nat.le_gt_cases (length (fileBase (l_name c) ++ s2b "-")) (length u)) as [L|L]; [exact L|exfalso]. apply Ne.
  rewrite P in S. rewrite <- app_assoc in S. set (b := fileBase (l_name c)) in *. clearbody b. rewrite app_length in L. change (length (s2b "-")) with 1 in L.
  assert (Q : nth_error (u ++ e) (length b) = Some x2d) by (rewrite <- S, nth_error_app2, Nat.sub_diag by lia; reflexivity).
  rewrite nth_error_app2 in Q by lia. exact (nth_error_In _ _ Q).
Qed.

(* ------------------------------------------------------------ for the theorems *)

Lemma sorts_ord l : Forall sorts l -> Forall ord_ok l.
Proof. apply Forall_impl. intros [] H; cbn in *; auto. intro l0. apply (H l0). Qed.
Lemma start_open c fs : open_ok c (start fs). Proof. intros k K. discriminate K. Qed.
Lemma start_todo c fs : todo_ok c (start fs). Proof. intros k []. Qed.

Lemma nodup_join {A} (a b : list A) : NoDup a -> NoDup b -> (forall x, In x a -> ~ In x b) -> NoDup (a ++ b).
Proof.
  induction a as [|x a IH]; intros Ha Hb D; [exact Hb|]. apply NoDup_cons_iff in Ha as [H1 H2]. cbn [app]. constructor.
  - intro I. apply in_app_or in I as [I|I]; [exact (H1 I)|exact (D x (or_introl eq_refl) I)].
  - apply IH; auto. intros y I. apply D. right. exact I.
Qed.
Lemma step_names gzip c s o s' ev : stat_works o -> open_ok c s -> logStep gzip c s o = (s', ev) -> forall t n x, In (t, n, x) (backed ev) -> n = backupName c t.
Proof.
  intros F O H. assert (G : forall s' ev, moved c s s' ev -> forall t n x, In (t, n, x) (backed ev) -> n = backupName c t).
  { intros s1 ev1 M t n x I. destruct M; [destruct I|]. destruct I as [I|[]]. injection I as <- <- <-. reflexivity. }
  destruct o as [p t f n|t f| |now ord|rmok o|]; cbn [logStep stat_works] in *.
  - destruct (writeLog c p t f n s) as [[s2 ev2] r] eqn:E. injection H as <- <-. apply write_ok in E as (s1 & ev1 & M & _ & R); [|exact F|exact O].
    destruct r as [m|]; [destruct R as (-> & -> & _)|destruct R as (-> & ->)]; [|exact (G _ _ M)]. rewrite backed_app. cbn. rewrite app_nil_r. exact (G _ _ M).
  - destruct (rotate c t f s) as [[s2 ev2] r] eqn:E. injection H as <- <-. apply rotate_ok in E as (M & _); [|exact F]. exact (G _ _ M).
  - injection H as <- <-. intros t0 n0 x0 [].
  - destruct (w_todo s); injection H as <- <-; intros t0 n0 x0 [].
  - destruct (w_todo s) as [|k r]; [injection H as <- <-; intros t0 n0 x0 []|]. destruct (doTask gzip k rmok o (w_fs s)) as [fs2 ev2] eqn:D. injection H as <- <-.
    destruct k; cbn [doTask] in D; [destruct rmok|]; injection D as <- <-; intros t0 n1 x0 [].
  - injection H as <- <-. intros t0 n0 x0 [].
Qed.
Lemma run_names gzip c l : forall s s' ev, Forall stat_works l -> Forall ord_ok l -> open_ok c s -> todo_ok c s -> logRun gzip c s l = (s', ev) ->
  forall t n x, In (t, n, x) (backed ev) -> n = backupName c t.
Proof.
  induction l as [|o l IH]; intros s s' ev F P O T H t n x I; cbn [logRun] in H; [injection H as <- <-; destruct I|].
  destruct (logStep gzip c s o) as [s1 e1] eqn:E1. destruct (logRun gzip c s1 l) as [s2 e2] eqn:E2. injection H as <- <-.
  apply Forall_cons_iff in F as [F1 F2]. apply Forall_cons_iff in P as [P1 P2]. pose proof E1 as E1'. apply step_stream in E1 as (O1 & T1 & _); auto.
  rewrite backed_app in I. apply in_app_or in I as [I|I]; [exact (step_names gzip c s o s1 e1 F1 O E1' t n x I)|exact (IH s1 s2 e2 F2 P2 O1 T1 E2 t n x I)].
Qed.

Lemma kept_all gzip gunzip c fs l s ev : (forall x, gunzip (gzip x) = Some x) -> clock_ok c -> Forall stat_works l -> Forall sorts l -> logRun gzip c (start fs) l = (s, ev) ->
  NoDup (akeys fs) -> apart (map fst (around c fs)) -> (forall k, In k (akeys fs) -> k ++ s2b ".gz" <> l_name c) ->
  NoDup (map (fun b => wall_hour c (fst (fst b))) (backed ev)) ->
  (forall t n x, In (t, n, x) (backed ev) -> time_ok c t /\ unused (around c fs) n) ->
  forall n x, In (n, x) (around c fs) \/ (exists t, In (t, n, x) (backed ev)) -> ~ In n (removed ev) -> ~ In (n ++ s2b ".gz") (removed ev) -> retrievable gunzip (w_fs s) n x.
Proof.
  intros GZ CK F Sd H N [A1 A2] NG NH HB n x Hin R1 R2. pose proof (sorts_ord l Sd) as P.
  pose proof (run_names gzip c l _ _ _ F P (start_open c fs) (start_todo c fs) H) as Nm.
  assert (FE : forall m, In m (map fst (files ev)) <-> exists t y, In (t, m, y) (backed ev)).
  { intro m. unfold files. rewrite map_map. cbn [fst]. rewrite in_map_iff. split; [intros ([[t m'] y] & <- & J); exists t, y; exact J|intros (t & y & J); exists (t, m, y); auto]. }
  assert (K : kept gunzip c s (around c fs ++ files ev) ([] ++ removed ev)).
  { apply (kept_run gzip gunzip c GZ l (start fs)); auto.
    - apply start_open.
    - apply start_todo.
    - apply kept_init; assumption.
    - rewrite map_app. split.
      + assert (NF : NoDup (map fst (files ev))).
        { unfold files. rewrite map_map. cbn [fst]. clear -NH Nm HB CK. induction (backed ev) as [|[[t m] y] l IH]; [constructor|]. cbn [map fst snd] in *. apply NoDup_cons_iff in NH as [H1 H2]. constructor.
          - intro I. apply in_map_iff in I as ([[t' m'] y'] & Q & I). cbn [fst snd] in Q. subst m'. apply H1. apply in_map_iff. exists (t', m, y'). split; [|exact I]. cbn [fst].
            destruct (HB t m y (or_introl eq_refl)) as [T1 _]. destruct (HB t' m y' (or_intror I)) as [T2 _]. apply backupName_inj; auto.
            rewrite <- (Nm t m y (or_introl eq_refl)), <- (Nm t' m y' (or_intror I)). reflexivity.
          - apply IH; auto; [intros; eapply HB|intros; eapply Nm]; right; eassumption. }
        apply nodup_join; auto. intros m I J. apply FE in J as (t & y & J). destruct (HB t m y J) as [_ U]. apply (proj1 (U m I)). reflexivity.
      + intros m k I J. apply in_app_or in I as [I|I]; apply in_app_or in J as [J|J].
        * apply A2; assumption.
        * apply FE in J as (t & y & J). destruct (HB t k y J) as [_ U]. apply (U m I).
        * apply FE in I as (t & y & I). destruct (HB t m y I) as [_ U]. intro Q. apply (proj1 (proj2 (U k J))). symmetry. exact Q.
        * apply FE in I as (t & y & I). apply FE in J as (t' & y' & J). rewrite (Nm _ _ _ I), (Nm _ _ _ J). apply backupName_gz. exact CK.
    - intros m I. rewrite map_app in I. apply in_app_or in I as [I|I].
      + apply NG. apply in_map_iff in I as (f & <- & I). unfold around in I. apply filter_In in I as [I _]. apply in_map. exact I.
      + apply FE in I as (t & y & I). rewrite (Nm _ _ _ I). apply not_name. apply pre_app. apply pre_backup. }
  destruct K as [_ _ K3]. destruct (K3 n x) as [_ [Q|[Q|Q]]]; [|contradiction|contradiction|exact Q].
  apply in_or_app. destruct Hin as [I|(t & I)]; [left; exact I|right]. unfold files. apply in_map_iff. exists (t, n, x). auto.
Qed.

Lemma run_keeps gzip c l : l_maxBackups c = 0%Z -> l_maxAge c = 0%Z -> forall s s' ev,
  (forall k, In k (w_todo s) -> exists n, k = TCompress n) -> logRun gzip c s l = (s', ev) -> removed ev = [] .
Proof.
  intros B A. induction l as [|o l IH]; intros s s' ev T H; cbn [logRun] in H; [injection H as <- <-; reflexivity|].
  destruct (logStep gzip c s o) as [s1 e1] eqn:E1. destruct (logRun gzip c s1 l) as [s2 e2] eqn:E2. injection H as <- <-.
  assert (ON : forall t f s, let '(s', ev, _) := openNew c t f s in w_todo s' = w_todo s /\ removed ev = []).
  { intros t f s0. unfold openNew. destruct (f_mkdir f); [auto|]. destruct (aget bs_eqb (w_fs s0) (l_name c)), (f_stat2 f), (f_rename f), (f_create f), (f_chown f), (f_open f); cbn; auto. }
  assert (RO : forall t f s, let '(s', ev, _) := rotate c t f s in w_todo s' = w_todo s /\ removed ev = []).
  { intros t f s0. unfold rotate. destruct (w_open s0); [|apply ON]. destruct (f_close f); [cbn; auto|]. apply (ON t f (closeFile s0)). }
  assert (Q : (forall k, In k (w_todo s1) -> exists n, k = TCompress n) /\ removed e1 = []).
  { destruct o as [p t f n|t f| |now ord|rmok o|]; cbn [logStep] in E1.
    - unfold writeLog in E1. destruct (maxBytes c <? _)%Z; [cbn in E1; injection E1 as <- <-; auto|].
      assert (OE : let '(sa, ea, _) := match w_open s with Some _ => (s, [], true) | None => openExisting c (Z.of_nat (length p)) t f s end in w_todo sa = w_todo s /\ removed ea = []).
      { destruct (w_open s); [auto|]. unfold openExisting. destruct (f_stat f); [auto|]. destruct (aget bs_eqb (w_fs s) (l_name c)); [|apply ON].
        destruct (maxBytes c <=? _)%Z; [apply RO|]. destruct (f_append f); [apply ON|cbn; auto]. }
      destruct (match w_open s with Some _ => _ | None => _ end) as [[sa ea] oka]. destruct OE as [OE1 OE2]. destruct oka; cbn [negb] in E1; [|cbn in E1; injection E1 as <- <-; rewrite OE1; auto].
      assert (OR : let '(sb, eb, _) := match w_open sa with Some size => if (maxBytes c <? size + Z.of_nat (length p))%Z then rotate c t f sa else (sa, [], true) | None => (sa, [], false) end in w_todo sb = w_todo s /\ removed eb = []).
      { rewrite <- OE1. destruct (w_open sa); [|auto]. destruct (maxBytes c <? _)%Z; [apply RO|auto]. }
      destruct (match w_open sa with Some _ => _ | None => _ end) as [[sb eb] okb]. destruct OR as [OR1 OR2]. destruct okb; cbn [negb] in E1; [|cbn in E1; injection E1 as <- <-; rewrite OR1, removed_app, OE2, OR2; auto].
      destruct (w_open sb); cbn in E1; injection E1 as <- <-; cbn [w_todo]; rewrite OR1, !removed_app, OE2, OR2; auto.
    - specialize (RO t f s). destruct (rotate c t f s) as [[sa ea] oka]. cbn in E1. injection E1 as <- <-. destruct RO as [RO1 RO2]. rewrite RO1. auto.
    - injection E1 as <- <-. auto.
    - destruct (w_todo s) eqn:W; injection E1 as <- <-; [|rewrite W; auto]. split; [|reflexivity]. cbn [w_todo]. unfold millTasks. rewrite B, A. cbn [Z.eqb Z.ltb Z.compare andb].
      destruct (l_compress c); cbn [negb app]; [|intros k []]. intros k I. cbn [map app] in I. apply in_map_iff in I as (g & <- & _). eexists. reflexivity.
    - destruct (w_todo s) as [|k r] eqn:W; [injection E1 as <- <-; rewrite W; auto|]. destruct (T k (or_introl eq_refl)) as (n & ->). cbn [doTask] in E1. injection E1 as <- <-. cbn [w_todo]. split; [|reflexivity].
      intros k I. apply T. right. exact I.
    - injection E1 as <- <-. split; [intros k []|reflexivity]. }
  destruct Q as [Q1 Q2]. rewrite removed_app, Q2. exact (IH s1 s2 e2 Q1 E2).
Qed.

Lemma backup_time c t : clock_ok c -> time_ok c t -> is_backup c (backupName c t) (if l_perHour c then wall_hour c t - 1 else wall_hour c t)%Z.
Proof.
  intros [C _] T. destruct (backup_shape c t) as (st & E & Q). unfold is_backup, backupTime, timeFromName. rewrite E. fold (pre c).
  assert (P1 : hasPrefix (pre c ++ st ++ fileExt (l_name c)) (pre c) = true) by (apply hasPrefix_spec; eexists; reflexivity).
  assert (P2 : hasSuffix (pre c ++ st ++ fileExt (l_name c)) (fileExt (l_name c)) = true) by (apply hasSuffix_spec; exists (pre c ++ st); apply app_assoc).
  rewrite P1, P2. cbn [negb]. rewrite skipn_app_exact by reflexivity. rewrite !app_length.
  replace (length (pre c) + (length st + length (fileExt (l_name c))) - length (fileExt (l_name c)) - length (pre c)) with (length st) by lia.
  rewrite firstn_app_exact by reflexivity. rewrite Q. rewrite C by exact T. reflexivity.
Qed.

(* two rotations in one hour *)
Lemma aset_get (m : list (bs * bs)) k v : aget bs_eqb (aset bs_eqb m k v) k = Some v.
Proof. rewrite (aget_aset bs_eqb bs_eqb_spec), bs_eqb_refl. reflexivity. Qed.
Lemma rotate_plain c t s x : aget bs_eqb (w_fs s) (l_name c) = Some x ->
  exists fs', rotate c t noFlt s = (mkW fs' (Some 0%Z) (w_todo s), [EBackup t (backupName c t) x], true) /\
    aget bs_eqb fs' (l_name c) = Some [] /\ aget bs_eqb fs' (backupName c t) = Some x /\
    forall n, n <> l_name c -> n <> backupName c t -> aget bs_eqb fs' n = aget bs_eqb (w_fs s) n.
Proof.
  intro X. set (fs' := aset bs_eqb (aset bs_eqb (rename (w_fs s) (l_name c) (backupName c t)) (l_name c) []) (l_name c) []).
  exists fs'. assert (R : rotate c t noFlt s = (mkW fs' (Some 0%Z) (w_todo s), [EBackup t (backupName c t) x], true)).
  { unfold rotate, openNew. cbn [f_close f_mkdir f_stat2 f_rename f_create f_chown f_open noFlt closeFile w_fs w_todo w_open]. destruct (w_open s); rewrite X; reflexivity. }
  pose proof (not_name c _ (pre_backup c t)) as NB. split; [exact R|]. unfold fs'. split; [apply aset_get|]. split.
  - rewrite !(aget_aset bs_eqb bs_eqb_spec). apply bs_eqb_neq in NB. rewrite NB, (rename_get c _ x) by exact X. rewrite bs_eqb_refl. reflexivity.
  - intros n N1 N2. apply bs_eqb_neq in N1, N2. rewrite !(aget_aset bs_eqb bs_eqb_spec), N1, (rename_get c _ x) by exact X. rewrite N1, N2. reflexivity.
Qed.
Lemma write_plain c p t s k y : w_open s = Some k -> aget bs_eqb (w_fs s) (l_name c) = Some y -> (Z.of_nat (length p) <= maxBytes c)%Z -> (k + Z.of_nat (length p) <= maxBytes c)%Z ->
  exists fs', writeLog c p t noFlt (length p) s = (mkW fs' (Some (k + Z.of_nat (length p))%Z) (w_todo s), [EWrote p], Some (length p)) /\
    aget bs_eqb fs' (l_name c) = Some (y ++ p) /\ forall n, n <> l_name c -> aget bs_eqb fs' n = aget bs_eqb (w_fs s) n.
Proof.
  intros O Y L1 L2. exists (aset bs_eqb (w_fs s) (l_name c) (y ++ p)). split; [|split; [apply aset_get|intros n N; rewrite (aget_aset bs_eqb bs_eqb_spec); apply bs_eqb_neq in N; rewrite N; reflexivity]].
  unfold writeLog. destruct (Z.ltb_spec (maxBytes c) (Z.of_nat (length p))) as [Q|Q]; [lia|]. rewrite O. cbn [negb]. rewrite O.
  destruct (Z.ltb_spec (maxBytes c) (k + Z.of_nat (length p))) as [Q2|Q2]; [lia|]. cbn [negb]. rewrite O. unfold content. rewrite Y, firstn_all. reflexivity.
Qed.
