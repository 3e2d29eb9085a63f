(* GoStrings.v: the parts of Go's strings package the code relies on.  This models the Go standard library, not a
   file of /repo.  Separators are single bytes at every modelled call site. *)
From Verif Require Import Base.

(* strings.Split(s, string(c)) for a one-byte separator: always at least one element *)
Fixpoint splitOn (c : byte) (s : bs) : list bs :=
  match s with
  | [] => [[]]
  | x :: r => if byte_eqb x c then [] :: splitOn c r
              else match splitOn c r with p :: t => (x :: p) :: t | [] => [[x]] end
  end.

(* strings.Join(l, string(c)) *)
Fixpoint joinWith (c : byte) (l : list bs) : bs :=
  match l with [] => [] | [x] => x | x :: r => x ++ c :: joinWith c r end.

Lemma splitOn_ne c s : splitOn c s <> [].
Proof. induction s as [|x r IH]; cbn; [discriminate|]. destruct (byte_eqb x c); [discriminate|]. destruct (splitOn c r); discriminate. Qed.

Lemma splitOn_none c s : ~ In c s -> splitOn c s = [s].
Proof.
  induction s as [|x r IH]; intro H; [reflexivity|]. cbn [splitOn].
  destruct (byte_eqb x c) eqn:E; [apply byte_eqb_spec in E; subst; exfalso; apply H; left; reflexivity|].
  rewrite IH; [reflexivity|]. intro Hin. apply H. right. exact Hin.
Qed.

Lemma splitOn_app c a s : ~ In c a -> splitOn c (a ++ c :: s) = a :: splitOn c s.
Proof.
  induction a as [|x a IH]; intro H.
  - cbn [app splitOn]. rewrite byte_eqb_refl. reflexivity.
  - cbn [app splitOn]. destruct (byte_eqb x c) eqn:E; [apply byte_eqb_spec in E; subst; exfalso; apply H; left; reflexivity|].
    rewrite IH; [reflexivity|]. intro Hin. apply H. right. exact Hin.
Qed.

Lemma splitOn_join c l : l <> [] -> Forall (fun x => ~ In c x) l -> splitOn c (joinWith c l) = l.
Proof.
  induction l as [|x l IH]; [congruence|]. intros _ H. inversion H as [|? ? Hx Hl]; subst.
  destruct l as [|y l]; [apply splitOn_none, Hx|].
  cbn [joinWith]. rewrite splitOn_app by exact Hx. f_equal. apply IH; [discriminate|exact Hl].
Qed.

Lemma joinWith_split c s : joinWith c (splitOn c s) = s.
Proof.
  induction s as [|x r IH]; [reflexivity|]. cbn [splitOn]. destruct (byte_eqb x c) eqn:E.
  - apply byte_eqb_spec in E. subst x. destruct (splitOn c r) as [|p t] eqn:Es; [exfalso; exact (splitOn_ne _ _ Es)|].
    cbn [joinWith app]. cbn [joinWith] in IH. rewrite IH. reflexivity.
  - destruct (splitOn c r) as [|p t] eqn:Es; [exfalso; exact (splitOn_ne _ _ Es)|].
    destruct t as [|p' t']; cbn [joinWith app] in *; rewrite <- IH; reflexivity.
Qed.

Lemma splitOn_parts c s x : In x (splitOn c s) -> ~ In c x.
Proof.
  revert x. induction s as [|y r IH]; intros x H; cbn [splitOn] in H.
  - destruct H as [<-|[]]. intros [].
  - destruct (byte_eqb y c) eqn:E.
    + destruct H as [<-|H]; [intros []|]. apply IH, H.
    + destruct (splitOn c r) as [|p t] eqn:Es.
      * destruct H as [<-|[]]. intros [->|[]]. rewrite byte_eqb_refl in E. discriminate.
      * destruct H as [<-|H].
        -- intros [->|Hin]; [rewrite byte_eqb_refl in E; discriminate|]. apply (IH p); [left; reflexivity|exact Hin].
        -- apply IH. right. exact H.
Qed.

(* strings.HasPrefix / HasSuffix *)
Fixpoint hasPrefix (s p : bs) : bool :=
  match p, s with
  | [], _ => true
  | y :: p', x :: s' => byte_eqb x y && hasPrefix s' p'
  | _, [] => false
  end.
Definition hasSuffix (s p : bs) : bool := hasPrefix (rev s) (rev p).

Lemma hasPrefix_spec s p : hasPrefix s p = true <-> exists t, s = p ++ t.
Proof.
  revert s. induction p as [|y p IH]; intro s; cbn [hasPrefix].
  - split; [exists s; reflexivity|]. destruct s; reflexivity.
  - destruct s as [|x s]; [split; [discriminate|intros (t & H); discriminate]|].
    cbn [hasPrefix]. rewrite andb_true_iff, byte_eqb_spec, IH. split.
    + intros [-> (t & ->)]. exists t. reflexivity.
    + intros (t & H). injection H as -> ->. split; [reflexivity|exists t; reflexivity].
Qed.
Lemma hasSuffix_spec s p : hasSuffix s p = true <-> exists t, s = t ++ p.
Proof.
  unfold hasSuffix. rewrite hasPrefix_spec. split; intros (t & H).
  - exists (rev t). rewrite <- (rev_involutive s), H, rev_app_distr, rev_involutive. reflexivity.
  - exists (rev t). rewrite H, rev_app_distr. reflexivity.
Qed.

(* strings.TrimSpace, for ASCII white space (tab, LF, VT, FF, CR, space).  Go also trims the Unicode white space
   U+0085, U+00A0 and U+1680..U+3000; strings beginning or ending with those are outside the model. *)
Definition isSpace (c : byte) : bool := (N.leb 9 (b2n c) && N.leb (b2n c) 13) || N.eqb (b2n c) 32.
Fixpoint trimLeft (s : bs) : bs :=
  match s with [] => [] | x :: r => if isSpace x then trimLeft r else s end.
Definition trimSpace (s : bs) : bs := rev (trimLeft (rev (trimLeft s))).

Definition trimmed (s : bs) : Prop :=
  (forall c r, s = c :: r -> isSpace c = false) /\ (forall c r, s = r ++ [c] -> isSpace c = false).

Lemma trimLeft_split s : exists p, s = p ++ trimLeft s /\ Forall (fun c => isSpace c = true) p /\
  (forall c r, trimLeft s = c :: r -> isSpace c = false).
Proof.
  induction s as [|x r IH]; cbn [trimLeft].
  - exists []. repeat split; [constructor|intros; discriminate].
  - destruct (isSpace x) eqn:E.
    + destruct IH as (p & H1 & H2 & H3). exists (x :: p). repeat split; [cbn; congruence|constructor; assumption|exact H3].
    + exists []. repeat split; [constructor|]. intros c r' H. injection H as <- <-. exact E.
Qed.

Lemma trimSpace_split s : exists p q, s = p ++ trimSpace s ++ q /\
  Forall (fun c => isSpace c = true) p /\ Forall (fun c => isSpace c = true) q /\ trimmed (trimSpace s).
Proof.
  destruct (trimLeft_split s) as (p & H1 & H2 & H3).
  destruct (trimLeft_split (rev (trimLeft s))) as (q & G1 & G2 & G3).
  exists p, (rev q). unfold trimSpace.
  assert (E : trimLeft s = rev (trimLeft (rev (trimLeft s))) ++ rev q).
  { rewrite <- rev_app_distr, <- G1, rev_involutive. reflexivity. }
  split; [rewrite <- E; exact H1|]. split; [exact H2|]. split; [apply Forall_rev, G2|]. split.
  - intros c r Hc. rewrite Hc in E. apply (H3 c (r ++ rev q)). rewrite E. reflexivity.
  - intros c r Hc. apply (G3 c (rev r)). apply (f_equal (@rev byte)) in Hc. rewrite rev_involutive, rev_app_distr in Hc. exact Hc.
Qed.

Lemma trimLeft_id s : (forall c r, s = c :: r -> isSpace c = false) -> trimLeft s = s.
Proof. destruct s as [|x r]; intro H; [reflexivity|]. cbn. rewrite (H x r eq_refl). reflexivity. Qed.

Lemma trimSpace_id s : trimmed s -> trimSpace s = s.
Proof.
  intros [H1 H2]. unfold trimSpace. rewrite (trimLeft_id s H1). rewrite trimLeft_id; [apply rev_involutive|].
  intros c r H. apply (H2 c (rev r)). rewrite <- (rev_involutive s), H. reflexivity.
Qed.
Lemma trimSpace_idem s : trimSpace (trimSpace s) = trimSpace s.
Proof. apply trimSpace_id. destruct (trimSpace_split s) as (p & q & _ & _ & _ & H). exact H. Qed.
