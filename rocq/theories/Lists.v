(* Lists.v: assignments to slice elements and lemmas about them.  No property is stated here. *)
From Verif Require Import Base.

(* l[i] = x; out of range: unchanged (callers check) *)
Fixpoint upd {A} (l : list A) (i : nat) (x : A) : list A :=
  match l, i with
  | [], _ => []
  | _ :: r, O => x :: r
  | y :: r, S j => y :: upd r j x
  end.

Lemma upd_length {A} (l : list A) i x : length (upd l i x) = length l.
Proof. revert i. induction l as [|y r IH]; intros [|j]; cbn; auto. Qed.

Lemma nth_error_upd {A} (l : list A) i x j :
  nth_error (upd l i x) j = if (i =? j) && (i <? length l) then Some x else nth_error l j.
Proof.
  revert i j. induction l as [|y r IH]; intros i j.
  - cbn [upd length]. rewrite (proj2 (Nat.ltb_ge i 0)) by lia. rewrite andb_false_r. reflexivity.
  - destruct i as [|i], j as [|j]; cbn [upd nth_error length]; try reflexivity.
    rewrite IH. reflexivity.
Qed.

Lemma nth_error_upd_same {A} (l : list A) i x : i < length l -> nth_error (upd l i x) i = Some x.
Proof. intro H. rewrite nth_error_upd, Nat.eqb_refl. apply Nat.ltb_lt in H. rewrite H. reflexivity. Qed.
Lemma nth_error_upd_other {A} (l : list A) i x j : i <> j -> nth_error (upd l i x) j = nth_error l j.
Proof. intro H. rewrite nth_error_upd. apply Nat.eqb_neq in H. rewrite H. reflexivity. Qed.

Lemma upd_split {A} (l : list A) i x y : nth_error l i = Some x -> upd l i y = firstn i l ++ y :: skipn (S i) l.
Proof.
  revert i. induction l as [|z r IH]; intros [|i] H; cbn in H; try discriminate; cbn [upd firstn skipn app].
  - reflexivity.
  - f_equal. apply IH, H.
Qed.
Lemma nth_split_at {A} (l : list A) i x : nth_error l i = Some x -> l = firstn i l ++ x :: skipn (S i) l.
Proof.
  revert i. induction l as [|z r IH]; intros [|i] H; cbn in H; try discriminate; cbn [firstn skipn app].
  - congruence.
  - f_equal. apply IH, H.
Qed.

Lemma map_upd {A B} (f : A -> B) l i x : map f (upd l i x) = upd (map f l) i (f x).
Proof. revert i. induction l as [|y r IH]; intros [|i]; cbn; f_equal; auto. Qed.
Lemma upd_id {A} (l : list A) i x : nth_error l i = Some x -> upd l i x = l.
Proof. revert i. induction l as [|z r IH]; intros [|i] H; cbn in *; try discriminate; f_equal; auto; congruence. Qed.

Lemma nth_error_skipn' {A} (l : list A) i j : nth_error (skipn i l) j = nth_error l (i + j).
Proof. revert l. induction i as [|i IH]; intros [|x r]; cbn; auto. destruct j; reflexivity. Qed.
Lemma nth_error_firstn' {A} (l : list A) i j : j < i -> nth_error (firstn i l) j = nth_error l j.
Proof. revert l j. induction i as [|i IH]; intros [|x r] [|j] H; cbn; auto; try lia. apply IH. lia. Qed.

Lemma NoDup_map_in {A B} (f : A -> B) l : (forall x y, In x l -> In y l -> f x = f y -> x = y) -> NoDup l -> NoDup (map f l).
Proof.
  intros Hf. induction 1 as [|x r Hx Hr IH]; cbn [map]; constructor.
  - intro Hin. apply in_map_iff in Hin as (y & E & Hy). apply Hx. rewrite <- (Hf y x); auto; [right|left]; auto.
  - apply IH. intros a b Ha Hb. apply Hf; right; assumption.
Qed.
