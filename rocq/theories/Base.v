(* Base.v: shared vocabulary of the model.

   Go values used throughout:
     byte               -> Byte.byte (256 constructors, so no range side conditions)
     string, []byte     -> list byte ([bs])
     map[K]V            -> association list (keys distinct; theorems quantify over every order,
                           which covers Go's arbitrary map iteration order)
   No property is stated here. *)

From Coq Require Export Strings.String.
From Coq Require Export List Arith NArith ZArith Lia Bool Permutation.
From Coq Require Export Strings.Byte.
From Coq Require Export ZifyBool ZifyNat ZifyN.
Export ListNotations.

(* ---------------------------------------------------------------- bytes *)

Definition b2n (b : byte) : N := Byte.to_N b.
Definition n2b (n : N) : byte :=
  match Byte.of_N (n mod 256) with Some b => b | None => x00 end.

Lemma b2n_lt (b : byte) : (b2n b < 256)%N.
Proof. destruct b; reflexivity. Qed.

Lemma n2b_b2n (b : byte) : n2b (b2n b) = b.
Proof. destruct b; reflexivity. Qed.

Lemma b2n_inj (a b : byte) : b2n a = b2n b -> a = b.
Proof. intro H. rewrite <- (n2b_b2n a), <- (n2b_b2n b), H. reflexivity. Qed.

Lemma b2n_n2b (n : N) : b2n (n2b n) = (n mod 256)%N.
Proof.
  unfold n2b, b2n.
  assert (H : (n mod 256 < 256)%N) by (apply N.mod_lt; lia).
  destruct (Byte.of_N (n mod 256)) as [b|] eqn:E.
  - apply Byte.to_of_N in E. exact E.
  - exfalso. apply Byte.of_N_None_iff in E. lia.
Qed.

Lemma b2n_n2b_small (n : N) : (n < 256)%N -> b2n (n2b n) = n.
Proof. intro H. rewrite b2n_n2b. apply N.mod_small, H. Qed.

Definition byte_eqb (a b : byte) : bool := N.eqb (b2n a) (b2n b).

Lemma byte_eqb_spec (a b : byte) : byte_eqb a b = true <-> a = b.
Proof.
  unfold byte_eqb. rewrite N.eqb_eq. split; [apply b2n_inj | congruence].
Qed.

Lemma byte_eqb_refl (a : byte) : byte_eqb a a = true.
Proof. apply byte_eqb_spec; reflexivity. Qed.

Lemma byte_eqb_neq (a b : byte) : byte_eqb a b = false <-> a <> b.
Proof.
  split; intros H.
  - intro E. apply byte_eqb_spec in E. congruence.
  - destruct (byte_eqb a b) eqn:E; [|reflexivity]. apply byte_eqb_spec in E. contradiction.
Qed.

Lemma byte_eq_dec' (a b : byte) : {a = b} + {a <> b}.
Proof.
  destruct (byte_eqb a b) eqn:E.
  - left. apply byte_eqb_spec, E.
  - right. apply byte_eqb_neq, E.
Defined.

(* ---------------------------------------------------------------- strings *)

Definition bs := list byte.

(* literal strings *)
Definition s2b (s : String.string) : bs := String.list_byte_of_string s.
Arguments s2b s%string_scope.

Fixpoint bs_eqb (a b : bs) : bool :=
  match a, b with
  | [], [] => true
  | x :: a', y :: b' => byte_eqb x y && bs_eqb a' b'
  | _, _ => false
  end.

Lemma bs_eqb_spec (a b : bs) : bs_eqb a b = true <-> a = b.
Proof.
  revert b; induction a as [|x a IH]; intros [|y b]; cbn [bs_eqb]; split; intro H;
    try reflexivity; try discriminate.
  - apply andb_true_iff in H as [H1 H2].
    apply byte_eqb_spec in H1. apply IH in H2. congruence.
  - injection H as -> ->. rewrite byte_eqb_refl. cbn. apply IH. reflexivity.
Qed.

Lemma bs_eqb_refl (a : bs) : bs_eqb a a = true.
Proof. apply bs_eqb_spec; reflexivity. Qed.

Lemma bs_eqb_neq (a b : bs) : bs_eqb a b = false <-> a <> b.
Proof.
  split; intros H.
  - intro E. apply bs_eqb_spec in E. congruence.
  - destruct (bs_eqb a b) eqn:E; [|reflexivity]. apply bs_eqb_spec in E. contradiction.
Qed.

Lemma bs_eqb_sym (a b : bs) : bs_eqb a b = bs_eqb b a.
Proof.
  destruct (bs_eqb a b) eqn:E.
  - apply bs_eqb_spec in E. subst. symmetry. apply bs_eqb_refl.
  - symmetry. apply bs_eqb_neq. apply bs_eqb_neq in E. congruence.
Qed.

Definition bs_eq_dec (a b : bs) : {a = b} + {a <> b} := list_eq_dec byte_eq_dec' a b.

Definition bs_empty (a : bs) : bool := match a with [] => true | _ => false end.

Lemma bs_empty_spec (a : bs) : bs_empty a = true <-> a = [].
Proof. destruct a; cbn; split; congruence. Qed.

(* strings.Contains(s, single byte) *)
Definition bs_has (c : byte) (s : bs) : bool := existsb (byte_eqb c) s.

Lemma bs_has_spec (c : byte) (s : bs) : bs_has c s = true <-> In c s.
Proof.
  unfold bs_has. rewrite existsb_exists. split.
  - intros [x [Hx He]]. apply byte_eqb_spec in He. congruence.
  - intro H. exists c. split; [exact H | apply byte_eqb_refl].
Qed.

Lemma bs_has_false (c : byte) (s : bs) : bs_has c s = false <-> ~ In c s.
Proof.
  rewrite <- bs_has_spec. destruct (bs_has c s); split; congruence.
Qed.

(* strings.HasPrefix *)
Fixpoint has_prefix (s p : bs) {struct p} : bool :=
  match p, s with
  | [], _ => true
  | y :: p', x :: s' => byte_eqb x y && has_prefix s' p'
  | _ :: _, [] => false
  end.

Lemma has_prefix_spec (s p : bs) : has_prefix s p = true <-> exists t, s = p ++ t.
Proof.
  revert s; induction p as [|y p IH]; intros s; cbn [has_prefix].
  - split; [intros _; exists s; reflexivity | reflexivity].
  - destruct s as [|x s].
    + split; [discriminate | intros [t H]; discriminate].
    + rewrite andb_true_iff, byte_eqb_spec, IH. split.
      * intros [-> [t ->]]. exists t. reflexivity.
      * intros [t H]. injection H as -> ->. split; [reflexivity | exists t; reflexivity].
Qed.

(* strings.HasSuffix *)
Definition has_suffix (s p : bs) : bool := has_prefix (rev s) (rev p).

Lemma has_suffix_spec (s p : bs) : has_suffix s p = true <-> exists t, s = t ++ p.
Proof.
  unfold has_suffix. rewrite has_prefix_spec. split; intros [t H].
  - exists (rev t). rewrite <- (rev_involutive s), H, rev_app_distr, rev_involutive. reflexivity.
  - exists (rev t). rewrite H, rev_app_distr. reflexivity.
Qed.

(* ---------------------------------------------------------------- association maps *)

Section Assoc.
  Context {K V : Type} (eqb : K -> K -> bool).

  Fixpoint aget (m : list (K * V)) (k : K) : option V :=
    match m with
    | [] => None
    | (k', v) :: m' => if eqb k k' then Some v else aget m' k
    end.

  (* m[k] = v : overwrite in place, or add *)
  Fixpoint aset (m : list (K * V)) (k : K) (v : V) : list (K * V) :=
    match m with
    | [] => [(k, v)]
    | (k', v') :: m' => if eqb k k' then (k', v) :: m' else (k', v') :: aset m' k v
    end.

  (* delete(m, k) *)
  Definition adel (m : list (K * V)) (k : K) : list (K * V) :=
    filter (fun kv => negb (eqb k (fst kv))) m.

  Definition akeys (m : list (K * V)) : list K := map fst m.

  Hypothesis eqb_spec : forall a b, eqb a b = true <-> a = b.

  Lemma eqb_refl_ (a : K) : eqb a a = true.
  Proof. apply eqb_spec; reflexivity. Qed.

  Lemma eqb_false_ (a b : K) : a <> b -> eqb a b = false.
  Proof.
    intro H. destruct (eqb a b) eqn:E; [|reflexivity]. apply eqb_spec in E. contradiction.
  Qed.

  Lemma aget_aset (m : list (K * V)) k v k' :
    aget (aset m k v) k' = if eqb k' k then Some v else aget m k'.
  Proof.
    induction m as [|[k0 v0] m IH]; cbn [aset aget].
    - reflexivity.
    - destruct (eqb k k0) eqn:E; cbn [aget].
      + apply eqb_spec in E. subst k0. destruct (eqb k' k); reflexivity.
      + destruct (eqb k' k0) eqn:E'.
        * apply eqb_spec in E'. subst k0.
          destruct (eqb k' k) eqn:E2; [|reflexivity].
          apply eqb_spec in E2. subst k'. rewrite eqb_refl_ in E. discriminate.
        * exact IH.
  Qed.

  Lemma aget_adel (m : list (K * V)) k k' :
    aget (adel m k) k' = if eqb k' k then None else aget m k'.
  Proof.
    induction m as [|[k0 v0] m IH]; cbn [adel filter aget fst].
    - destruct (eqb k' k); reflexivity.
    - destruct (eqb k k0) eqn:E; cbn [negb aget].
      + apply eqb_spec in E. subst k0. fold (adel m k). rewrite IH.
        destruct (eqb k' k); reflexivity.
      + fold (adel m k). destruct (eqb k' k0) eqn:E'.
        * apply eqb_spec in E'. subst k0.
          destruct (eqb k' k) eqn:E2; [|reflexivity].
          apply eqb_spec in E2. subst k'. rewrite eqb_refl_ in E. discriminate.
        * exact IH.
  Qed.

  Lemma aget_In (m : list (K * V)) k v : aget m k = Some v -> In (k, v) m.
  Proof.
    induction m as [|[k0 v0] m IH]; cbn [aget]; [discriminate|].
    destruct (eqb k k0) eqn:E; intro H.
    - apply eqb_spec in E. injection H as ->. subst. left. reflexivity.
    - right. apply IH, H.
  Qed.

  Lemma In_aget (m : list (K * V)) k v : NoDup (akeys m) -> In (k, v) m -> aget m k = Some v.
  Proof.
    induction m as [|[k0 v0] m IH]; cbn [aget akeys map fst]; intros Hn Hin; [contradiction|].
    inversion Hn as [|? ? Hni Hn']; subst.
    destruct Hin as [Heq|Hin].
    - injection Heq as -> ->. rewrite eqb_refl_. reflexivity.
    - destruct (eqb k k0) eqn:E.
      + apply eqb_spec in E. subst k0. exfalso. apply Hni.
        change k with (fst (k, v)). apply in_map, Hin.
      + apply IH; assumption.
  Qed.

  Lemma aget_None (m : list (K * V)) k : aget m k = None <-> ~ In k (akeys m).
  Proof.
    induction m as [|[k0 v0] m IH]; cbn [aget akeys map fst].
    - split; [intros _ [] | reflexivity].
    - destruct (eqb k k0) eqn:E.
      + apply eqb_spec in E. subst. split; [discriminate|]. intro H. exfalso. apply H. left. reflexivity.
      + fold (akeys m). rewrite IH. split; intros H.
        * intros [Heq|Hin]; [|contradiction]. subst k0. rewrite eqb_refl_ in E. discriminate.
        * intro Hin. apply H. right. exact Hin.
  Qed.

  Lemma akeys_aset (m : list (K * V)) k v :
    akeys (aset m k v) = if existsb (eqb k) (akeys m) then akeys m else akeys m ++ [k].
  Proof.
    induction m as [|[k0 v0] m IH]; cbn [aset akeys map fst existsb].
    - reflexivity.
    - destruct (eqb k k0) eqn:E; cbn [orb map fst]; [reflexivity|].
      fold (akeys (aset m k v)). fold (akeys m). rewrite IH.
      destruct (existsb (eqb k) (akeys m)); reflexivity.
  Qed.

  Lemma existsb_eqb_In k l : existsb (eqb k) l = true <-> In k l.
  Proof.
    rewrite existsb_exists. split.
    - intros [x [Hx He]]. apply eqb_spec in He. congruence.
    - intro H. exists k. split; [exact H | apply eqb_refl_].
  Qed.

  Lemma NoDup_aset (m : list (K * V)) k v : NoDup (akeys m) -> NoDup (akeys (aset m k v)).
  Proof.
    intro H. rewrite akeys_aset. destruct (existsb (eqb k) (akeys m)) eqn:E; [exact H|].
    assert (Hni : ~ In k (akeys m)).
    { intro Hin. apply existsb_eqb_In in Hin. congruence. }
    clear E. induction (akeys m) as [|a l IH]; cbn.
    - constructor; [intros []|constructor].
    - inversion H as [|? ? Ha Hl]; subst. constructor.
      + rewrite in_app_iff. intros [Hin|[Heq|[]]]; [contradiction|]. apply Hni. left. congruence.
      + apply IH; [exact Hl|]. intro Hin. apply Hni. right. exact Hin.
  Qed.

  Lemma NoDup_adel (m : list (K * V)) k : NoDup (akeys m) -> NoDup (akeys (adel m k)).
  Proof.
    induction m as [|[k0 v0] m IH]; cbn [adel filter akeys map fst]; intro H; [constructor|].
    inversion H as [|? ? Ha Hl]; subst.
    destruct (eqb k k0); cbn [negb map fst].
    - apply IH, Hl.
    - constructor; [|apply IH, Hl]. intro Hin. apply Ha.
      apply in_map_iff in Hin as [[k1 v1] [He Hin]]. cbn in He. subst k1.
      apply filter_In in Hin as [Hin _].
      change k0 with (fst (k0, v1)). apply in_map, Hin.
  Qed.

  Lemma In_adel (m : list (K * V)) k k' v : In (k', v) (adel m k) <-> In (k', v) m /\ k' <> k.
  Proof.
    unfold adel. rewrite filter_In. cbn [fst]. rewrite negb_true_iff. split; intros [H1 H2]; split; auto.
    - intro E. subst. rewrite eqb_refl_ in H2. discriminate.
    - apply eqb_false_. congruence.
  Qed.

End Assoc.

Arguments aget {K V} eqb m k.
Arguments aset {K V} eqb m k v.
Arguments adel {K V} eqb m k.
Arguments akeys {K V} m.

(* ---------------------------------------------------------------- generic list helpers *)

Lemma skipn_app_exact {A} (a b : list A) : skipn (length a) (a ++ b) = b.
Proof. rewrite skipn_app, skipn_all, Nat.sub_diag. reflexivity. Qed.

Lemma firstn_app_exact {A} (a b : list A) : firstn (length a) (a ++ b) = a.
Proof. rewrite firstn_app, firstn_all, Nat.sub_diag. cbn. apply app_nil_r. Qed.

(* replace the element at index i *)
Fixpoint list_set {A} (l : list A) (i : nat) (x : A) : list A :=
  match l, i with
  | [], _ => []
  | _ :: t, O => x :: t
  | h :: t, S i' => h :: list_set t i' x
  end.

Lemma list_set_length {A} (l : list A) i x : length (list_set l i x) = length l.
Proof. revert i; induction l as [|h t IH]; intros [|i]; cbn; auto. Qed.

Lemma list_set_nth {A} (l : list A) i x j d :
  i < length l -> nth j (list_set l i x) d = if Nat.eqb j i then x else nth j l d.
Proof.
  revert i j; induction l as [|h t IH]; intros i j Hi; cbn in Hi; [lia|].
  destruct i as [|i], j as [|j]; cbn; auto. apply IH. lia.
Qed.

Lemma list_set_nth_error {A} (l : list A) i x j :
  i < length l -> nth_error (list_set l i x) j = if Nat.eqb j i then Some x else nth_error l j.
Proof.
  revert i j; induction l as [|h t IH]; intros i j Hi; cbn in Hi; [lia|].
  destruct i as [|i], j as [|j]; cbn; auto. apply IH. lia.
Qed.

(* number of elements satisfying p *)
Definition countb {A} (p : A -> bool) (l : list A) : nat := length (filter p l).

Lemma countb_app {A} (p : A -> bool) l1 l2 : countb p (l1 ++ l2) = countb p l1 + countb p l2.
Proof. unfold countb. rewrite filter_app, app_length. reflexivity. Qed.

Lemma countb_cons {A} (p : A -> bool) x l : countb p (x :: l) = (if p x then 1 else 0) + countb p l.
Proof. unfold countb. cbn. destruct (p x); reflexivity. Qed.

Lemma countb_perm {A} (p : A -> bool) l1 l2 : Permutation l1 l2 -> countb p l1 = countb p l2.
Proof.
  induction 1 as [|x l l' _ IH|x y l|l l' l'' _ IH1 _ IH2]; rewrite ?countb_cons.
  - reflexivity.
  - rewrite IH. reflexivity.
  - lia.
  - congruence.
Qed.
