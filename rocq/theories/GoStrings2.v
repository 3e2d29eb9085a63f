(* GoStrings2.v: strings.Index, strings.Contains, strings.Split and sort.Strings for arbitrary non-empty separators.
   This models the Go standard library, not a file of /repo. *)
From Verif Require Import Base GoStrings.

(* strings.Index(s, sub): position of the first occurrence *)
Fixpoint indexOf (s sub : bs) : option nat :=
  if hasPrefix s sub then Some 0
  else match s with [] => None | _ :: r => option_map S (indexOf r sub) end.

(* strings.Contains(s, sub) *)
Definition contains (s sub : bs) : bool := match indexOf s sub with Some _ => true | None => false end.

(* strings.Split(s, sep) for a non-empty separator: the first [skip] bytes still belong to a separator *)
Fixpoint splitFrom (sep : bs) (skip : nat) (s : bs) : list bs :=
  match s with
  | [] => [[]]
  | x :: r =>
      match skip with
      | S k => splitFrom sep k r
      | O => if hasPrefix s sep then [] :: splitFrom sep (length sep - 1) r
             else match splitFrom sep 0 r with p :: t => (x :: p) :: t | [] => [[x]] end
      end
  end.
Definition splitStr (sep s : bs) : list bs := splitFrom sep 0 s.

(* strings.Join(l, sep) *)
Fixpoint joinStr (sep : bs) (l : list bs) : bs :=
  match l with [] => [] | [x] => x | x :: r => x ++ sep ++ joinStr sep r end.

(* bytewise string order, Go's < on strings *)
Fixpoint bs_leb (a b : bs) : bool :=
  match a, b with
  | [], _ => true
  | _ :: _, [] => false
  | x :: a', y :: b' => if (b2n x <? b2n y)%N then true else if (b2n y <? b2n x)%N then false else bs_leb a' b'
  end.

(* sort.Strings *)
Fixpoint insertStr (x : bs) (l : list bs) : list bs :=
  match l with [] => [x] | y :: r => if bs_leb x y then x :: l else y :: insertStr x r end.
Definition sortStrings (l : list bs) : list bs := fold_right insertStr [] l.

(* ---------------------------------------------------------------- laws *)

Lemma indexOf_Some s sub i : indexOf s sub = Some i ->
  exists a b, s = a ++ sub ++ b /\ length a = i /\ (forall a' b', s = a' ++ sub ++ b' -> i <= length a').
Proof.
  revert i. induction s as [|x r IH]; intros i H; cbn [indexOf] in H.
  - destruct (hasPrefix [] sub) eqn:E; [|discriminate]. injection H as <-. apply hasPrefix_spec in E as (t & E).
    exists [], t. repeat split; [exact E|]. intros. lia.
  - destruct (hasPrefix (x :: r) sub) eqn:E.
    + injection H as <-. apply hasPrefix_spec in E as (t & E). exists [], t. repeat split; [exact E|]. intros. lia.
    + destruct (indexOf r sub) as [j|] eqn:Ej; [|discriminate]. injection H as <-.
      destruct (IH j eq_refl) as (a & b & -> & <- & Hm). exists (x :: a), b. repeat split.
      intros [|y a'] b' He.
      * exfalso. assert (hasPrefix (x :: a ++ sub ++ b) sub = true) as Hc by (apply hasPrefix_spec; exists b'; exact He). congruence.
      * cbn in He. injection He as <- He. cbn. apply Hm in He. lia.
Qed.

Lemma indexOf_None s sub : indexOf s sub = None <-> forall a b, s <> a ++ sub ++ b.
Proof.
  induction s as [|x r IH]; cbn [indexOf].
  - destruct (hasPrefix [] sub) eqn:E.
    + split; [discriminate|]. intro H. apply hasPrefix_spec in E as (t & E). exfalso. apply (H [] t). exact E.
    + split; [|reflexivity]. intros _ a b H. symmetry in H. apply app_eq_nil in H as [_ H]. apply app_eq_nil in H as [H _].
      subst. discriminate.
  - destruct (hasPrefix (x :: r) sub) eqn:E.
    + split; [discriminate|]. intro H. apply hasPrefix_spec in E as (t & E). exfalso. apply (H [] t). exact E.
    + destruct (indexOf r sub) as [j|] eqn:Ej; cbn [option_map].
      * split; [discriminate|]. intro H. destruct (indexOf_Some _ _ _ Ej) as (a & b & -> & _ & _). exfalso. apply (H (x :: a) b). reflexivity.
      * split; [|reflexivity]. intros _ [|y a] b H.
        -- assert (hasPrefix (x :: r) sub = true) as Hc by (apply hasPrefix_spec; exists b; exact H). congruence.
        -- cbn in H. injection H as <- H. apply (proj1 IH eq_refl a b H).
Qed.

Lemma contains_spec s sub : contains s sub = true <-> exists a b, s = a ++ sub ++ b.
Proof.
  unfold contains. destruct (indexOf s sub) as [i|] eqn:E.
  - split; [|reflexivity]. intros _. destruct (indexOf_Some _ _ _ E) as (a & b & -> & _). eauto.
  - split; [discriminate|]. intros (a & b & H). exfalso. exact (proj1 (indexOf_None s sub) E a b H).
Qed.

Lemma contains_app_l s sub a : contains s sub = true -> contains (a ++ s) sub = true.
Proof. rewrite !contains_spec. intros (p & q & ->). exists (a ++ p), q. rewrite app_assoc. reflexivity. Qed.

Lemma splitFrom_ne sep k s : splitFrom sep k s <> [].
Proof.
  revert k. induction s as [|x r IH]; intro k; cbn [splitFrom]; [discriminate|].
  destruct k; [|apply IH]. destruct (hasPrefix (x :: r) sep); [discriminate|]. destruct (splitFrom sep 0 r); discriminate.
Qed.

Lemma splitFrom_skip sep k s : k <= length s -> splitFrom sep k s = splitFrom sep 0 (skipn k s).
Proof.
  revert k. induction s as [|x r IH]; intros k Hk; cbn in Hk.
  - replace k with 0 by lia. reflexivity.
  - destruct k; [reflexivity|]. cbn [splitFrom skipn]. apply IH. lia.
Qed.

(* the defining equations of Split, in terms of Index *)
Lemma splitStr_eq sep s : sep <> [] ->
  splitStr sep s = match indexOf s sep with
                   | None => [s]
                   | Some i => firstn i s :: splitStr sep (skipn (i + length sep) s)
                   end.
Proof.
  intro Hs. unfold splitStr. induction s as [|x r IH].
  - destruct sep; [congruence|]. reflexivity.
  - cbn [splitFrom indexOf]. destruct (hasPrefix (x :: r) sep) eqn:E.
    + cbn [firstn plus]. f_equal. apply hasPrefix_spec in E as (t & E). destruct sep as [|y sep]; [congruence|].
      cbn in E. injection E as <- ->. cbn [length]. rewrite splitFrom_skip by (rewrite app_length; lia).
      replace (S (length sep) - 1) with (length sep) by lia. reflexivity.
    + rewrite IH. destruct (indexOf r sep) as [i|]; cbn [option_map]; reflexivity.
Qed.

Lemma splitStr_none sep s : sep <> [] -> contains s sep = false -> splitStr sep s = [s].
Proof. intros H Hc. rewrite splitStr_eq by exact H. unfold contains in Hc. destruct (indexOf s sep); [discriminate|reflexivity]. Qed.

Lemma splitStr_one c s : splitStr [c] s = splitOn c s.
Proof.
  unfold splitStr. induction s as [|x r IH]; [reflexivity|].
  assert (E : hasPrefix (x :: r) [c] = byte_eqb x c) by (cbn; destruct r; apply andb_true_r).
  cbn [splitFrom splitOn length Nat.sub]. rewrite E, IH. destruct (byte_eqb x c); reflexivity.
Qed.

Lemma skipn_skipn' {A} (a b : nat) (l : list A) : skipn a (skipn b l) = skipn (b + a) l.
Proof. revert l. induction b as [|b IH]; intro l; [reflexivity|]. destruct l; [rewrite !skipn_nil; reflexivity|]. cbn. apply IH. Qed.

(* splitting loses nothing *)
Lemma joinStr_split sep s : sep <> [] -> joinStr sep (splitStr sep s) = s.
Proof.
  intro Hs. remember (length s) as n eqn:Hn. revert s Hn. induction n as [n IH] using lt_wf_ind. intros s ->.
  rewrite splitStr_eq by exact Hs. destruct (indexOf s sep) as [i|] eqn:E; [|reflexivity].
  destruct (indexOf_Some _ _ _ E) as (a & b & -> & <- & _).
  rewrite firstn_app_exact. rewrite <- skipn_skipn'. rewrite !skipn_app_exact.
  pose proof (splitFrom_ne sep 0 b) as Hne. fold (splitStr sep b) in Hne.
  assert (Hb : joinStr sep (splitStr sep b) = b).
  { apply (IH (length b)); [|reflexivity]. rewrite !app_length. destruct sep; [congruence|]. cbn. lia. }
  destruct (splitStr sep b) as [|p t] eqn:Ep; [congruence|]. cbn [joinStr] in *. rewrite Hb. reflexivity.
Qed.

(* no piece contains the separator *)
Lemma splitStr_parts sep s x : sep <> [] -> In x (splitStr sep s) -> contains x sep = false.
Proof.
  intro Hs. remember (length s) as n eqn:Hn. revert s Hn. induction n as [n IH] using lt_wf_ind. intros s -> Hin.
  rewrite splitStr_eq in Hin by exact Hs. destruct (indexOf s sep) as [i|] eqn:E.
  - destruct (indexOf_Some _ _ _ E) as (a & b & -> & <- & Hm). destruct Hin as [<-|Hin].
    + rewrite firstn_app_exact. destruct (contains a sep) eqn:Ec; [|reflexivity].
      apply contains_spec in Ec as (p & q & ->). exfalso.
      specialize (Hm p (q ++ sep ++ b) ltac:(rewrite <- !app_assoc; reflexivity)). rewrite !app_length in Hm.
      destruct sep; [congruence|]. cbn in Hm. lia.
    + rewrite <- skipn_skipn', !skipn_app_exact in Hin. apply (IH (length b)) with (s := b); [|reflexivity|exact Hin].
      rewrite !app_length. destruct sep; [congruence|]. cbn. lia.
  - destruct Hin as [<-|[]]. unfold contains. rewrite E. reflexivity.
Qed.

(* ---- order and sorting *)

Lemma bs_leb_refl a : bs_leb a a = true.
Proof. induction a as [|x a IH]; [reflexivity|]. cbn. rewrite N.ltb_irrefl. exact IH. Qed.
Lemma bs_leb_antisym a b : bs_leb a b = true -> bs_leb b a = true -> a = b.
Proof.
  revert b. induction a as [|x a IH]; intros [|y b] H1 H2; cbn in *; try reflexivity; try discriminate.
  destruct (N.ltb_spec (b2n x) (b2n y)); destruct (N.ltb_spec (b2n y) (b2n x)); try lia; try discriminate.
  f_equal; [apply b2n_inj; lia|]. apply IH; assumption.
Qed.
Lemma bs_leb_total a b : bs_leb a b = true \/ bs_leb b a = true.
Proof.
  revert b. induction a as [|x a IH]; intros [|y b]; cbn; auto.
  destruct (N.ltb_spec (b2n x) (b2n y)); destruct (N.ltb_spec (b2n y) (b2n x)); auto.
Qed.
Lemma bs_leb_trans a b c : bs_leb a b = true -> bs_leb b c = true -> bs_leb a c = true.
Proof.
  revert b c. induction a as [|x a IH]; intros [|y b] [|z c] H1 H2; cbn in *; try reflexivity; try discriminate.
  destruct (N.ltb_spec (b2n x) (b2n y)); destruct (N.ltb_spec (b2n y) (b2n x)); destruct (N.ltb_spec (b2n y) (b2n z));
    destruct (N.ltb_spec (b2n z) (b2n y)); destruct (N.ltb_spec (b2n x) (b2n z)); destruct (N.ltb_spec (b2n z) (b2n x));
    try lia; try discriminate; try reflexivity. eapply IH; eassumption.
Qed.

Inductive sorted : list bs -> Prop :=
| sorted_nil : sorted []
| sorted_cons x l : (forall y, In y l -> bs_leb x y = true) -> sorted l -> sorted (x :: l).

Lemma insertStr_perm x l : Permutation (x :: l) (insertStr x l).
Proof.
  induction l as [|y r IH]; cbn; [reflexivity|]. destruct (bs_leb x y); [reflexivity|].
  etransitivity; [apply perm_swap|]. constructor. exact IH.
Qed.
Lemma insertStr_sorted x l : sorted l -> sorted (insertStr x l).
Proof.
  induction l as [|y r IH]; intro H; cbn.
  - constructor; [intros ? []|constructor].
  - inversion H as [|? ? Hy Hr]; subst. destruct (bs_leb x y) eqn:E.
    + constructor; [|exact H]. intros z [<-|Hz]; [exact E|]. eapply bs_leb_trans; [exact E|]. apply Hy, Hz.
    + constructor; [|apply IH, Hr]. intros z Hz. apply (Permutation_in z (Permutation_sym (insertStr_perm x r))) in Hz as [<-|Hz].
      * destruct (bs_leb_total x y) as [Hc|Hc]; [congruence|exact Hc].
      * apply Hy, Hz.
Qed.
Lemma sortStrings_perm l : Permutation l (sortStrings l).
Proof. induction l as [|x l IH]; cbn; [constructor|]. rewrite IH at 1. apply insertStr_perm. Qed.
Lemma sortStrings_sorted l : sorted (sortStrings l).
Proof. induction l as [|x l IH]; cbn; [constructor|]. apply insertStr_sorted, IH. Qed.
Lemma sorted_perm_eq a b : sorted a -> sorted b -> Permutation a b -> a = b.
Proof.
  intros Ha. revert b. induction Ha as [|x l Hx Hl IH]; intros b Hb Hp.
  - apply Permutation_nil in Hp. symmetry. exact Hp.
  - destruct Hb as [|y m Hy Hm]; [symmetry in Hp; apply Permutation_nil in Hp; discriminate|].
    assert (x = y) as <-.
    { assert (In y (x :: l)) as [He|Hin1] by (eapply Permutation_in; [symmetry; exact Hp|left; reflexivity]); [exact He|].
      assert (In x (y :: m)) as [He|Hin2] by (eapply Permutation_in; [exact Hp|left; reflexivity]); [symmetry; exact He|].
      apply bs_leb_antisym; [apply Hx, Hin1|apply Hy, Hin2]. }
    f_equal. apply IH; [exact Hm|]. eapply Permutation_cons_inv; exact Hp.
Qed.
Lemma sortStrings_perm_eq a b : Permutation a b -> sortStrings a = sortStrings b.
Proof.
  intro H. apply sorted_perm_eq; [apply sortStrings_sorted|apply sortStrings_sorted|].
  rewrite <- !sortStrings_perm. exact H.
Qed.
