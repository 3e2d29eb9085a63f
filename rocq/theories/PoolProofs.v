(* PoolProofs.v: proofs for PoolProps.v. *)
From Coq Require Import Lia.
From Verif Require Import Base PoolModel PoolSpec EpProofs EpProofs2.
Ltac Zify.zify_post_hook ::= idtac.

Lemma pruns_app s l1 l2 : pruns s (l1 ++ l2) = match pruns s l1 with Some s1 => pruns s1 l2 | None => None end.
Proof. revert s. induction l1 as [|o l1 IH]; intro s; cbn; [reflexivity|]. destruct (pstep s o); [apply IH|reflexivity]. Qed.
Lemma pruns_snoc s l o s2 : pruns s (l ++ [o]) = Some s2 <-> exists s1, pruns s l = Some s1 /\ pstep s1 o = Some s2.
Proof.
  rewrite pruns_app. destruct (pruns s l) as [s1|]; cbn; [destruct (pstep s1 o) as [s'|] eqn:E|]; split; intro H.
  - injection H as ->. exists s1. split; [reflexivity|exact E].
  - destruct H as (s1' & E1 & E2). injection E1 as <-. rewrite E in E2. exact E2.
  - discriminate H.
  - destruct H as (s1' & E1 & E2). injection E1 as <-. rewrite E in E2. discriminate E2.
  - discriminate H.
  - destruct H as (s1' & E1 & _). discriminate E1.
Qed.

(* ---- slots ---- *)
Definition wt (closed : bool) (g : gpc) : bool :=
  match g with GMake | GPut (Some _) | GErr _ => true | GPut None => negb closed | _ => false end.
Definition ct (c : cpc) : bool := match c with CShut _ => true | _ => false end.
Definition slots (s : pool) : nat := length (pQ s) + countb (wt (pQClosed s)) (pGet s) + countb ct (pClose s).
(* who closes *)
Definition pre (c : cpc) : bool := match c with CFac | CClose => true | _ => false end.
Definition drains (c : cpc) : bool := match c with CDrain | CShut _ => true | _ => false end.
Definition b2n (b : bool) : nat := if b then 1 else 0.
Definition gown (g : gpc) : list nat := match g with GPut (Some c) => [c] | GErr c => [c] | _ => [] end.
Definition cown (c : cpc) : list nat := match c with CShut (Some n) => [n] | _ => [] end.
Definition qown (q : option nat) : list nat := match q with Some c => [c] | None => [] end.
Definition owned (s : pool) : list nat := flat_map qown (pQ s) ++ flat_map gown (pGet s) ++ flat_map cown (pClose s).
Record pinv (s : pool) : Prop := {
  pv_slots : slots s <= pCap s;
  pv_full : pPtr s = true -> slots s = pCap s;
  pv_err : pQClosed s = false -> forall i c, nth_error (pGet s) i <> Some (GErr c);
  pv_once : countb pre (pClose s) + b2n (pQClosed s) + b2n (pPtr s) = 1;
  pv_drain : countb drains (pClose s) <= b2n (pQClosed s);
  pv_empty : pQClosed s = true -> countb drains (pClose s) = 0 -> pQ s = [];
  pv_own : forall c, isOpen s c = true -> In c (owned s);
  pv_fac : pPtr s = true -> pFac s = true;
  pv_cap : 0 < pCap s }.

Lemma in_flat_nth {A B} (f : A -> list B) l i a b : nth_error l i = Some a -> In b (f a) -> In b (flat_map f l).
Proof. intros H Hb. apply in_flat_map. exists a. split; [exact (nth_error_In _ _ H)|exact Hb]. Qed.
Lemma flat_set {A B} (f : A -> list B) l i a v b : nth_error l i = Some a -> In b (flat_map f l) -> In b (f a) \/ In b (flat_map f (list_set l i v)).
Proof.
  intros H Hb. apply in_flat_map in Hb. destruct Hb as (x & Hx & Hb). apply In_nth_error in Hx. destruct Hx as [j Hj].
  destruct (Nat.eq_dec j i) as [->|N]; [left; congruence|]. right. apply (in_flat_nth f _ j x); [|exact Hb].
  rewrite (nth_set _ _ _ _ _ H). destruct (Nat.eqb_spec j i); [contradiction|exact Hj].
Qed.
Lemma flat_set_new {A B} (f : A -> list B) l i a v b : nth_error l i = Some a -> In b (f v) -> In b (flat_map f (list_set l i v)).
Proof. intros H Hb. apply (in_flat_nth f _ i v); [|exact Hb]. rewrite (nth_set _ _ _ _ _ H), Nat.eqb_refl. reflexivity. Qed.
(* changing one Get keeps what it owned only if the new state owns it too *)
Lemma isOpen_set s l c n : isOpen (setOpen s (list_set l c false)) n = true -> pOpen s = l -> isOpen s n = true /\ n <> c.
Proof.
  unfold isOpen. cbn. intros H <-. destruct (Nat.eq_dec n c) as [->|N].
  - exfalso. revert H. generalize (pOpen s) as o. clear. induction c as [|c IH]; intros [|x o]; cbn; try discriminate. apply IH.
  - split; [|exact N]. rewrite <- H. symmetry. clear H. revert c N. generalize (pOpen s) as o. clear. induction n as [|n IH]; intros [|x o] [|c] N; cbn; try reflexivity; try contradiction. apply IH. lia.
Qed.
Lemma isOpen_new s n : nth n (pOpen s ++ [true]) false = true -> isOpen s n = true \/ n = length (pOpen s).
Proof.
  intro H. destruct (Nat.lt_ge_cases n (length (pOpen s))) as [L|G]; [left; unfold isOpen; rewrite app_nth1 in H by exact L; exact H|].
  right. rewrite app_nth2 in H by exact G. destruct (n - length (pOpen s)) as [|[|]] eqn:E; cbn in H; try discriminate H. lia.
Qed.

Ltac gstep H v := pose proof (countb_set pre _ _ _ v H) as Qpre.
Lemma countb_wt_le b l : countb (wt true) l <= countb (wt b) l.
Proof. induction l as [|g l IH]; [reflexivity|]. rewrite !countb_cons. destruct g as [| | |[c|]| | | |], b; cbn; lia. Qed.
Lemma no_drain_ct l : countb drains l = 0 -> countb ct l = 0.
Proof. induction l as [|c l IH]; [reflexivity|]. rewrite !countb_cons. destruct c; cbn; lia. Qed.
Lemma ct_le_drains l : countb ct l <= countb drains l.
Proof. induction l as [|c l IH]; [reflexivity|]. rewrite !countb_cons. destruct c; cbn; lia. Qed.

(* a step of a Get: queue, one program counter and perhaps the channels change *)
Lemma pinv_get s i g v q op : nth_error (pGet s) i = Some g -> pinv s ->
  length q + b2n (wt (pQClosed s) v) = length (pQ s) + b2n (wt (pQClosed s) g) \/
    (pPtr s = false /\ length q + b2n (wt (pQClosed s) v) <= length (pQ s) + b2n (wt (pQClosed s) g)) ->
  (pQClosed s = false -> forall c, v <> GErr c) ->
  (pQClosed s = true -> pQ s = [] -> q = []) ->
  (forall c, nth c op false = true -> (isOpen s c = true /\ (In c (flat_map qown (pQ s)) -> In c (flat_map qown q) \/ In c (gown v)) /\ (In c (gown g) -> In c (flat_map qown q) \/ In c (gown v))) \/ In c (gown v)) ->
  pinv (setGet (setOpen (setQ s q) op) i v).
Proof.
  intros H [a b c d e f g0 h k] W NE QE O. unfold slots in *. pose proof (countb_set (wt (pQClosed s)) _ _ _ v H) as Q. fold (b2n (wt (pQClosed s) g)) in Q. fold (b2n (wt (pQClosed s) v)) in Q.
  constructor; unfold slots; cbn [pQ pQClosed pGet pClose pCap setGet setQ setOpen pPtr pFac]; try assumption.
  - destruct W as [W|[_ W]]; lia.
  - intro C. specialize (b C). destruct W as [W|[W _]]; [lia|congruence].
  - intros C j n Hj. rewrite (nth_set _ _ _ _ _ H) in Hj. destruct (Nat.eqb j i); [injection Hj as Hj; exact (NE C n Hj)|exact (c C j n Hj)].
  - intros C D. apply QE; [exact C|apply f; assumption].
  - intros n Hn. unfold isOpen in Hn. cbn in Hn. unfold owned. cbn.
    assert (NEW : In n (gown v) -> In n (flat_map qown q ++ flat_map gown (list_set (pGet s) i v) ++ flat_map cown (pClose s))).
    { intro X. apply in_or_app; right; apply in_or_app; left. exact (flat_set_new gown _ i g v n H X). }
    assert (OLD : In n (flat_map qown q) -> In n (flat_map qown q ++ flat_map gown (list_set (pGet s) i v) ++ flat_map cown (pClose s))).
    { intro X. apply in_or_app; left. exact X. }
    destruct (O n Hn) as [(Op & OQ & OG)|X]; [|exact (NEW X)]. specialize (g0 n Op). unfold owned in g0. apply in_app_or in g0. destruct g0 as [X|X].
    + destruct (OQ X); auto.
    + apply in_app_or in X. destruct X as [X|X]; [|apply in_or_app; right; apply in_or_app; right; exact X].
      destruct (flat_set gown _ i g v n H X) as [Y|Y]; [destruct (OG Y); auto|]. apply in_or_app; right; apply in_or_app; left; exact Y.
Qed.
Lemma setGet_eta s i v : setGet s i v = setGet (setOpen (setQ s (pQ s)) (pOpen s)) i v.
Proof. reflexivity. Qed.
Lemma owned_snoc_get s n : In n (owned s) -> In n (flat_map qown (pQ s) ++ flat_map gown (pGet s ++ [GRead]) ++ flat_map cown (pClose s)).
Proof.
  unfold owned. intro H. apply in_app_or in H. apply in_or_app. destruct H as [H|H]; [left; exact H|right]. apply in_app_or in H. apply in_or_app.
  destruct H as [H|H]; [left; rewrite flat_map_app; apply in_or_app; left; exact H|right; exact H].
Qed.
Lemma owned_snoc_close s n : In n (owned s) -> In n (flat_map qown (pQ s) ++ flat_map gown (pGet s) ++ flat_map cown (pClose s ++ [CStart])).
Proof.
  unfold owned. intro H. apply in_app_or in H. apply in_or_app. destruct H as [H|H]; [left; exact H|right]. apply in_app_or in H. apply in_or_app.
  destruct H as [H|H]; [left; exact H|right; rewrite flat_map_app; apply in_or_app; left; exact H].
Qed.
(* a step of a Close that only moves its program counter between states owning nothing *)
Lemma owned_close s k c v n : nth_error (pClose s) k = Some c -> cown c = [] -> In n (owned s) -> In n (flat_map qown (pQ s) ++ flat_map gown (pGet s) ++ flat_map cown (list_set (pClose s) k v)).
Proof.
  intros H Z X. unfold owned in X. apply in_app_or in X. apply in_or_app. destruct X as [X|X]; [left; exact X|right]. apply in_app_or in X. apply in_or_app.
  destruct X as [X|X]; [left; exact X|right]. destruct (flat_set cown _ k c v n H X) as [Y|Y]; [rewrite Z in Y; destruct Y|exact Y].
Qed.
Lemma pinv_step s o s' : pstep s o = Some s' -> pinv s -> pinv s'.
Proof.
  intros E I. destruct o; cbn [pstep] in E.
  - (* PGet *) injection E as <-. destruct I as [a b c d e f g h k]. unfold slots in *. constructor; unfold slots; cbn [pQ pQClosed pGet pClose pCap pPtr pFac]; try assumption.
    + rewrite countb_app. cbn. lia.
    + intro C. rewrite countb_app. cbn. specialize (b C). lia.
    + intros C i n H. destruct (nth_snoc_inv _ _ _ _ H) as [[_ X]|[_ X]]; [exact (c C i n X)|discriminate X].
    + intros n Hn. exact (owned_snoc_get s n (g n Hn)).
  - (* PClose *) injection E as <-. destruct I as [a b c d e f g h k]. unfold slots in *. constructor; unfold slots; cbn [pQ pQClosed pGet pClose pCap pPtr pFac]; try assumption.
    + rewrite countb_app. cbn. lia.
    + intro C. rewrite countb_app. cbn. specialize (b C). lia.
    + rewrite countb_app. cbn. lia.
    + rewrite countb_app. cbn. lia.
    + rewrite countb_app. cbn. intros C D. apply f; [exact C|lia].
    + intros n Hn. exact (owned_snoc_close s n (g n Hn)).
  - (* PRead *) destruct (nth_error (pGet s) i) as [[| | |?|?|?| |]|] eqn:H; try discriminate E. injection E as <-. rewrite setGet_eta.
    apply (pinv_get s i GRead); try assumption.
    + left. destruct (pPtr s); cbn; lia.
    + intros _ c. destruct (pPtr s); discriminate.
    + intros _ X; exact X.
    + intros c Hc. left. split; [exact Hc|]. split; [intro X; left; exact X|intros []].
  - (* PRecv *) destruct (nth_error (pGet s) i) as [[| | |?|?|?| |]|] eqn:H; try discriminate E. destruct (pQ s) as [|[c|] q] eqn:Q.
    + destruct (pQClosed s) eqn:C; [|discriminate E]. injection E as <-. rewrite setGet_eta. assert (PF : pPtr s = false) by (destruct I as [_ _ _ d _ _ _ _ _]; rewrite C in d; destruct (pPtr s); cbn in d; [lia|reflexivity]).
      apply (pinv_get s i GRecv); try assumption.
      * right. split; [exact PF|]. cbn. destruct (pQClosed s); cbn; lia.
      * intros _ c. discriminate.
      * intros _ X. exact X.
      * intros c Hc. left. split; [exact Hc|]. split; [intro X; left; exact X|intros []].
    + injection E as <-. change (setGet (setQ s q) i (if isOpen s c then GPut (Some c) else GMake)) with (setGet (setOpen (setQ s q) (pOpen s)) i (if isOpen s c then GPut (Some c) else GMake)).
      apply (pinv_get s i GRecv); try assumption.
      * left. rewrite Q. cbn [length]. destruct (isOpen s c), (pQClosed s); cbn; lia.
      * intros _ c'. destruct (isOpen s c); discriminate.
      * intros _ X. rewrite Q in X. discriminate X.
      * intros c' Hc. left. split; [exact Hc|]. split; [|intros []]. rewrite Q. cbn. intros [<-|X]; [right|left; exact X]. change (isOpen s c = true) in Hc. rewrite Hc. left. reflexivity.
    + injection E as <-. change (setGet (setQ s q) i GMake) with (setGet (setOpen (setQ s q) (pOpen s)) i GMake).
      apply (pinv_get s i GRecv); try assumption.
      * left. rewrite Q. cbn [length]. destruct (pQClosed s); cbn; lia.
      * intros _ c'. discriminate.
      * intros _ X. rewrite Q in X. discriminate X.
      * intros c' Hc. left. split; [exact Hc|]. split; [|intros []]. rewrite Q. cbn. intro X; left; exact X.
  - (* PMake *) destruct (nth_error (pGet s) i) as [[| | |?|?|?| |]|] eqn:H; try discriminate E. destruct (pFac s) eqn:F; [destruct ok|].
    + injection E as <-. change (setGet (setOpen s (pOpen s ++ [true])) i (GPut (Some (length (pOpen s))))) with (setGet (setOpen (setQ s (pQ s)) (pOpen s ++ [true])) i (GPut (Some (length (pOpen s))))).
      apply (pinv_get s i GMake); try assumption.
      * left. destruct (pQClosed s); cbn; lia.
      * intros _ c'. discriminate.
      * intros _ X. exact X.
      * intros c' Hc. destruct (isOpen_new s c' Hc) as [X| ->]; [left|right; left; reflexivity]. split; [exact X|]. split; [intro Y; left; exact Y|intros []].
    + injection E as <-. rewrite setGet_eta. apply (pinv_get s i GMake); try assumption.
      * destruct (pQClosed s) eqn:C; [right; split; [destruct I as [_ _ _ d _ _ _ _ _]; rewrite C in d; destruct (pPtr s); cbn in d; [lia|reflexivity]|cbn; lia]|left; cbn; lia].
      * intros _ c'. discriminate.
      * intros _ X. exact X.
      * intros c' Hc. left. split; [exact Hc|]. split; [intro Y; left; exact Y|intros []].
    + injection E as <-. assert (PF : pPtr s = false) by (destruct I as [_ _ _ _ _ _ _ h _]; destruct (pPtr s); [rewrite (h eq_refl) in F; discriminate F|reflexivity]).
      rewrite setGet_eta. apply (pinv_get s i GMake); try assumption.
      * right. split; [exact PF|]. cbn. destruct (pQClosed s); cbn; lia.
      * intros _ c'. discriminate.
      * intros _ X. exact X.
      * intros c' Hc. left. split; [exact Hc|]. split; [intro Y; left; exact Y|intros []].
  - (* PPut *) destruct (nth_error (pGet s) i) as [[| | |c|?|?| |]|] eqn:H; try discriminate E. destruct (pQClosed s) eqn:C.
    + injection E as <-. assert (PF : pPtr s = false) by (destruct I as [_ _ _ d _ _ _ _ _]; rewrite C in d; destruct (pPtr s); cbn in d; [lia|reflexivity]).
      rewrite setGet_eta. apply (pinv_get s i (GPut c)); try assumption.
      * right. split; [exact PF|]. rewrite C. destruct c; cbn; lia.
      * intro X. congruence.
      * intros _ X. exact X.
      * intros c' Hc. left. split; [exact Hc|]. split; [intro Y; left; exact Y|]. destruct c; cbn; intro Y; [right; exact Y|destruct Y].
    + destruct (Nat.ltb_spec (length (pQ s)) (pCap s)) as [L|L]; [|discriminate E]. injection E as <-.
      change (setGet (setQ s (pQ s ++ [c])) i (match c with Some n => GOk n | None => GFail end)) with (setGet (setOpen (setQ s (pQ s ++ [c])) (pOpen s)) i (match c with Some n => GOk n | None => GFail end)).
      apply (pinv_get s i (GPut c)); try assumption.
      * left. rewrite app_length, C. destruct c; cbn; lia.
      * intros _ c'. destruct c; discriminate.
      * intro X. congruence.
      * intros c' Hc. left. split; [exact Hc|]. rewrite flat_map_app. split; intro Y; left; apply in_or_app; [left; exact Y|right]. destruct c; cbn in *; [|exact Y]. exact Y.
  - (* PErr *) destruct (nth_error (pGet s) i) as [[| | |?|c|?| |]|] eqn:H; try discriminate E. injection E as <-.
    change (setGet (setOpen s (list_set (pOpen s) c false)) i (GOk c)) with (setGet (setOpen (setQ s (pQ s)) (list_set (pOpen s) c false)) i (GOk c)).
    assert (C : pQClosed s = true) by (destruct (pQClosed s) eqn:C; [reflexivity|exfalso; exact (pv_err s I C i c H)]).
    assert (PF : pPtr s = false) by (destruct I as [_ _ _ d _ _ _ _ _]; rewrite C in d; destruct (pPtr s); cbn in d; [lia|reflexivity]).
    apply (pinv_get s i (GErr c)); try assumption.
    + right. split; [exact PF|]. cbn. lia.
    + intros _ c'. discriminate.
    + intros _ X. exact X.
    + intros c' Hc. left. destruct (isOpen_set s _ c c' Hc eq_refl) as [X N]. split; [exact X|]. split; [intro Y; left; exact Y|]. cbn. intros [<-|[]]. contradiction.
  - (* PNil *) destruct (nth_error (pClose s) k) as [[| | | |?|]|] eqn:H; try discriminate E. destruct (pLock s); [discriminate E|]. destruct (pPtr s) eqn:P; injection E as <-;
    destruct I as [a b c d e f g h q]; unfold slots in *.
    + pose proof (countb_set ct _ _ _ CFac H) as Q1. pose proof (countb_set pre _ _ _ CFac H) as Q2. pose proof (countb_set drains _ _ _ CFac H) as Q3. cbn in Q1, Q2, Q3.
      rewrite P in d. cbn in d. constructor; unfold slots; cbn [pQ pQClosed pGet pClose pCap pPtr pFac setClose b2n]; try assumption; try lia; try (intro X; discriminate X).
      * intros C D. apply f; [exact C|lia].
      * intros n Hn. apply (owned_close s k CStart CFac n H eq_refl). apply g. exact Hn.
    + pose proof (countb_set ct _ _ _ CDone H) as Q1. pose proof (countb_set pre _ _ _ CDone H) as Q2. pose proof (countb_set drains _ _ _ CDone H) as Q3. cbn in Q1, Q2, Q3.
      rewrite P in d. cbn in d. constructor; unfold slots; cbn [pQ pQClosed pGet pClose pCap pPtr pFac setClose]; rewrite ?P; cbn [b2n]; try assumption; try lia; try (intro X; discriminate X).
      * intros C D. apply f; [exact C|lia].
      * intros n Hn. apply (owned_close s k CStart CDone n H eq_refl). apply g. exact Hn.
  - (* PFac *) destruct (nth_error (pClose s) k) as [[| | | |?|]|] eqn:H; try discriminate E. injection E as <-. destruct I as [a b c d e f g h q]; unfold slots in *.
    pose proof (countb_set ct _ _ _ CClose H) as Q1. pose proof (countb_set pre _ _ _ CClose H) as Q2. pose proof (countb_set drains _ _ _ CClose H) as Q3. cbn in Q1, Q2, Q3.
    pose proof (countb_pos pre _ _ _ H eq_refl) as Q4. assert (P : pPtr s = false) by (destruct (pPtr s); cbn in d; [lia|reflexivity]).
    constructor; unfold slots; cbn [pQ pQClosed pGet pClose pCap pPtr pFac setClose]; rewrite ?P in *; try assumption; try lia; try (intro X; discriminate X).
    + intros C D. apply f; [exact C|lia].
    + intros n Hn. apply (owned_close s k CFac CClose n H eq_refl). apply g. exact Hn.
  - (* PShut *) destruct (nth_error (pClose s) k) as [[| | | |?|]|] eqn:H; try discriminate E. injection E as <-. destruct I as [a b c d e f g h q]; unfold slots in *.
    pose proof (countb_set ct _ _ _ CDrain H) as Q1. pose proof (countb_set pre _ _ _ CDrain H) as Q2. pose proof (countb_set drains _ _ _ CDrain H) as Q3. cbn in Q1, Q2, Q3.
    pose proof (countb_pos pre _ _ _ H eq_refl) as Q4. assert (P : pPtr s = false) by (destruct (pPtr s); cbn in d; [lia|reflexivity]).
    assert (C : pQClosed s = false) by (destruct (pQClosed s); cbn in d; [lia|reflexivity]). rewrite P, C in *. cbn [b2n] in *.
    pose proof (countb_wt_le false (pGet s)) as W.
    constructor; unfold slots; cbn [pQ pQClosed pGet pClose pCap pPtr pFac setClose]; rewrite ?P in *; cbn [b2n]; try assumption; try lia; try (intro X; discriminate X).
    intros n Hn. apply (owned_close s k CClose CDrain n H eq_refl). apply g. exact Hn.
  - (* PDrain *) destruct (nth_error (pClose s) k) as [[| | | |?|]|] eqn:H; try discriminate E. pose proof I as J. destruct I as [a b c d e f g h q]; unfold slots in *.
    pose proof (countb_pos drains _ _ _ H eq_refl) as Q4. assert (C : pQClosed s = true) by (destruct (pQClosed s); cbn in e; [reflexivity|lia]). rewrite C in *. cbn [b2n] in *.
    assert (P : pPtr s = false) by (destruct (pPtr s); cbn in d; [lia|reflexivity]). rewrite P in *. cbn [b2n] in *.
    destruct (pQ s) as [|x r] eqn:Q; injection E as <-.
    + pose proof (countb_set ct _ _ _ CDone H) as Q1. pose proof (countb_set pre _ _ _ CDone H) as Q2. pose proof (countb_set drains _ _ _ CDone H) as Q3. cbn in Q1, Q2, Q3, a.
      constructor; unfold slots; cbn [pQ pQClosed pGet pClose pCap pPtr pFac setClose]; rewrite ?P, ?C, ?Q; cbn [b2n length]; try assumption; try lia; try (intro X; discriminate X); try reflexivity.
      intros n Hn. apply (owned_close s k CDrain CDone n H eq_refl). apply g. exact Hn.
    + pose proof (countb_set ct _ _ _ (CShut x) H) as Q1. pose proof (countb_set pre _ _ _ (CShut x) H) as Q2. pose proof (countb_set drains _ _ _ (CShut x) H) as Q3. cbn in Q1, Q2, Q3, a.
      constructor; unfold slots; cbn [pQ pQClosed pGet pClose pCap pPtr pFac setClose setQ]; rewrite ?P, ?C; cbn [b2n]; try assumption; try lia; try (intro X; discriminate X).
      intros n Hn. specialize (g n Hn). unfold owned in *. cbn. rewrite Q in g. cbn in g. rewrite <- app_assoc in g. apply in_app_or in g. destruct g as [Y|Y].
      * apply in_or_app; right; apply in_or_app; right. apply (flat_set_new cown _ k CDrain (CShut x) n H). destruct x; exact Y.
      * apply in_app_or in Y. destruct Y as [Y|Y]; [apply in_or_app; left; exact Y|]. apply in_app_or in Y. apply in_or_app; right; apply in_or_app. destruct Y as [Y|Y]; [left; exact Y|right].
        destruct (flat_set cown _ k CDrain (CShut x) n H Y) as [Z|Z]; [destruct Z|exact Z].
  - (* PShutOne *) destruct (nth_error (pClose s) k) as [[| | | |[x|]|]|] eqn:H; try discriminate E; injection E as <-; destruct I as [a b c d e f g h q]; unfold slots in *;
    pose proof (countb_pos drains _ _ _ H eq_refl) as Q4.
    + pose proof (countb_set ct _ _ _ CDrain H) as Q1. pose proof (countb_set pre _ _ _ CDrain H) as Q2. pose proof (countb_set drains _ _ _ CDrain H) as Q3. cbn in Q1, Q2, Q3.
      assert (C : pQClosed s = true) by (destruct (pQClosed s); cbn in e; [reflexivity|lia]). rewrite C in *. cbn [b2n] in *.
      assert (P : pPtr s = false) by (destruct (pPtr s); cbn in d; [lia|reflexivity]). rewrite P in *. cbn [b2n] in *.
      constructor; unfold slots; cbn [pQ pQClosed pGet pClose pCap pPtr pFac setClose setOpen]; rewrite ?P, ?C; cbn [b2n]; try assumption; try lia; try (intro X; discriminate X).
      intros n Hn. destruct (isOpen_set s _ x n Hn eq_refl) as [X N]. specialize (g n X). unfold owned in *. cbn. apply in_app_or in g. apply in_or_app. destruct g as [Y|Y]; [left; exact Y|right].
      apply in_app_or in Y. apply in_or_app. destruct Y as [Y|Y]; [left; exact Y|right]. destruct (flat_set cown _ k _ CDrain n H Y) as [Z|Z]; [|exact Z]. destruct Z as [<-|[]]. contradiction.
    + pose proof (countb_set ct _ _ _ CDrain H) as Q1. pose proof (countb_set pre _ _ _ CDrain H) as Q2. pose proof (countb_set drains _ _ _ CDrain H) as Q3. cbn in Q1, Q2, Q3.
      assert (C : pQClosed s = true) by (destruct (pQClosed s); cbn in e; [reflexivity|lia]). rewrite C in *. cbn [b2n] in *.
      assert (P : pPtr s = false) by (destruct (pPtr s); cbn in d; [lia|reflexivity]). rewrite P in *. cbn [b2n] in *.
      constructor; unfold slots; cbn [pQ pQClosed pGet pClose pCap pPtr pFac setClose setOpen]; rewrite ?P, ?C; cbn [b2n]; try assumption; try lia; try (intro X; discriminate X).
      intros n Hn. apply (owned_close s k (CShut None) CDrain n H eq_refl). apply g. exact Hn.
  - (* PBreak *) destruct (isOpen s c) eqn:O; [|discriminate E]. injection E as <-. destruct I as [a b c' d e f g h q]. constructor; try assumption.
    intros n Hn. destruct (isOpen_set s _ c n Hn eq_refl) as [X _]. exact (g n X).
Qed.

(* ---- the pool NewChannelPool builds ---- *)
Lemma fillPool_spec n conns b : fillPool n conns b = (if forallb (fun x => x) (firstn n conns) && (n <=? length conns) then (b + n, true) else
  (fst (fillPool n conns b), false)).
Proof.
  revert conns b. induction n as [|n IH]; intros conns b; [cbn; rewrite Nat.add_0_r; reflexivity|]. destruct conns as [|[|] r]; cbn [fillPool firstn forallb length andb]; try reflexivity.
  rewrite (IH r (S b)). change (S n <=? S (length r)) with (n <=? length r). destruct (forallb (fun x => x) (firstn n r) && (n <=? length r)); [|reflexivity]. f_equal. lia.
Qed.
Lemma countb_repeat_true n : countb (fun b : bool => b) (repeat true n) = n.
Proof. induction n; [reflexivity|]. cbn [repeat]. rewrite countb_cons, IHn. reflexivity. Qed.
Lemma flat_some l : flat_map qown (map Some l) = l.
Proof. induction l; [reflexivity|]. cbn. rewrite IHl. reflexivity. Qed.
Lemma new_pinv cap lz conns s opens : newPool cap lz conns = (Some s, opens) -> pinv s.
Proof.
  unfold newPool. destruct (Z.leb_spec cap 0) as [L|L]; [intro X; discriminate X|]. destruct lz.
  - intro E. injection E as <- _. constructor; cbn; try reflexivity; try lia; try (intro X; discriminate X); unfold slots; cbn; rewrite ?repeat_length; try lia.
    + intros _ i c H. destruct i; discriminate H.
    + unfold isOpen. cbn. intros c H. destruct c; discriminate H.
  - destruct (fillPool (Z.to_nat cap) conns 0) as [b ok] eqn:F. destruct ok; [|intro X; discriminate X]. intro E. injection E as <- _.
    rewrite fillPool_spec in F. destruct (_ && _); [|discriminate F]. injection F as <-. cbn [plus].
    constructor; cbn; try reflexivity; try lia; try (intro X; discriminate X); unfold slots; cbn; rewrite ?map_length, ?seq_length; try lia.
    + intros _ i c H. destruct i; discriminate H.
    + unfold isOpen, owned. cbn. intros c H. rewrite app_nil_r, flat_some. apply in_seq.
      destruct (Nat.lt_ge_cases c (Z.to_nat cap)) as [C|C]; [lia|]. rewrite nth_overflow in H; [discriminate H|]. rewrite repeat_length. exact C.
Qed.
Lemma reach_pinv s0 ops s : preach s0 ops s -> pinv s.
Proof.
  intros ((cap & lz & conns & opens & N) & E). revert s E. induction ops as [|o l IH] using rev_ind; intros s E.
  - injection E as <-. exact (new_pinv _ _ _ _ _ N).
  - apply pruns_snoc in E. destruct E as (s1 & E1 & E2). exact (pinv_step s1 o s E2 (IH s1 E1)).
Qed.

(* ---- bound on live channels ---- *)
Definition opens (s : pool) : list nat := filter (isOpen s) (seq 0 (length (pOpen s))).
Lemma opens_count (l : list bool) : length (filter (fun c => nth c l false) (seq 0 (length l))) = countb (fun b => b) l.
Proof.
  induction l as [|b l IH] using rev_ind; [reflexivity|]. rewrite app_length, Nat.add_1_r, seq_S, filter_app, app_length, countb_app. cbn [plus].
  f_equal.
  - rewrite <- IH. f_equal. apply filter_ext_in. intros c Hc. apply in_seq in Hc. rewrite app_nth1 by lia. reflexivity.
  - cbn. rewrite app_nth2, Nat.sub_diag by lia. cbn. unfold countb. cbn. destruct b; reflexivity.
Qed.
Lemma flat_gown_le b l : length (flat_map gown l) <= countb (wt b) l.
Proof. induction l as [|g l IH]; [reflexivity|]. cbn [flat_map]. rewrite app_length, countb_cons. destruct g as [| | |[c|]| | | |]; cbn; lia. Qed.
Lemma flat_cown_le l : length (flat_map cown l) <= countb ct l.
Proof. induction l as [|g l IH]; [reflexivity|]. cbn [flat_map]. rewrite app_length, countb_cons. destruct g as [| | | |[c|]|]; cbn; lia. Qed.
Lemma flat_qown_le l : length (flat_map qown l) <= length l.
Proof. induction l as [|[c|] l IH]; cbn; try reflexivity; lia. Qed.
Lemma live_bound s : pinv s -> liveChannels s <= pCap s.
Proof.
  intro I. unfold liveChannels. rewrite <- opens_count. fold (opens s).
  assert (X : length (opens s) <= length (owned s)).
  { apply NoDup_incl_length; [apply NoDup_filter, seq_NoDup|]. intros c Hc. apply filter_In in Hc. exact (pv_own s I c (proj2 Hc)). }
  unfold opens in X. unfold owned in X. rewrite !app_length in X. pose proof (flat_gown_le (pQClosed s) (pGet s)). pose proof (flat_cown_le (pClose s)). pose proof (flat_qown_le (pQ s)).
  pose proof (pv_slots s I) as Y. unfold slots in Y. unfold isOpen in X. lia.
Qed.

(* ---- what Get returns was open while it ran ---- *)
Definition carries (g : gpc) (c : nat) : Prop := g = GPut (Some c) \/ g = GErr c \/ g = GOk c.
Lemma carries_open s0 ops s i g c : pruns s0 ops = Some s -> pGet s0 = [] -> nth_error (pGet s) i = Some g -> carries g c ->
  exists p q s1 g1, ops = p ++ q /\ pruns s0 p = Some s1 /\ nth_error (pGet s1) i = Some g1 /\ inProgress g1 = true /\ isOpen s1 c = true.
Proof.
  intros E Z. revert s g E. induction ops as [|o l IH] using rev_ind; intros s g E H C.
  - injection E as <-. rewrite Z in H. destruct i; discriminate H.
  - pose proof E as E0. apply pruns_snoc in E. destruct E as (s1 & E1 & E2).
    assert (K : forall g', nth_error (pGet s1) i = Some g' -> carries g' c -> exists p q s2 g1, l ++ [o] = p ++ q /\ pruns s0 p = Some s2 /\ nth_error (pGet s2) i = Some g1 /\ inProgress g1 = true /\ isOpen s2 c = true).
    { intros g' H' C'. destruct (IH s1 g' E1 H' C') as (p & q & s2 & g1 & -> & R). exists p, (q ++ [o]), s2, g1. split; [rewrite app_assoc; reflexivity|exact R]. }
    assert (S : forall v j g0, nth_error (pGet s1) j = Some g0 -> pGet s = list_set (pGet s1) j v -> (j = i -> carries v c -> (carries g0 c) \/ (isOpen s c = true /\ inProgress v = true)) ->
      exists p q s2 g1, l ++ [o] = p ++ q /\ pruns s0 p = Some s2 /\ nth_error (pGet s2) i = Some g1 /\ inProgress g1 = true /\ isOpen s2 c = true).
    { intros v j g0 Hj Es F. rewrite Es, (nth_set _ _ _ _ _ Hj) in H. destruct (Nat.eqb_spec i j) as [->|N].
      - injection H as ->. destruct (F eq_refl C) as [X|[X Y]]; [exact (K g0 Hj X)|].
        exists (l ++ [o]), [], s, g. split; [rewrite app_nil_r; reflexivity|]. split; [exact E0|]. split; [rewrite Es, (nth_set _ _ _ _ _ Hj), Nat.eqb_refl; reflexivity|]. split; assumption.
      - exact (K g H C). }
    destruct o; cbn [pstep] in E2.
    + injection E2 as <-. cbn in H. destruct (nth_snoc_inv _ _ _ _ H) as [[_ X]|[_ X]]; [exact (K g X C)|]. subst g. destruct C as [X|[X|X]]; discriminate X.
    + injection E2 as <-. exact (K g H C).
    + destr E2. injection E2 as <-. apply (S (if pPtr s1 then GRecv else GFail) i0 GRead E); [reflexivity|]. intros _ [X|[X|X]]; destruct (pPtr s1); discriminate X.
    + destr E2; injection E2 as <-.
      * apply (S (GPut None) i0 GRecv E); [reflexivity|]. intros _ [X|[X|X]]; discriminate X.
      * apply (S (if isOpen s1 n then GPut (Some n) else GMake) i0 GRecv E); [reflexivity|]. intros _ X. right. destruct (isOpen s1 n) eqn:O.
        -- destruct X as [X|[X|X]]; try discriminate X. injection X as ->. split; [exact O|reflexivity].
        -- destruct X as [X|[X|X]]; discriminate X.
      * apply (S GMake i0 GRecv E); [reflexivity|]. intros _ [X|[X|X]]; discriminate X.
    + destr E2; injection E2 as <-.
      * apply (S (GPut (Some (length (pOpen s1)))) i0 GMake E); [reflexivity|]. intros _ [X|[X|X]]; try discriminate X. injection X as <-. right. split; [|reflexivity].
        unfold isOpen. cbn. rewrite app_nth2, Nat.sub_diag by lia. reflexivity.
      * apply (S (GPut None) i0 GMake E); [reflexivity|]. intros _ [X|[X|X]]; discriminate X.
      * apply (S GPanic i0 GMake E); [reflexivity|]. intros _ [X|[X|X]]; discriminate X.
    + destr E2; injection E2 as <-.
      * apply (S (match c0 with Some n => GErr n | None => GFail end) i0 (GPut c0) E); [reflexivity|]. intros _ X. left. left. destruct c0; destruct X as [X|[X|X]]; try discriminate X. injection X as ->. reflexivity.
      * apply (S (match c0 with Some n => GOk n | None => GFail end) i0 (GPut c0) E); [reflexivity|]. intros _ X. left. left. destruct c0; destruct X as [X|[X|X]]; try discriminate X. injection X as ->. reflexivity.
    + destr E2; injection E2 as <-. apply (S (GOk c0) i0 (GErr c0) E); [reflexivity|]. intros _ [X|[X|X]]; try discriminate X. injection X as ->. left. right. left. reflexivity.
    + destr E2; injection E2 as <-; exact (K g H C).
    + destr E2; injection E2 as <-; exact (K g H C).
    + destr E2; injection E2 as <-; exact (K g H C).
    + destr E2; injection E2 as <-; exact (K g H C).
    + destr E2; injection E2 as <-; exact (K g H C).
    + destr E2; injection E2 as <-; exact (K g H C).
Qed.

(* ---- Get after Close ---- *)
Lemma ptr_stays s ops s' : pruns s ops = Some s' -> pPtr s = false -> pPtr s' = false.
Proof.
  revert s. induction ops as [|o l IH]; intros s E P; cbn in E; [injection E as <-; exact P|].
  destruct (pstep s o) as [s1|] eqn:E1; [|discriminate E]. apply (IH s1 E). destruct o; cbn [pstep] in E1; destr E1; injection E1 as <-; cbn; try exact P; try reflexivity; congruence.
Qed.
Lemma get_closed s ops s' i g : pruns s ops = Some s' -> pPtr s = false -> nth_error (pGet s) i = Some g -> (g = GRead \/ g = GFail) ->
  exists g', nth_error (pGet s') i = Some g' /\ (g' = GRead \/ g' = GFail).
Proof.
  revert s g. induction ops as [|o l IH]; intros s g E P H C; cbn in E; [injection E as <-; exists g; split; assumption|].
  destruct (pstep s o) as [s1|] eqn:E1; [|discriminate E]. pose proof (ptr_stays s [o] s1) as P1. cbn in P1. rewrite E1 in P1. specialize (P1 eq_refl P).
  assert (X : exists g', nth_error (pGet s1) i = Some g' /\ (g' = GRead \/ g' = GFail)).
  { assert (S : forall v j g0, nth_error (pGet s) j = Some g0 -> pGet s1 = list_set (pGet s) j v -> (g0 = GRead \/ g0 = GFail -> v = GRead \/ v = GFail) -> exists g', nth_error (pGet s1) i = Some g' /\ (g' = GRead \/ g' = GFail)).
    { intros v j g0 Hj Es F. rewrite Es, (nth_set _ _ _ _ _ Hj). destruct (Nat.eqb_spec i j) as [->|N]; [|exists g; split; assumption]. exists v. split; [reflexivity|]. apply F. congruence. }
    assert (K : forall j g0 v, nth_error (pGet s) j = Some g0 -> pGet s1 = list_set (pGet s) j v -> g0 <> GRead -> g0 <> GFail -> exists g', nth_error (pGet s1) i = Some g' /\ (g' = GRead \/ g' = GFail)).
    { intros j g0 v Hj Es N1 N2. apply (S v j g0 Hj Es). intros [->| ->]; contradiction. }
    destruct o; cbn [pstep] in E1; destr E1; injection E1 as <-; try (exists g; split; assumption);
      try (match goal with E : nth_error (pGet s) ?j = Some ?g0 |- _ => eapply (K j g0); [exact E|reflexivity|discriminate|discriminate] end).
    - exists g. split; [|exact C]. cbn. rewrite nth_error_app1; [exact H|]. apply nth_error_Some. congruence.
    - apply (S (if pPtr s then GRecv else GFail) i0 GRead E0); [reflexivity|]. intros _. rewrite P. right. reflexivity. }
  destruct X as (g' & H' & C'). exact (IH s1 g' E P1 H' C').
Qed.

(* ---- no leak ---- *)
Lemma closed_all s : pinv s -> pPtr s = false -> (forall k c, nth_error (pClose s) k = Some c -> c = CDone \/ c = CStart) -> (forall i g, nth_error (pGet s) i = Some g -> holds g = false /\ forall c, g <> GErr c) ->
  forall c, isOpen s c = false.
Proof.
  intros I P K G c. destruct (isOpen s c) eqn:O; [|reflexivity]. exfalso. pose proof (pv_own s I c O) as W.
  assert (Z : forall p, p CDone = false -> p CStart = false -> countb p (pClose s) = 0).
  { intros p p1 p2. destruct (countb p (pClose s)) eqn:N; [reflexivity|]. destruct (countb_ex p (pClose s) ltac:(lia)) as (k & x & Hk & Px). destruct (K k x Hk) as [->| ->]; congruence. }
  pose proof (pv_once s I) as D. rewrite (Z pre eq_refl eq_refl), P in D. cbn in D. assert (C : pQClosed s = true) by (destruct (pQClosed s); [reflexivity|cbn in D; lia]).
  pose proof (pv_empty s I C (Z drains eq_refl eq_refl)) as Q. unfold owned in W. rewrite Q in W. cbn in W. apply in_app_or in W. destruct W as [W|W]; apply in_flat_map in W; destruct W as (x & Hx & Hc); apply In_nth_error in Hx; destruct Hx as [j Hj].
  - destruct (G j x Hj) as [X Y]. destruct x as [| | |[n|]|n| | |]; cbn in Hc; try contradiction; [discriminate X|exact (Y n eq_refl)].
  - destruct (K j x Hj) as [->| ->]; destruct Hc.
Qed.
Lemma nth_in_range {A} (l : list A) i a : nth_error l i = Some a -> i < length l.
Proof. intro H. apply nth_error_Some. congruence. Qed.
