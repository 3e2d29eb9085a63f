(* GrpProofs.v *)
From Coq Require Import Lia Permutation.
From Verif Require Import Base GoStrings GoStrings2 UrlModel GrpModel GrpSpec EpProofs.
Ltac Zify.zify_post_hook ::= idtac.

Lemma replace_with : forall g v x, contains g idcHolder = true -> (with_idc g v x <-> x = replaceIdc g v).
Proof.
  intros g v x C. unfold contains in C. destruct (indexOf g idcHolder) as [i|] eqn:E; [|discriminate].
  destruct (indexOf_Some _ _ _ E) as (a & b & Hg & Hi & Hm). unfold replaceIdc. rewrite E. subst i.
  assert (R : firstn (length a) g ++ v ++ skipn (length a + length idcHolder) g = a ++ v ++ b).
  { rewrite Hg. rewrite firstn_app_exact. rewrite <- skipn_skipn'. rewrite skipn_app_exact, skipn_app_exact. reflexivity. }
  rewrite R. split.
  - intros (a2 & b2 & Hg2 & Hmin & ->). assert (L : length a = length a2).
    { apply Nat.le_antisymm; [apply (Hm a2 b2 Hg2)|apply (Hmin a b Hg)]. }
    assert (a = a2 /\ b = b2) as [-> ->]; [|reflexivity].
    assert (A : a = a2).
    { rewrite <- (firstn_app_exact a (idcHolder ++ b)), <- Hg, L, Hg2. apply firstn_app_exact. }
    subst a2. split; [reflexivity|]. rewrite Hg in Hg2. apply app_inv_head in Hg2. apply app_inv_head in Hg2. exact Hg2.
  - intros ->. exists a, b. split; [exact Hg|]. split; [exact Hm|reflexivity].
Qed.
Lemma contains_has : forall g, contains g idcHolder = true <-> exists v x, with_idc g v x.
Proof.
  intros g. split.
  - intros C. exists [], (replaceIdc g []). apply replace_with; auto.
  - intros (v & x & a & b & H & _). apply contains_spec. exists a, b. exact H.
Qed.

Definition use (r : regv) (x : bs) : bool := match rv_groups r with None => hasNodes r x | Some gs => existsb (bs_eqb x) gs && hasNodes r x end.
Lemma hasNodes_spec : forall r x, hasNodes r x = true <-> rv_nodes r x <> [].
Proof. intros r x. unfold hasNodes. destruct (rv_nodes r x); split; intros; congruence. Qed.
Lemma existsb_bs : forall x l, existsb (bs_eqb x) l = true <-> In x l.
Proof.
  intros x l. rewrite existsb_exists. split.
  - intros (y & H & E). apply bs_eqb_spec in E. subst y. exact H.
  - intros H. exists x. split; [exact H|apply bs_eqb_refl].
Qed.
Lemma use_spec : forall r x, use r x = true <-> usable r x.
Proof.
  intros r x. unfold use, usable. destruct (rv_groups r) as [gs|].
  - rewrite andb_true_iff, existsb_bs, hasNodes_spec. split; intros [A B]; split; auto. intros gs' H. injection H as <-. exact A.
  - rewrite hasNodes_spec. split; [intros B; split; [discriminate|exact B]|intros [_ B]; exact B].
Qed.

Lemma find_pre : forall (p : bs -> bool) lo up idc g, idc <> [] ->
  find p (preGroups lo up idc g) =
    (if p (replaceIdc g idc) then Some (replaceIdc g idc) else if p (replaceIdc g (lo idc)) then Some (replaceIdc g (lo idc))
     else if p (replaceIdc g (up idc)) then Some (replaceIdc g (up idc)) else None).
Proof.
  intros p lo up idc g H. unfold preGroups. rewrite (proj2 (bs_eqb_neq idc [])) by exact H.
  set (a := replaceIdc g idc). set (b := replaceIdc g (lo idc)). set (c := replaceIdc g (up idc)).
  unfold addGroup at 2. cbn [existsb]. rewrite orb_false_r. destruct (bs_eqb b a) eqn:Eb.
  - apply bs_eqb_spec in Eb. rewrite Eb. unfold addGroup. cbn [existsb]. rewrite orb_false_r. destruct (bs_eqb c a) eqn:Ec.
    + apply bs_eqb_spec in Ec. rewrite Ec. cbn [find]. destruct (p a); reflexivity.
    + cbn [app find]. destruct (p a); [reflexivity|]. destruct (p c); reflexivity.
  - unfold addGroup. cbn [app existsb]. rewrite orb_false_r. destruct (bs_eqb c a) eqn:Ec; cbn [orb].
    + apply bs_eqb_spec in Ec. rewrite Ec. cbn [find]. destruct (p a); [reflexivity|]. destruct (p b); reflexivity.
    + destruct (bs_eqb c b) eqn:Ecb.
      * apply bs_eqb_spec in Ecb. rewrite Ecb. cbn [find]. destruct (p a); [reflexivity|]. destruct (p b); reflexivity.
      * cbn [app find]. destruct (p a); [reflexivity|]. destruct (p b); [reflexivity|]. destruct (p c); reflexivity.
Qed.

(* one shape for both kinds of registry *)
Lemma sub_shape : forall lo up rx idc r o1 o2 g, contains g idcHolder = true ->
  subscribeGroup lo up rx idc r o1 o2 g =
    match find (use r) (preGroups lo up idc g) with
    | Some x => x
    | None => match rv_groups r with None => g | Some groups =>
        match rx (s2b "^" ++ replaceIdc g (s2b "(.*)") ++ s2b "$") with
        | None => g
        | Some mt => let matched := filter mt groups in if existsb (hasNodes r) matched then bestGroup o1 o2 else match matched with [] => g | _ => last matched [] end
        end end
    end.
Proof.
  intros lo up rx idc r o1 o2 g C. unfold subscribeGroup. rewrite C. cbn [negb]. unfold use. destruct (rv_groups r) as [gs|]; reflexivity.
Qed.
Lemma sub_plain : forall lo up rx idc r o1 o2 g, (forall a b, g <> a ++ s2b "${idc}" ++ b) -> subscribeGroup lo up rx idc r o1 o2 g = g.
Proof.
  intros lo up rx idc r o1 o2 g H. unfold subscribeGroup. destruct (contains g idcHolder) eqn:C; [|reflexivity]. apply contains_spec in C. destruct C as (a & b & E). exfalso. exact (H a b E).
Qed.
Lemma sub_exact : forall lo up rx idc r o1 o2 g o l u, idc <> [] -> with_idc g idc o -> with_idc g (lo idc) l -> with_idc g (up idc) u ->
  let res := subscribeGroup lo up rx idc r o1 o2 g in
  (usable r o -> res = o) /\ (~ usable r o -> usable r l -> res = l) /\ (~ usable r o -> ~ usable r l -> usable r u -> res = u).
Proof.
  intros lo up rx idc r o1 o2 g o l u Hi Ho Hl Hu res.
  assert (C : contains g idcHolder = true) by (apply contains_has; exists idc, o; exact Ho).
  apply (replace_with g idc o C) in Ho. apply (replace_with g _ _ C) in Hl. apply (replace_with g _ _ C) in Hu.
  unfold res. rewrite (sub_shape _ _ _ _ _ _ _ _ C). rewrite (find_pre _ _ _ _ _ Hi). rewrite <- Ho, <- Hl, <- Hu.
  split; [intros H; apply use_spec in H; rewrite H; reflexivity|]. split.
  - intros N H. apply use_spec in H. destruct (use r o) eqn:E; [apply use_spec in E; contradiction|]. rewrite H. reflexivity.
  - intros N1 N2 H. apply use_spec in H. destruct (use r o) eqn:E; [apply use_spec in E; contradiction|].
    destruct (use r l) eqn:E2; [apply use_spec in E2; contradiction|]. rewrite H. reflexivity.
Qed.
Lemma no_exact_find : forall lo up idc r g, contains g idcHolder = true -> no_exact lo up idc r g -> find (use r) (preGroups lo up idc g) = None.
Proof.
  intros lo up idc r g C [->|H]; [reflexivity|]. destruct (bs_eqb idc []) eqn:E; [unfold preGroups; rewrite E; reflexivity|].
  apply bs_eqb_neq in E. rewrite (find_pre _ _ _ _ _ E).
  assert (N : forall v, In v [idc; lo idc; up idc] -> use r (replaceIdc g v) = false).
  { intros v Hv. destruct (use r (replaceIdc g v)) eqn:U; [|reflexivity]. apply use_spec in U. exfalso. apply (H v (replaceIdc g v) Hv); [|exact U]. apply replace_with; auto. }
  rewrite !N; cbn [In]; auto.
Qed.

(* ---- the best group *)
Lemma pick_min : forall l t0 g0, (0 <= t0)%Z -> (forall g t, In (g, t) l -> (0 < t)%Z) ->
  let r := fold_left (fun (acc : Z * bs) (e : bs * Z) => if (fst acc =? 0)%Z || (snd e <? fst acc)%Z then (snd e, fst e) else acc) l (t0, g0) in
  (r = (t0, g0) \/ In (snd r, fst r) l) /\ (forall g t, In (g, t) l -> (0 < fst r <= t)%Z) /\ ((0 < t0)%Z -> (0 < fst r <= t0)%Z).
Proof.
  induction l as [|[g t] l IH]; intros t0 g0 H0 Hp; cbv zeta.
  - cbn [fold_left]. split; [left; reflexivity|]. split; [intros ? ? []|cbn [fst]; lia].
  - cbn [fold_left fst snd]. assert (Hpos : (0 < t)%Z) by (apply (Hp g t); left; reflexivity).
    assert (Hrest : forall g' t', In (g', t') l -> (0 < t')%Z) by (intros g' t' Hin; apply (Hp g' t'); right; exact Hin).
    destruct ((t0 =? 0)%Z || (t <? t0)%Z) eqn:B.
    + destruct (IH t g ltac:(lia) Hrest) as (A & M & Q). cbv zeta in *.
      set (r := fold_left _ l (t, g)) in *. split; [right; destruct A as [A|A]; [rewrite A; left; reflexivity|right; exact A]|].
      specialize (Q Hpos). split.
      * intros g' t' [E|Hin]; [injection E as <- <-; lia|apply (M g' t' Hin)].
      * intros Ht0. apply orb_true_iff in B. destruct B as [B|B]; [apply Z.eqb_eq in B; lia|apply Z.ltb_lt in B; lia].
    + apply orb_false_iff in B. destruct B as [B1 B2]. apply Z.eqb_neq in B1. apply Z.ltb_ge in B2.
      destruct (IH t0 g0 H0 Hrest) as (A & M & Q). cbv zeta in *. set (r := fold_left _ l (t0, g0)) in *.
      specialize (Q ltac:(lia)). split; [destruct A as [A|A]; [left; exact A|right; right; exact A]|]. split.
      * intros g' t' [E|Hin]; [injection E as <- <-; lia|apply (M g' t' Hin)].
      * intros _. exact Q.
Qed.
Lemma measured_in : forall ping order g t, In (g, t) (measured ping order) <-> In g order /\ rttOf ping g = Some t.
Proof.
  intros ping order g t. unfold measured. rewrite in_flat_map. split.
  - intros (x & H & E). destruct (rttOf ping x) as [t'|] eqn:R; [|destruct E]. destruct E as [E|[]]. injection E as -> ->. auto.
  - intros [H R]. exists g. rewrite R. split; [exact H|left; reflexivity].
Qed.
Lemma last_in : forall {A} (l : list A) d, l <> [] -> In (last l d) l.
Proof.
  induction l as [|x l IH]; intros d H; [congruence|]. destruct l as [|y l]; [left; reflexivity|]. right. change (last (x :: y :: l) d) with (last (y :: l) d). apply IH. discriminate.
Qed.
Lemma best_spec : forall ping order o2, order <> [] -> Permutation o2 (measured ping order) -> ~ In [] order -> (forall g t, In g order -> rttOf ping g = Some t -> (0 < t)%Z) ->
  In (bestGroup order o2) order /\
  (forall g t, In g order -> rttOf ping g = Some t -> exists t', rttOf ping (bestGroup order o2) = Some t' /\ (t' <= t)%Z).
Proof.
  intros ping order o2 Hne P Hn Hp. unfold bestGroup.
  assert (Hpos : forall g t, In (g, t) o2 -> (0 < t)%Z).
  { intros g t H. apply (Permutation_in _ P) in H. apply measured_in in H. destruct H as [A B]. exact (Hp g t A B). }
  pose proof (pick_min o2 0%Z [] ltac:(lia) Hpos) as PM. cbv zeta in PM.
  match type of PM with (?x = _ \/ _) /\ _ => assert (Er : pickGroup o2 = snd x) by reflexivity; set (r := x) in *; clearbody r end.
  rewrite Er. destruct PM as (A & M & _).
  destruct A as [A|A].
  - rewrite A. cbn [snd]. rewrite bs_eqb_refl. split; [apply last_in; exact Hne|].
    intros g t Hg Ht. exfalso. assert (H : In (g, t) o2) by (apply (Permutation_in _ (Permutation_sym P)); apply measured_in; auto).
    specialize (M g t H). rewrite A in M. cbn [fst] in M. lia.
  - pose proof (Permutation_in _ P A) as B. apply measured_in in B. destruct B as [B1 B2].
    assert (N : bs_eqb (snd r) [] = false) by (apply bs_eqb_neq; intros E; rewrite E in B1; contradiction). rewrite N.
    split; [exact B1|]. intros g t Hg Ht. exists (fst r). split; [exact B2|].
    assert (H : In (g, t) o2) by (apply (Permutation_in _ (Permutation_sym P)); apply measured_in; auto). specialize (M g t H). lia.
Qed.
Lemma the_last_filter : forall (mt : bs -> bool) gs, filter mt gs <> [] -> the_last gs (fun x => mt x = true) (last (filter mt gs) []).
Proof.
  intros mt gs. induction gs as [|g gs IH] using rev_ind; intros H; [exfalso; apply H; reflexivity|]. rewrite filter_app in *. cbn [filter] in *. destruct (mt g) eqn:E.
  - rewrite last_last. exists gs, []. split; [reflexivity|]. split; [exact E|intros y []].
  - rewrite app_nil_r in *. destruct (IH H) as (a & b & Hg & Hx & Hb). exists a, (b ++ [g]). split; [rewrite Hg at 1; rewrite <- app_assoc; reflexivity|]. split; [exact Hx|].
    intros y Hy. apply in_app_iff in Hy. destruct Hy as [Hy|[<-|[]]]; [apply Hb; exact Hy|congruence].
Qed.

(* without an exact candidate *)
Lemma sub_rest : forall lo up rx ping idc r order o2 g a b, g = a ++ s2b "${idc}" ++ b -> no_exact lo up idc r g ->
  let res := subscribeGroup lo up rx idc r order o2 g in
  match rv_groups r with
  | None => res = g
  | Some gs =>
      forall p, with_idc g (s2b "(.*)") p ->
      match rx (s2b "^" ++ p ++ s2b "$") with
      | None => res = g
      | Some mt =>
          let good x := In x gs /\ mt x = true /\ rv_nodes r x <> [] in
          ((exists x, good x) -> (forall x, In x order <-> good x) -> Permutation o2 (measured ping order) -> ~ In [] gs ->
             (forall x t, good x -> rttOf ping x = Some t -> (0 < t)%Z) ->
             good res /\ forall x t, good x -> rttOf ping x = Some t -> exists t', rttOf ping res = Some t' /\ (t' <= t)%Z)
          /\ ((forall x, ~ good x) -> (exists x, In x gs /\ mt x = true) -> the_last gs (fun x => mt x = true) res)
          /\ ((forall x, In x gs -> mt x = false) -> res = g)
      end
  end.
Proof.
  intros lo up rx ping idc r order o2 g a b Hg NE res.
  assert (C : contains g idcHolder = true) by (apply contains_spec; exists a, b; exact Hg).
  unfold res. rewrite (sub_shape _ _ _ _ _ _ _ _ C), (no_exact_find _ _ _ _ _ C NE).
  destruct (rv_groups r) as [gs|]; [|reflexivity]. intros p Hp. apply (replace_with _ _ _ C) in Hp. rewrite <- Hp.
  destruct (rx (s2b "^" ++ p ++ s2b "$")) as [mt|]; [|reflexivity].
  cbv zeta. assert (X : existsb (hasNodes r) (filter mt gs) = true <-> exists x, In x gs /\ mt x = true /\ rv_nodes r x <> []).
  { rewrite existsb_exists. split; intros (x & H1 & H2); exists x.
    - apply filter_In in H1. apply hasNodes_spec in H2. tauto.
    - destruct H2 as [H2 H3]. apply hasNodes_spec in H3. split; [apply filter_In; auto|exact H3]. }
  split; [|split].
  - intros Hex Ho P Hn Hpos. rewrite (proj2 X Hex).
    assert (One : order <> []). { destruct Hex as (x & Hx). apply Ho in Hx. intros E. rewrite E in Hx. destruct Hx. }
    destruct (best_spec ping order o2 One P) as [B1 B2].
    + intros H. apply Ho in H. apply Hn. exact (proj1 H).
    + intros x t Hx. apply Hpos. apply Ho. exact Hx.
    + split; [apply Ho; exact B1|]. intros x t Hx. apply B2. apply Ho. exact Hx.
  - intros Hno (x & Hx & Hm). destruct (existsb (hasNodes r) (filter mt gs)) eqn:E; [destruct (proj1 X eq_refl) as (y & Hy); exfalso; exact (Hno y Hy)|].
    assert (F : filter mt gs <> []). { intros F. assert (In x (filter mt gs)) by (apply filter_In; auto). rewrite F in H. destruct H. }
    pose proof (the_last_filter mt gs F) as T. destruct (filter mt gs); [congruence|exact T].
  - intros Hno. assert (F : filter mt gs = []). { destruct (filter mt gs) as [|y l] eqn:F; [reflexivity|]. assert (H : In y (filter mt gs)) by (rewrite F; left; reflexivity). apply filter_In in H. destruct H as [H1 H2]. rewrite (Hno y H1) in H2. discriminate. }
    rewrite F. reflexivity.
Qed.

(* ---- the mean *)
Lemma fold_min : forall l m0, let mn := fold_left (fun m r => if (r <? m)%Z then r else m) l m0 in (mn = m0 \/ In mn l) /\ (mn <= m0)%Z /\ (forall x, In x l -> (mn <= x)%Z).
Proof.
  induction l as [|y l IH]; intros m0; cbv zeta; cbn [fold_left]; [split; [left; reflexivity|]; split; [lia|intros ? []]|].
  destruct (y <? m0)%Z eqn:E; [apply Z.ltb_lt in E|apply Z.ltb_ge in E].
  - destruct (IH y) as (A & B & D). cbv zeta in *. set (mn := fold_left _ l y) in *. split; [right; destruct A as [->|A]; [left; reflexivity|right; exact A]|]. split; [lia|].
    intros x [<-|Hx]; [exact B|apply D; exact Hx].
  - destruct (IH m0) as (A & B & D). cbv zeta in *. set (mn := fold_left _ l m0) in *. split; [destruct A as [->|A]; [left; reflexivity|right; right; exact A]|]. split; [exact B|].
    intros x [<-|Hx]; [lia|apply D; exact Hx].
Qed.
Lemma fold_max : forall l m0, let mx := fold_left (fun m r => if (m <? r)%Z then r else m) l m0 in (mx = m0 \/ In mx l) /\ (m0 <= mx)%Z /\ (forall x, In x l -> (x <= mx)%Z).
Proof.
  induction l as [|y l IH]; intros m0; cbv zeta; cbn [fold_left]; [split; [left; reflexivity|]; split; [lia|intros ? []]|].
  destruct (m0 <? y)%Z eqn:E; [apply Z.ltb_lt in E|apply Z.ltb_ge in E].
  - destruct (IH y) as (A & B & D). cbv zeta in *. set (mx := fold_left _ l y) in *. split; [right; destruct A as [->|A]; [left; reflexivity|right; exact A]|]. split; [lia|].
    intros x [<-|Hx]; [exact B|apply D; exact Hx].
  - destruct (IH m0) as (A & B & D). cbv zeta in *. set (mx := fold_left _ l m0) in *. split; [destruct A as [->|A]; [left; reflexivity|right; right; exact A]|]. split; [exact B|].
    intros x [<-|Hx]; [lia|apply D; exact Hx].
Qed.
Lemma sum_perm : forall a b, Permutation a b -> sumL a = sumL b.
Proof. intros a b P. unfold sumL. induction P; cbn [fold_right]; lia. Qed.
Lemma sum_nonneg : forall l, (forall x, In x l -> (0 <= x)%Z) -> (0 <= sumL l)%Z.
Proof. induction l as [|x l IH]; intros H; unfold sumL; cbn [fold_right]; [lia|]. specialize (IH (fun y Hy => H y (or_intror Hy))). pose proof (H x (or_introl eq_refl)). unfold sumL in IH. lia. Qed.
Lemma fold_total : forall l t0, (0 <= t0)%Z -> (forall x, In x l -> (0 <= x)%Z) -> (t0 + sumL l < 2 ^ 63)%Z ->
  fold_left (fun t r => wrapI64 (t + r)) l t0 = (t0 + sumL l)%Z.
Proof.
  induction l as [|x l IH]; intros t0 H0 Hp Hb; [cbn; lia|]. cbn [fold_left]. 
  assert (Hx : (0 <= x)%Z) by (apply Hp; left; reflexivity). assert (Hs : (0 <= sumL l)%Z) by (apply sum_nonneg; intros y Hy; apply Hp; right; exact Hy).
  assert (E : sumL (x :: l) = (x + sumL l)%Z) by reflexivity. rewrite E in *.
  rewrite wrapI64_id by lia. rewrite IH; [lia|lia| |lia]. intros y Hy. apply Hp. right. exact Hy.
Qed.
Lemma mean_spec : forall l, 3 <= length l -> (forall x, In x l -> (0 <= x)%Z) -> (sumL l < 2 ^ 63)%Z -> trimmed_mean l (meanRtt l).
Proof.
  intros l H3 Hp Hb. destruct l as [|h l']; [cbn in H3; lia|]. set (l := h :: l') in *.
  destruct (fold_min l h) as (A1 & _ & M1). destruct (fold_max l h) as (A2 & _ & M2). cbv zeta in *.
  unfold meanRtt. change (hd 0%Z l) with h.
  set (mn := fold_left (fun m r => if (r <? m)%Z then r else m) l h) in *. set (mx := fold_left (fun m r => if (m <? r)%Z then r else m) l h) in *.
  assert (I1 : In mn l) by (destruct A1 as [->|A1]; [left; reflexivity|exact A1]).
  assert (I2 : In mx l) by (destruct A2 as [->|A2]; [left; reflexivity|exact A2]).
  destruct (in_split _ _ I1) as (p & q & Hl). assert (P1 : Permutation l (mn :: p ++ q)) by (rewrite Hl; apply Permutation_sym, Permutation_middle).
  assert (I3 : In mx (p ++ q)).
  { destruct (Z.eq_dec mx mn) as [E|E].
    - assert (Hlen : length (p ++ q) >= 2) by (apply Permutation_length in P1; cbn [length] in P1; unfold l in P1, H3; cbn [length] in *; lia).
      destruct (p ++ q) as [|z zs] eqn:Ez; [cbn in Hlen; lia|]. assert (Iz : In z l) by (apply (Permutation_in _ (Permutation_sym P1)); right; left; reflexivity).
      pose proof (M1 z Iz). pose proof (M2 z Iz). left. lia.
    - apply (Permutation_in _ P1) in I2. destruct I2 as [I2|I2]; [congruence|exact I2]. }
  destruct (in_split _ _ I3) as (p2 & q2 & Hl2). assert (P2 : Permutation l (mn :: mx :: p2 ++ q2)).
  { eapply perm_trans; [exact P1|]. apply perm_skip. rewrite Hl2. apply Permutation_sym, Permutation_middle. }
  exists mn, mx, (p2 ++ q2). split; [exact P2|]. split; [intros x Hx; split; [apply M1|apply M2]; exact Hx|].
  rewrite fold_total; [|lia|exact Hp|lia]. pose proof (sum_perm _ _ P2) as S2. change (sumL (mn :: mx :: p2 ++ q2)) with (mn + (mx + sumL (p2 ++ q2)))%Z in S2.
  assert (N : (0 <= sumL (p2 ++ q2))%Z). { apply sum_nonneg. intros x Hx. apply Hp. apply (Permutation_in _ (Permutation_sym P2)). right. right. exact Hx. }
  pose proof (Hp mn I1). pose proof (Hp mx I2).
  replace (0 + sumL l - mn - mx)%Z with (sumL (p2 ++ q2)) by lia. rewrite wrapI64_id by lia. unfold sumL. f_equal.
  apply Permutation_length in P2. cbn [length] in P2. lia.
Qed.
(* between the smallest and the largest *)
Lemma mean_between : forall l m, trimmed_mean l m -> 3 <= length l -> (forall x, In x l -> (0 <= x)%Z) -> exists a b, In a l /\ In b l /\ (a <= m <= b)%Z.
Proof.
  intros l m (mn & mx & rest & P & M & ->) H3 Hp. exists mn, mx.
  assert (I1 : In mn l) by (apply (Permutation_in _ (Permutation_sym P)); left; reflexivity).
  assert (I2 : In mx l) by (apply (Permutation_in _ (Permutation_sym P)); right; left; reflexivity).
  split; [exact I1|]. split; [exact I2|].
  assert (R : forall x, In x rest -> (mn <= x <= mx)%Z) by (intros x Hx; apply M; apply (Permutation_in _ (Permutation_sym P)); right; right; exact Hx).
  assert (Hlen : (0 < Z.of_nat (length rest))%Z) by (apply Permutation_length in P; cbn [length] in P; lia).
  pose proof (Hp mn I1) as N1.
  assert (B : (mn * Z.of_nat (length rest) <= fold_right Z.add 0 rest <= mx * Z.of_nat (length rest))%Z).
  { clear - R. induction rest as [|x rest IH]; [cbn; lia|]. cbn [fold_right]. rewrite (Nat2Z.inj_succ (length rest)) || (cbn [length]; rewrite Nat2Z.inj_succ).
    specialize (IH (fun y Hy => R y (or_intror Hy))). pose proof (R x (or_introl eq_refl)). nia. }
  split.
  - apply Z.quot_le_lower_bound; [exact Hlen|]. nia.
  - apply Z.quot_le_upper_bound; [exact Hlen|]. nia.
Qed.

(* ---- parseRegistry *)
Definition lastInvalid (known : bs -> option bool) (names : list bs) (e0 : option bs) : option bs :=
  fold_left (fun e r => match known r with None => Some r | Some _ => e end) names e0.
Lemma step_all : forall known sg names evs rs g e,
  fold_left (regStep known sg) names (evs, rs, g, e) =
    let good := filter (okReg known) names in
    (evs ++ flat_map (fun p => [ESub (fst p) (snd p); EDisc (fst p) (snd p); ENotify (fst p) (snd p)]) (groupsAt sg g good),
     rs ++ good, last (map snd (groupsAt sg g good)) g, lastInvalid known names e).
Proof.
  intros known sg. induction names as [|r names IH]; intros evs rs g e; cbv zeta.
  - cbn [fold_left filter groupsAt flat_map map last lastInvalid]. rewrite !app_nil_r. reflexivity.
  - cbn [fold_left regStep filter]. assert (Q : okReg known r = match known r with Some b => b | None => false end) by reflexivity.
    assert (Q2 : lastInvalid known (r :: names) e = lastInvalid known names (match known r with None => Some r | Some _ => e end)) by reflexivity.
    rewrite Q, Q2. clear Q Q2. destruct (known r) as [[|]|].
    + rewrite IH. cbv zeta. cbn [groupsAt flat_map map fst snd]. rewrite <- !app_assoc. cbn [app].
      assert (L : last (map snd (groupsAt sg (sg r g) (filter (okReg known) names))) (sg r g) = last (sg r g :: map snd (groupsAt sg (sg r g) (filter (okReg known) names))) g).
      { generalize (map snd (groupsAt sg (sg r g) (filter (okReg known) names))). intros l. destruct l as [|z l]; [reflexivity|].
        change (last (sg r g :: z :: l) g) with (last (z :: l) g). generalize z. induction l as [|w l IHl]; intros z0; [reflexivity|]. change (last (w :: l) (sg r g) = last (w :: l) g). apply IHl. }
      rewrite L. reflexivity.
    + rewrite IH. reflexivity.
    + rewrite IH. reflexivity.
Qed.
Lemma lastInvalid_spec : forall known names, match lastInvalid known names None with
  | None => forall r, In r names -> known r <> None
  | Some r => the_last names (fun x => known x = None) r end.
Proof.
  intros known names. induction names as [|r names IH] using rev_ind; [intros r []|]. unfold lastInvalid in *. rewrite fold_left_app. cbn [fold_left]. destruct (known r) as [b|] eqn:E.
  - destruct (fold_left (fun e r0 => match known r0 with None => Some r0 | Some _ => e end) names None) as [x|].
    + destruct IH as (a & b' & H1 & H2 & H3). exists a, (b' ++ [r]). split; [rewrite H1 at 1; rewrite <- app_assoc; reflexivity|]. split; [exact H2|]. intros y Hy. apply in_app_iff in Hy. destruct Hy as [Hy|[<-|[]]]; [apply H3; exact Hy|congruence].
    + intros x Hx. apply in_app_iff in Hx. destruct Hx as [Hx|[<-|[]]]; [apply IH; exact Hx|congruence].
  - exists names, []. split; [reflexivity|]. split; [exact E|intros y []].
Qed.

Lemma parse_some : forall known sg s group, let names := trimSplit s (s2b ",") in let good := filter (okReg known) names in
  let '(evs, rs, g, err) := parseRegistry known sg (Some s) group in
  rs = good /\ evs = flat_map (fun p => [ESub (fst p) (snd p); EDisc (fst p) (snd p); ENotify (fst p) (snd p)]) (groupsAt sg group good)
  /\ g = last (map snd (groupsAt sg group good)) group
  /\ match err with
     | None => forall r, In r names -> known r <> None
     | Some PMissing => False
     | Some (PInvalid r) => the_last names (fun x => known x = None) r
     end.
Proof.
  intros known sg s group names good. unfold parseRegistry. rewrite step_all. cbv zeta. cbn [app]. split; [reflexivity|]. split; [reflexivity|]. split; [reflexivity|].
  pose proof (lastInvalid_spec known names) as L. fold names. destruct (lastInvalid known names None); cbn [option_map]; exact L.
Qed.
Lemma same_group : forall sg g rs, (forall r, In r rs -> sg r g = g) -> forall p, In p (groupsAt sg g rs) -> snd p = g.
Proof.
  intros sg g. induction rs as [|r rs IH]; intros H p Hp; [destruct Hp|]. cbn [groupsAt] in Hp. rewrite (H r (or_introl eq_refl)) in Hp.
  destruct Hp as [<-|Hp]; [reflexivity|]. apply IH; [intros r' Hr'; apply H; right; exact Hr'|exact Hp].
Qed.
Lemma one_group : forall lo up rx idc rv o1 o2 r rs g, let sg := fun r => subscribeGroup lo up rx idc (rv r) (o1 r) (o2 r) in
  (forall a b, sg r g <> a ++ s2b "${idc}" ++ b) -> forall p, In p (groupsAt sg g (r :: rs)) -> snd p = sg r g.
Proof.
  intros lo up rx idc rv o1 o2 r rs g sg H p Hp. cbn [groupsAt] in Hp. destruct Hp as [<-|Hp]; [reflexivity|].
  apply (same_group sg (sg r g) rs); [|exact Hp]. intros r' _. apply sub_plain. exact H.
Qed.
