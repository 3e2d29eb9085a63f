(* LbProofs4.v: the sliding window selector, group weights, endpoint weights, consistent hashing *)
From Verif Require Import Base Lists BytesModel BytesProofs Strconv GoStrings LbModel LbSpec LbProofs LbProofs2 LbProofs3.
Ltac Zify.zify_post_hook ::= idtac.
Set Implicit Arguments. Unset Strict Implicit.

(* ------------------------------------------------------------ sliding window: any availability *)

Lemma map_upd_same {A B} (f : A -> B) l i x y : nth_error l i = Some x -> f y = f x -> map f (upd l i y) = map f l.
Proof. intros H E. rewrite map_upd. apply upd_id. rewrite nth_error_map, H, E. reflexivity. Qed.

Lemma windowLoop_total {E} av start : forall k (items : list (swItem E)) i total sMax maxI, items <> [] ->
  exists items' total' sMax' maxI', windowLoop av items start i k total sMax maxI = Some (items', total', sMax', maxI') /\
    map iEp items' = map iEp items /\ map iWeight items' = map iWeight items /\ (maxI < length items -> maxI' < length items').
Proof.
  induction k as [|k IH]; intros items i total sMax maxI Hne; cbn [windowLoop].
  { exists items, total, sMax, maxI. auto. }
  destruct (nth_mod (start + i) Hne) as (it & Hit). rewrite Hit.
  assert (Lj : (start + i) mod length items < length items) by (apply Nat.mod_upper_bound; destruct items; [congruence|discriminate]).
  destruct (av i (iEp it)); [|apply IH, Hne].
  set (j := (start + i) mod length items) in *.
  set (items1 := upd items j (mkItem (iEp it) (iWeight it) (iCur it + Z.of_N (iWeight it)))).
  assert (L1 : length items1 = length items) by apply upd_length.
  assert (Hne1 : items1 <> []) by (intro E0; rewrite E0 in L1; destruct items; [congruence|discriminate]).
  assert (M1 : map iEp items1 = map iEp items) by (eapply map_upd_same; [exact Hit|reflexivity]).
  assert (M2 : map iWeight items1 = map iWeight items) by (eapply map_upd_same; [exact Hit|reflexivity]).
  destruct (sMax <? _)%Z; edestruct IH as (a & b & c & d & H1 & H2 & H3 & H4); try exact Hne1;
    exists a, b, c, d; (split; [exact H1|]; split; [congruence|]; split; [congruence|]; intro HH; apply H4; lia).
Qed.

Lemma windowScan_spec {E} av (items : list (swItem E)) start k : items <> [] -> forall i,
  match windowScan av items start i k with
  | PEp p e => nth_error (map iEp items) p = Some e /\ exists t, av t e = true
  | PNil => forall j, i <= j < i + k -> exists e, nth_error (map iEp items) ((start + j) mod length items) = Some e /\ av j e = false
  | PPanic => False
  end.
Proof.
  intro Hne. induction k as [|k IH]; intro i; cbn [windowScan]; [intros; lia|].
  destruct (nth_mod (start + i) Hne) as (it & Hit). rewrite Hit. destruct (av i (iEp it)) eqn:Ea.
  - rewrite nth_error_map, Hit. cbn. eauto.
  - specialize (IH (S i)). destruct (windowScan av items start (S i) k); [exact IH| |exact IH].
    intros j Hj. destruct (Nat.eq_dec j i) as [->|]; [|apply IH; lia]. exists (iEp it). rewrite nth_error_map, Hit. auto.
Qed.

Lemma window_sound {E} av1 av2 av3 r (items : list (swItem E)) window idx items' idx' p : items <> [] ->
  windowDoSelect av1 av2 av3 r items window idx = (items', idx', p) ->
  map iEp items' = map iEp items /\ map iWeight items' = map iWeight items /\
  match p with
  | PEp i e => nth_error (map iEp items) i = Some e /\ (av2 e = true \/ exists t, av3 t e = true)
  | PNil => all_but_one (map iEp items) (fun e => exists t, av3 t e = false)
  | PPanic => False
  end.
Proof.
  intros Hne H. unfold windowDoSelect in H. destruct items as [|it0 r0] eqn:Ei; [congruence|]. rewrite <- Ei in *.
  set (start := zmod (getNonNegative (addInt64 idx (Z.of_nat window))) (length items)) in *.
  destruct (@windowLoop_total E av1 start window items 0 0%Z 0%Z 0 Hne) as (i1 & tot & sM & mI & H1 & H2 & H3 & H4).
  rewrite H1 in H.
  assert (L1 : length i1 = length items) by (rewrite <- (map_length iEp i1), H2, map_length; reflexivity).
  assert (HmI : mI < length i1) by (apply H4; subst items; cbn; lia).
  assert (FB : forall its, its <> [] -> map iEp its = map iEp items -> map iWeight its = map iWeight items ->
    (its, addInt64 idx (Z.of_nat window), windowScan av3 its (start + intn r window) 1 (length its - 1)) = (items', idx', p) ->
    map iEp items' = map iEp items /\ map iWeight items' = map iWeight items /\
    match p with
    | PEp i e => nth_error (map iEp items) i = Some e /\ (av2 e = true \/ exists t, av3 t e = true)
    | PNil => all_but_one (map iEp items) (fun e => exists t, av3 t e = false)
    | PPanic => False
    end).
  { intros its Hn0 M1 M2 E1.
    assert (Lits : length its = length items) by (rewrite <- (map_length iEp its), M1, map_length; reflexivity).
    assert (E2 : p = windowScan av3 its (start + intn r window) 1 (length its - 1)) by congruence.
    assert (items' = its) as -> by congruence. split; [exact M1|]. split; [exact M2|]. rewrite E2.
    pose proof (@windowScan_spec E av3 its (start + intn r window) (length its - 1) Hn0 1) as S. rewrite M1 in S.
    destruct (windowScan av3 its (start + intn r window) 1 (length its - 1)) as [q e| |]; [destruct S; auto| |exact S].
    exists ((start + intn r window) mod length its). intros i e Hi Hq.
    assert (Li : i < length its) by (rewrite <- (map_length iEp its), M1; apply nth_error_Some; congruence).
    destruct (@covers (length its) (start + intn r window) i Li) as (j & Hj & Hm).
    destruct (Nat.eq_dec j 0) as [->|Hj0]; [rewrite Nat.add_0_r in Hm; congruence|].
    destruct (S j ltac:(lia)) as (e' & S1 & S2). rewrite Hm in S1. assert (e' = e) by congruence. subst e'. eauto. }
  assert (Hn1 : i1 <> []) by (intros ->; cbn in HmI; lia).
  destruct (0 <? sM)%Z.
  - destruct (nth_error i1 mI) as [it|] eqn:En; [|apply nth_error_None in En; lia].
    set (i2 := upd i1 mI (mkItem (iEp it) (iWeight it) (iCur it - tot))) in *.
    assert (M1 : map iEp i2 = map iEp items) by (rewrite <- H2; eapply map_upd_same; [exact En|reflexivity]).
    assert (M2 : map iWeight i2 = map iWeight items) by (rewrite <- H3; eapply map_upd_same; [exact En|reflexivity]).
    destruct (av2 (iEp it)) eqn:Ea.
    + assert (items' = i2) as -> by congruence. assert (p = PEp mI (iEp it)) as -> by congruence.
      split; [exact M1|]. split; [exact M2|]. split; [|left; exact Ea].
      rewrite <- H2, nth_error_map, En. reflexivity.
    + apply (FB i2); auto. intro E0. assert (length i2 = length i1) by apply upd_length. rewrite E0 in H0. cbn in H0. lia.
  - apply (FB i1); auto.
Qed.

(* every selector *)
Definition wf_sel {E} (eps : list E) (s : selector E) : Prop :=
  match s with
  | SelRR hs _ => hs = eps /\ hs <> []
  | SelRing hs ring _ => hs = eps /\ ring_ok hs ring
  | SelWindow its _ _ => map iEp its = eps /\ its <> []
  end.
Lemma wrrSelect_ok {E} (eps : list E) a s : wf_sel eps s ->
  wf_sel eps (fst (wrrSelect a s)) /\ is_window (fst (wrrSelect a s)) = is_window s /\ sel_pick_ok (is_window s) eps a (snd (wrrSelect a s)).
Proof.
  destruct s as [hs idx|hs ring idx|its w idx]; cbn [wf_sel is_window].
  - intros (<- & Hne). pose proof (rrsel_sound a idx Hne) as S. rewrite rrsel_step in * by exact Hne. cbn [fst snd] in *.
    split; [split; auto|]. split; [reflexivity|]. set (p := match _ with Some _ => _ | None => _ end) in *.
    destruct p; cbn [sound_pick sel_pick_ok] in *; [|intros x Hx; left; auto|exact S]. destruct S as (S1 & S2). split; [exact S1|left; exact S2].
  - intros (<- & Hr). pose proof (ringsel_sound a idx Hr) as S. rewrite ringsel_step in * by apply Hr. cbn [fst snd] in *.
    split; [split; auto|]. split; [reflexivity|]. set (p := match _ with Some _ => _ | None => _ end) in *.
    destruct p; cbn [sound_pick sel_pick_ok] in *; [|intros x Hx; left; auto|exact S]. destruct S as (S1 & S2). split; [exact S1|left; exact S2].
  - intros (<- & Hne). cbn [wrrSelect].
    destruct (windowDoSelect (a_av1 a) (a_av2 a) (a_av3 a) (a_r a) its w idx) as [[its' idx'] p] eqn:Ed.
    destruct (window_sound Hne Ed) as (M1 & M2 & S). cbn [fst snd wf_sel is_window].
    split; [split; [exact M1|intros ->; destruct its; [congruence|discriminate]]|]. split; [reflexivity|].
    destruct p; cbn [sel_pick_ok]; [| |exact S].
    + destruct S as (S1 & S2). split; [exact S1|]. right. exact S2.
    + destruct S as (q & S). exists q. intros i e Hi Hq. right. right. eapply S; eassumption.
Qed.

Lemma wrr_run_ok {E} (eps : list E) : forall n os s, wf_sel eps s -> forall j p, nth_error (wrr_run os s n) j = Some p ->
  sel_pick_ok (is_window s) eps (os j) p.
Proof.
  induction n as [|n IH]; intros os s Hs j p Hj; [destruct j; discriminate|]. cbn [wrr_run] in Hj.
  destruct (wrrSelect_ok (os 0) Hs) as (A & B & C). destruct (wrrSelect (os 0) s) as [s' p0]. cbn [fst snd] in *.
  destruct j as [|j]; cbn [nth_error] in Hj; [injection Hj as <-; exact C|].
  rewrite <- B. apply (IH (fun j => os (S j)) s' A j p Hj).
Qed.

Lemma notify_window {E} draws cur (hs : list (E * N)) items win idx :
  (forall e w, In (e, w) hs -> (0 < w)%N) -> notifyWeightChange draws cur hs = Some (SelWindow items win idx) ->
  exists g, is_gcd g (map snd hs) /\ win = windowSize (length hs) /\
    items = map (fun ew => mkItem (fst ew) (snd ew / g)%N 0) hs.
Proof.
  intros Hpos H. unfold notifyWeightChange in H. destruct (allSame (map snd hs)) eqn:Es.
  { destruct cur as [[]|]; discriminate. }
  assert (Hne : map snd hs <> []) by (destruct hs; [discriminate|discriminate]).
  destruct (findGcd_ok Hne) as (g & Hg & Hgcd). rewrite Hg in H.
  assert (Hgp : (0 < g)%N).
  { destruct hs as [|(e, w) r]; [destruct Hne; reflexivity|]. destruct (@gcd_div_pos g _ w Hgcd) as (P & _); [left; reflexivity|eapply Hpos; left; reflexivity|exact P]. }
  assert (Ews : (if (1 <? g)%N then map (fun w => (w / g)%N) (map snd hs) else map snd hs) = map (fun w => (w / g)%N) (map snd hs)).
  { destruct (N.ltb_spec 1 g); [reflexivity|]. symmetry. apply sumN_div_map. lia. }
  rewrite Ews in H. destruct (_ && _) eqn:Eb; [discriminate|].
  assert (Q : forall a b c a' b' c', Some (@SelWindow E a b c) = Some (SelWindow a' b' c') -> a = a' /\ b = b').
  { intros. injection H0. auto. }
  apply Q in H as (<- & <-). exists g. split; [exact Hgcd|]. rewrite !map_length. split; [reflexivity|].
  clear. induction hs as [|(e, w) r IH]; [reflexivity|]. cbn [map combine fst snd]. f_equal. exact IH.
Qed.

Lemma notify_total {E} draws cur (hs : list (E * N)) : hs <> [] -> exists sel, notifyWeightChange draws cur hs = Some sel.
Proof.
  intro Hne. unfold notifyWeightChange. destruct (allSame (map snd hs)); [destruct cur as [[]|]; eauto|].
  assert (Hm : map snd hs <> []) by (destruct hs; [congruence|discriminate]).
  destruct (findGcd_ok Hm) as (g & -> & _). destruct (_ && _); eauto.
Qed.

Lemma notify_wf {E} draws cur (hs : list (E * N)) sel : hs <> [] -> (forall e w, In (e, w) hs -> (0 < w)%N) ->
  notifyWeightChange draws cur hs = Some sel -> wf_sel (map fst hs) sel.
Proof.
  intros Hne Hpos H. assert (Hm : map fst hs <> []) by (destruct hs; [congruence|discriminate]).
  destruct sel as [eps idx|eps ring idx|its w idx]; cbn [wf_sel].
  - apply notify_rr in H as (-> & _). auto.
  - destruct (notify_ring Hpos H) as (-> & g & Hg & Hl & Hs & Hp). split; [reflexivity|].
    set (ws := map (fun w => (w / g)%N) (map snd hs)) in *.
    assert (Lw : length ws = length hs) by (unfold ws; rewrite !map_length; reflexivity).
    assert (Hc : forall i, i < length hs -> exists b, In b ring /\ N.to_nat (b2n b) = i).
    { intros i Hi. destruct (nth_error hs i) as [[e w]|] eqn:En; [|apply nth_error_None in En; lia].
      pose proof (ringFrom_count (ws := ws) (s := 0) i ltac:(lia)) as C. cbn [Nat.leb] in C. rewrite Nat.sub_0_r in C.
      assert (Ew : nth i ws 0%N = (w / g)%N) by (apply nth_error_nth; unfold ws; rewrite !nth_error_map, En; reflexivity).
      assert (Hin : In (e, w) hs) by (eapply nth_error_In, En).
      destruct (@gcd_div_pos g _ w Hg) as (_ & _ & P); [apply in_map_iff; exists (e, w); auto|eapply Hpos, Hin|].
      rewrite Ew in C. destruct (filter (fun b => N.to_nat (b2n b) =? i) (ringFrom 0 ws)) as [|b l] eqn:Ef; [cbn in C; lia|].
      assert (Hb : In b (filter (fun b => N.to_nat (b2n b) =? i) (ringFrom 0 ws))) by (rewrite Ef; left; reflexivity).
      apply filter_In in Hb as (Hb1 & Hb2). apply Nat.eqb_eq in Hb2. exists b. split; [|exact Hb2].
      eapply Permutation_in; [symmetry; exact Hp|exact Hb1]. }
    split; [|split].
    + destruct hs as [|h r]; [congruence|]. destruct (Hc 0 ltac:(cbn; lia)) as (b & Hb & _). intros ->. destruct Hb.
    + intros b Hb. apply (Permutation_in _ Hp) in Hb. rewrite ringBytes_from in Hb. apply ringFrom_range in Hb; [|lia]. rewrite map_length. lia.
    + rewrite map_length. exact Hc.
  - destruct (notify_window Hpos H) as (g & _ & _ & ->). rewrite map_map. split; [apply map_ext; reflexivity|].
    destruct hs; [congruence|discriminate].
Qed.

(* ------------------------------------------------------------ sliding window: smooth weighted round robin *)

Definition sumZ (l : list Z) : Z := fold_right Z.add 0%Z l.
Definition bump {E} (it : swItem E) : swItem E := mkItem (iEp it) (iWeight it) (iCur it + Z.of_N (iWeight it)).
Definition wt {E} (items : list (swItem E)) (p : nat) : Z := match nth_error items p with Some it => Z.of_N (iWeight it) | None => 0%Z end.

Lemma wt_upd {E} (items : list (swItem E)) j it c p : nth_error items j = Some it ->
  wt (upd items j (mkItem (iEp it) (iWeight it) c)) p = wt items p.
Proof.
  intro H. unfold wt. rewrite nth_error_upd. destruct (Nat.eqb_spec j p) as [->|]; cbn [andb]; [|reflexivity].
  assert (p < length items) by (apply nth_error_Some; congruence). rewrite (proj2 (Nat.ltb_lt _ _)) by assumption. rewrite H. reflexivity.
Qed.

Lemma windowLoop_up {E} start n : forall k (items : list (swItem E)) i total sMax maxI, length items = n -> 0 < n ->
  NoDup (map (fun j => (start + j) mod n) (seq i k)) ->
  exists items' total' sMax' maxI', windowLoop (fun _ _ => true) items start i k total sMax maxI = Some (items', total', sMax', maxI') /\
    length items' = n /\
    (forall p, nth_error items' p = if existsb (Nat.eqb p) (map (fun j => (start + j) mod n) (seq i k)) then option_map bump (nth_error items p) else nth_error items p) /\
    (total' = total + sumZ (map (fun j => wt items ((start + j) mod n)) (seq i k)))%Z /\
    ((sMax' = sMax /\ maxI' = maxI) \/ (sMax < sMax' /\ exists it, nth_error items' maxI' = Some it /\ iCur it = sMax')%Z) /\
    (forall p it, In p (map (fun j => (start + j) mod n) (seq i k)) -> nth_error items' p = Some it -> (iCur it <= sMax')%Z).
Proof.
  induction k as [|k IH]; intros items i total sMax maxI Hl Hn Hnd; cbn [windowLoop].
  { exists items, total, sMax, maxI. cbn [seq map existsb sumZ fold_right In]. split; [reflexivity|]. split; [exact Hl|]. split; [reflexivity|]. split; [lia|]. split; [left; auto|]. intros p it []. }
  assert (Hne : items <> []) by (intros ->; cbn in Hl; lia).
  destruct (nth_mod (start + i) Hne) as (it & Hit). rewrite Hit. rewrite Hl in *.
  set (j := (start + i) mod n) in *. cbn [seq map] in Hnd. fold j in Hnd. inversion Hnd as [|? ? Hj Hnd']. subst.
  set (c := (iCur it + Z.of_N (iWeight it))%Z).
  set (items1 := upd items j (mkItem (iEp it) (iWeight it) c)).
  assert (L1 : length items1 = length items) by apply upd_length.
  set (sM := if (sMax <? c)%Z then c else sMax). set (mI := if (sMax <? c)%Z then j else maxI).
  destruct (IH items1 (S i) (total + Z.of_N (iWeight it))%Z sM mI L1 Hn Hnd') as (a & b & s & d & H1 & H2 & H3 & H4 & H5 & H6).
  exists a, b, s, d.
  assert (Lj : j < length items) by (apply nth_error_Some; congruence).
  assert (Hjn : existsb (Nat.eqb j) (map (fun j => (start + j) mod length items) (seq (S i) k)) = false).
  { destruct (existsb _ _) eqn:Ex; [|reflexivity]. apply existsb_exists in Ex as (x & Hx & Hxe). apply Nat.eqb_eq in Hxe. subst x. contradiction. }
  assert (Haj : nth_error a j = Some (bump it)).
  { rewrite H3, Hjn. unfold items1. rewrite nth_error_upd_same by exact Lj. reflexivity. }
  split.
  { unfold sM, mI in H1. fold c. fold items1. destruct (sMax <? c)%Z; exact H1. }
  split; [exact H2|]. split; [|split; [|split]].
  - intro p. cbn [seq map existsb]. fold j. rewrite H3. destruct (Nat.eqb_spec p j) as [->|Hp]; cbn [orb].
    + rewrite Hjn. rewrite Hit. unfold items1. rewrite nth_error_upd_same by exact Lj. reflexivity.
    + unfold items1. rewrite nth_error_upd_other by congruence. reflexivity.
  - cbn [seq map]. fold j. unfold sumZ in *. cbn [fold_right]. unfold wt at 1. rewrite Hit. rewrite H4.
    rewrite (map_ext (fun x => wt items1 ((start + x) mod length items)) (fun x => wt items ((start + x) mod length items))); [lia|].
    intro x. unfold items1. apply wt_upd, Hit.
  - unfold sM, mI in *. destruct (Z.ltb_spec sMax c).
    + right. destruct H5 as [(-> & ->)|(G1 & G2)]; [|split; [lia|exact G2]]. split; [lia|]. exists (bump it). split; [exact Haj|reflexivity].
    + destruct H5 as [(-> & ->)|G]; [left; auto|right; exact G].
  - intros p x Hp Hx. cbn [seq map] in Hp. fold j in Hp. destruct Hp as [<-|Hp]; [|eapply H6; eassumption].
    rewrite Haj in Hx. injection Hx as <-. cbn [bump iCur]. fold c.
    assert (sM <= s)%Z by (destruct H5 as [(-> & _)|(G1 & _)]; lia).
    unfold sM in *. destruct (Z.ltb_spec sMax c); lia.
Qed.

Lemma nat_positions_perm n start : 0 < n -> Permutation (map (fun j => (start + j) mod n) (seq 0 n)) (seq 0 n).
Proof.
  intro H. rewrite <- (positions_perm (N.of_nat start) H) at 2. apply Permutation_refl'. apply map_ext. intro j.
  rewrite <- Nat2N.inj_add. rewrite <- (Nat2N.id ((start + j) mod n)). f_equal.
  rewrite Nat2N.inj_mod. reflexivity.
Qed.

Lemma sumZ_perm l l' : Permutation l l' -> sumZ l = sumZ l'.
Proof. unfold sumZ. induction 1; cbn [fold_right]; lia. Qed.

Lemma sumZ_wt {E} (items : list (swItem E)) : sumZ (map (wt items) (seq 0 (length items))) = sumZ (map (fun it => Z.of_N (iWeight it)) items).
Proof.
  induction items as [|it r IH]; [reflexivity|]. cbn [length seq map]. unfold sumZ in *. cbn [fold_right]. f_equal.
  rewrite <- seq_shift, map_map. exact IH.
Qed.

Definition weightZ {E} (items : list (swItem E)) : Z := sumZ (map (fun it => Z.of_N (iWeight it)) items).
Definition curZ {E} (items : list (swItem E)) : Z := sumZ (map iCur items).

Lemma nth_error_ext' {A} (l l' : list A) : (forall p, nth_error l p = nth_error l' p) -> l = l'.
Proof.
  revert l'. induction l as [|x r IH]; intros [|y r'] H; [reflexivity|specialize (H 0); discriminate|specialize (H 0); discriminate|].
  f_equal; [specialize (H 0); cbn in H; congruence|]. apply IH. intro p. apply (H (S p)).
Qed.

Lemma existsb_seq_perm p n l : Permutation l (seq 0 n) -> existsb (Nat.eqb p) l = (p <? n).
Proof.
  intro H. destruct (Nat.ltb_spec p n).
  - apply existsb_exists. exists p. split; [|apply Nat.eqb_refl]. eapply Permutation_in; [symmetry; exact H|]. apply in_seq. lia.
  - destruct (existsb _ l) eqn:Ex; [|reflexivity]. apply existsb_exists in Ex as (x & Hx & Hxe). apply Nat.eqb_eq in Hxe. subst x.
    apply (Permutation_in _ H) in Hx. apply in_seq in Hx. lia.
Qed.

Lemma window_step_up {E} r (items : list (swItem E)) idx : (0 < weightZ items)%Z -> curZ items = 0%Z ->
  exists p it, nth_error items p = Some it /\ (0 < iCur it + Z.of_N (iWeight it))%Z /\
    windowDoSelect (fun _ _ => true) (fun _ => true) (fun _ _ => true) r items (length items) idx =
    (upd (map bump items) p (mkItem (iEp it) (iWeight it) (iCur it + Z.of_N (iWeight it) - weightZ items)),
     addInt64 idx (Z.of_nat (length items)), PEp p (iEp it)).
Proof.
  intros HW HC. assert (Hne : items <> []) by (intros ->; cbn in HW; lia). assert (Hn := ne_len Hne).
  unfold windowDoSelect. destruct items as [|it0 r0] eqn:Ei; [congruence|]. rewrite <- Ei in *.
  set (start := zmod (getNonNegative (addInt64 idx (Z.of_nat (length items)))) (length items)).
  pose proof (nat_positions_perm start Hn) as P.
  destruct (@windowLoop_up E start (length items) (length items) items 0 0%Z 0%Z 0 eq_refl Hn) as (i1 & tot & sM & mI & H1 & H2 & H3 & H4 & H5 & H6).
  { eapply Permutation_NoDup; [symmetry; exact P|apply seq_NoDup]. }
  rewrite H1.
  assert (Ei1 : i1 = map bump items).
  { apply nth_error_ext'. intro p. rewrite H3, nth_error_map, (existsb_seq_perm p P). destruct (Nat.ltb_spec p (length items)); [reflexivity|].
    rewrite (proj2 (nth_error_None items p)) by lia. reflexivity. }
  assert (Et : tot = weightZ items).
  { rewrite H4. unfold weightZ. rewrite <- sumZ_wt. rewrite <- (map_map (fun j => (start + j) mod length items) (wt items)).
    rewrite (sumZ_perm (Permutation_map (wt items) P)). lia. }
  assert (HsM : (0 < sM)%Z).
  { destruct H5 as [(-> & _)|(G & _)]; [|lia]. exfalso.
    assert (B : forall it, In it items -> (iCur it + Z.of_N (iWeight it) <= 0)%Z).
    { intros it Hin. apply In_nth_error in Hin as (p & Hp). apply (H6 p (bump it)).
      - eapply Permutation_in; [symmetry; exact P|]. apply in_seq. assert (p < length items) by (apply nth_error_Some; congruence). lia.
      - rewrite Ei1, nth_error_map, Hp. reflexivity. }
    assert (S : (curZ items + weightZ items <= 0)%Z).
    { clear - B. unfold curZ, weightZ, sumZ. induction items as [|it r IH]; [cbn; lia|]. cbn [map fold_right].
      pose proof (B it (or_introl eq_refl)). specialize (IH (fun x Hx => B x (or_intror Hx))). lia. }
    lia. }
  rewrite (proj2 (Z.ltb_lt 0 sM) HsM).
  destruct H5 as [(-> & _)|(_ & it & Hit & Hcur)]; [lia|]. rewrite Hit.
  rewrite Ei1, nth_error_map in Hit. destruct (nth_error items mI) as [it1|] eqn:Em; [|discriminate]. cbn in Hit. injection Hit as <-.
  exists mI, it1. split; [exact Em|]. cbn [bump iCur iEp iWeight] in *. split; [lia|]. rewrite Ei1, Et. reflexivity.
Qed.

Definition swInv {E} (items : list (swItem E)) : Prop :=
  (0 < weightZ items)%Z /\ curZ items = 0%Z /\ forall it, In it items -> (- weightZ items < iCur it)%Z.

Lemma sumZ_upd l p x y : nth_error l p = Some x -> (sumZ (upd l p y) = sumZ l - x + y)%Z.
Proof.
  revert p. unfold sumZ. induction l as [|z r IH]; intros [|p] H; cbn in *; try discriminate.
  - injection H as ->. lia.
  - rewrite (IH p H). lia.
Qed.

Lemma weightZ_bump {E} (items : list (swItem E)) : weightZ (map bump items) = weightZ items.
Proof. unfold weightZ. rewrite map_map. reflexivity. Qed.
Lemma curZ_bump {E} (items : list (swItem E)) : curZ (map bump items) = (curZ items + weightZ items)%Z.
Proof. unfold curZ, weightZ, sumZ. induction items as [|it r IH]; [reflexivity|]. cbn [map fold_right bump iCur]. lia. Qed.

Lemma swInv_step {E} (items : list (swItem E)) p it : swInv items -> nth_error items p = Some it -> (0 < iCur it + Z.of_N (iWeight it))%Z ->
  let items' := upd (map bump items) p (mkItem (iEp it) (iWeight it) (iCur it + Z.of_N (iWeight it) - weightZ items)) in
  swInv items' /\ weightZ items' = weightZ items /\ length items' = length items /\ map iEp items' = map iEp items.
Proof.
  intros (I1 & I2 & I3) Hp Hc items'.
  assert (Hb : nth_error (map bump items) p = Some (bump it)) by (rewrite nth_error_map, Hp; reflexivity).
  assert (EW : weightZ items' = weightZ items).
  { rewrite <- (weightZ_bump items). unfold weightZ, items'. f_equal. eapply map_upd_same; [exact Hb|reflexivity]. }
  split; [|split; [exact EW|split]].
  - split; [lia|]. split.
    + unfold curZ, items'. rewrite map_upd. rewrite (sumZ_upd (x := iCur (bump it))); [|rewrite nth_error_map, Hb; reflexivity].
      fold (curZ (map bump items)). rewrite curZ_bump. cbn [bump iCur]. lia.
    + intros x Hx. rewrite EW. apply In_nth_error in Hx as (q & Hq). unfold items' in Hq. rewrite nth_error_upd in Hq.
      destruct ((p =? q) && _).
      * injection Hq as <-. cbn [iCur]. lia.
      * rewrite nth_error_map in Hq. destruct (nth_error items q) as [y|] eqn:Ey; [|discriminate]. injection Hq as <-. cbn [bump iCur].
        pose proof (I3 y (nth_error_In _ _ Ey)). lia.
  - unfold items'. rewrite upd_length, map_length. reflexivity.
  - unfold items'. rewrite (map_upd_same (x := bump it)); [rewrite map_map; reflexivity|exact Hb|reflexivity].
Qed.

Lemma times_cons {E} i (p : pick E) l : times i (p :: l) = (match p with PEp j _ => if j =? i then 1 else 0 | _ => 0 end) + times i l.
Proof. unfold times. cbn [filter]. destruct p as [j e| |]; [|reflexivity|reflexivity]. destruct (j =? i); reflexivity. Qed.

Lemma window_run {E} : forall m rs (items : list (swItem E)) idx, swInv items ->
  let picks := wrr_run (up_answers rs) (SelWindow items (length items) idx) m in
  Forall (picked_from (map iEp items)) picks /\
  exists items', swInv items' /\ length items' = length items /\ weightZ items' = weightZ items /\
    forall i it, nth_error items i = Some it -> exists it' : swItem E, nth_error items' i = Some it' /\
      (iCur it' = iCur it + Z.of_nat m * Z.of_N (iWeight it) - weightZ items * Z.of_nat (times i picks))%Z.
Proof.
  induction m as [|m IH]; intros rs items idx HI picks.
  { split; [constructor|]. exists items. repeat (split; [first [exact HI|reflexivity]|]). intros i it Hi. exists it. split; [exact Hi|]. cbn. lia. }
  destruct (window_step_up (rs 0) idx (proj1 HI) (proj1 (proj2 HI))) as (p & it & Hp & Hc & Hs).
  destruct (swInv_step HI Hp Hc) as (HI' & EW & EL & EE).
  set (items1 := upd (map bump items) p (mkItem (iEp it) (iWeight it) (iCur it + Z.of_N (iWeight it) - weightZ items))) in *.
  assert (Epk : picks = PEp p (iEp it) :: wrr_run (up_answers (fun j => rs (S j))) (SelWindow items1 (length items1) (addInt64 idx (Z.of_nat (length items)))) m).
  { unfold picks. cbn [wrr_run wrrSelect up_answers a_av1 a_av2 a_av3 a_r]. rewrite Hs, EL. reflexivity. }
  destruct (IH (fun j => rs (S j)) items1 (addInt64 idx (Z.of_nat (length items))) HI') as (A & items' & B1 & B2 & B3 & B4).
  rewrite Epk. split.
  { constructor; [|rewrite EE in A; exact A]. exists p, (iEp it). split; [reflexivity|]. rewrite nth_error_map, Hp. reflexivity. }
  exists items'. split; [exact B1|]. split; [congruence|]. split; [congruence|].
  intros i x Hx. rewrite times_cons.
  assert (Lp : p < length (map bump items)) by (rewrite map_length; apply nth_error_Some; congruence).
  assert (H1 : exists y : swItem E, nth_error items1 i = Some y /\ iWeight y = iWeight x /\
    (iCur y = iCur x + Z.of_N (iWeight x) - if Nat.eqb p i then weightZ items else 0)%Z).
  { unfold items1. rewrite nth_error_upd. destruct (Nat.eqb_spec p i) as [->|Hne]; cbn [andb].
    - rewrite (proj2 (Nat.ltb_lt _ _) Lp). rewrite Hp in Hx. injection Hx as <-. eexists. split; [reflexivity|]. cbn. split; [reflexivity|lia].
    - rewrite nth_error_map, Hx. exists (bump x). cbn. split; [reflexivity|]. split; [reflexivity|lia]. }
  destruct H1 as (y & Hy1 & Hy2 & Hy3). destruct (B4 i y Hy1) as (it' & C1 & C2). exists it'. split; [exact C1|].
  rewrite C2, Hy2, Hy3, EW. destruct (p =? i); lia.
Qed.

Lemma sum_nonneg_zero l : (forall x, In x l -> (0 <= x)%Z) -> sumZ l = 0%Z -> forall x, In x l -> x = 0%Z.
Proof.
  unfold sumZ. induction l as [|y r IH]; intros Hp Hs x Hx; [destruct Hx|]. cbn [fold_right] in Hs.
  assert (0 <= fold_right Z.add 0 r)%Z.
  { assert (Q : forall z, In z r -> (0 <= z)%Z) by (intros; apply Hp; right; assumption). clear - Q.
    induction r as [|z r IH]; cbn; [lia|]. pose proof (Q z (or_introl eq_refl)). specialize (IH (fun w Hw => Q w (or_intror Hw))). lia. }
  pose proof (Hp y (or_introl eq_refl)). destruct Hx as [<-|Hx]; [lia|]. apply IH; [intros; apply Hp; right; assumption|lia|exact Hx].
Qed.

Lemma window_exact {E} (items : list (swItem E)) rs idx k : (0 < weightZ items)%Z -> (forall it, In it items -> iCur it = 0%Z) ->
  Forall (picked_from (map iEp items)) (wrr_run (up_answers rs) (SelWindow items (length items) idx) (k * Z.to_nat (weightZ items))) /\
  forall i it, nth_error items i = Some it ->
    times i (wrr_run (up_answers rs) (SelWindow items (length items) idx) (k * Z.to_nat (weightZ items))) = k * N.to_nat (iWeight it).
Proof.
  intros HW H0.
  assert (HC : curZ items = 0%Z).
  { unfold curZ, sumZ. clear HW. induction items as [|it r IH]; [reflexivity|]. cbn [map fold_right].
    rewrite (H0 it (or_introl eq_refl)), IH; [reflexivity|]. intros; apply H0; right; assumption. }
  assert (HI : swInv items) by (split; [exact HW|]; split; [exact HC|]; intros it Hi; rewrite (H0 it Hi); lia).
  destruct (window_run (k * Z.to_nat (weightZ items)) rs idx HI) as (A & items' & (_ & B1 & B2) & B3 & B4 & B5).
  split; [exact A|]. intros i it Hi.
  set (picks := wrr_run _ _ _) in *.
  assert (Hz : forall i it, nth_error items i = Some it -> exists it' : swItem E, nth_error items' i = Some it' /\
    (iCur it' = weightZ items * (Z.of_nat k * Z.of_N (iWeight it) - Z.of_nat (times i picks)))%Z).
  { intros j x Hx. destruct (B5 j x Hx) as (it' & C1 & C2). exists it'. split; [exact C1|].
    rewrite C2, (H0 x (nth_error_In _ _ Hx)). rewrite Nat2Z.inj_mul, Z2Nat.id by lia. ring. }
  assert (Hnn : forall x, In x (map iCur items') -> (0 <= x)%Z).
  { intros x Hx. apply in_map_iff in Hx as (y & <- & Hy). pose proof (B2 y Hy) as L. rewrite B4 in L. apply In_nth_error in Hy as (q & Hq).
    assert (Lq : q < length items) by (rewrite <- B3; apply nth_error_Some; congruence).
    destruct (nth_error items q) as [z|] eqn:Ez; [|apply nth_error_None in Ez; lia].
    destruct (Hz q z Ez) as (it' & D1 & D2). assert (it' = y) by congruence. subst it'. rewrite D2 in *.
    clear - L HW. revert L. generalize (Z.of_nat k * Z.of_N (iWeight z) - Z.of_nat (times q picks))%Z. intros v L.
    destruct (Z.le_gt_cases 0 v); nia. }
  destruct (Hz i it Hi) as (it' & D1 & D2).
  assert (Zr : iCur it' = 0%Z) by (apply (sum_nonneg_zero Hnn B1); apply in_map; eapply nth_error_In, D1).
  rewrite Zr in D2. symmetry in D2. apply Z.mul_eq_0 in D2 as [D2|D2]; lia.
Qed.

Lemma weightZ_sumN {E} (hs : list (E * N)) g : weightZ (map (fun ew => mkItem (fst ew) (snd ew / g)%N 0) hs) = Z.of_N (sumN (map (fun w => (w / g)%N) (map snd hs))).
Proof.
  unfold weightZ. rewrite map_map. unfold sumZ, sumN. induction hs as [|(e, w) r IH]; [reflexivity|]. cbn [map fold_right iWeight snd] in *. lia.
Qed.

Lemma wrr_window_exact {E} draws cur (hs : list (E * N)) sel : hs <> [] -> (forall e w, In (e, w) hs -> (0 < w)%N) ->
  notifyWeightChange draws cur hs = Some sel -> is_window sel = true -> length hs <= 50 ->
  exists g, is_gcd g (map snd hs) /\
  let W := N.to_nat (sumN (map (fun w => (w / g)%N) (map snd hs))) in
  forall rs s k,
  Forall (picked_from (map fst hs)) (wrr_run (up_answers rs) (with_counter sel s) (k * W)) /\
  forall i e w, nth_error hs i = Some (e, w) -> times i (wrr_run (up_answers rs) (with_counter sel s) (k * W)) = k * N.to_nat (w / g).
Proof.
  intros Hne Hpos H Hw Hlen. destruct sel as [| |items win idx]; [discriminate|discriminate|].
  destruct (notify_window Hpos H) as (g & Hg & -> & ->). exists g. split; [exact Hg|]. intros W rs s k.
  set (items := map (fun ew => mkItem (fst ew) (snd ew / g)%N 0) hs).
  assert (Ew : windowSize (length hs) = length items).
  { unfold items. rewrite map_length. unfold windowSize. rewrite (proj2 (Nat.ltb_ge 50 (length hs))) by exact Hlen. reflexivity. }
  cbn [with_counter]. rewrite Ew.
  assert (EW : W = Z.to_nat (weightZ items)) by (unfold items, W; rewrite weightZ_sumN, <- Z_N_nat, N2Z.id; reflexivity).
  assert (EE : map iEp items = map fst hs) by (unfold items; rewrite map_map; apply map_ext; reflexivity).
  assert (HW : (0 < weightZ items)%Z).
  { destruct hs as [|(e0, w0) r] eqn:Eh; [congruence|].
    destruct (@gcd_div_pos g _ w0 Hg) as (_ & _ & P); [left; reflexivity|eapply Hpos; left; reflexivity|].
    unfold items. rewrite weightZ_sumN. cbn [map snd]. rewrite sumN_cons. lia. }
  rewrite EW, <- EE. destruct (@window_exact E items rs s k HW) as (A & B).
  { intros it Hi. unfold items in Hi. apply in_map_iff in Hi as (ew & <- & _). reflexivity. }
  split; [exact A|]. intros i e w Hi. rewrite (B i (mkItem e (w / g)%N 0)); [reflexivity|].
  unfold items. rewrite nth_error_map, Hi. reflexivity.
Qed.

(* ---- the size of the window: it does not divide the number of endpoints *)
Lemma shrink_spec f : forall n w, f <= w ->
  let r := shrink f n w in
  r <= w /\ (forall v, r < v <= w -> n mod v = 0) /\ (r = w - f \/ n mod r <> 0).
Proof.
  induction f as [|f IH]; intros n w Hf; cbn [shrink].
  - split; [lia|]. split; [lia|]. left. lia.
  - destruct (Nat.eqb_spec (n mod w) 0) as [E|E].
    + assert (Hw : f <= w - 1) by lia. destruct (IH n (w - 1) Hw) as (A & B & C). split; [lia|]. split.
      * intros v Hv. destruct (Nat.eq_dec v w) as [->|Hne]; [exact E|]. apply B. lia.
      * destruct C as [C|C]; [left; lia|right; exact C].
    + split; [lia|]. split; [lia|]. right. exact E.
Qed.
Lemma lcm_all (l : list N) (n : N) : (forall v, In v l -> N.divide v n) -> N.divide (fold_right N.lcm 1%N l) n.
Proof.
  induction l as [|v l IH]; intros H; cbn [fold_right]; [apply N.divide_1_l|].
  apply N.lcm_least; [apply H; left; reflexivity|apply IH; intros u Hu; apply H; right; exact Hu].
Qed.
Lemma windowSize_large n : 50 < n -> (N.of_nat n < 2 ^ 63)%N -> 1 < windowSize n <= 50 /\ n mod windowSize n <> 0.
Proof.
  intros Hn Hb. unfold windowSize. replace (50 <? n) with true by (symmetry; apply Nat.ltb_lt; exact Hn).
  destruct (@shrink_spec 50 n 50 (le_n _)) as (A & B & C). set (r := shrink 50 n 50) in *.
  assert (Hd : r <= 1 -> False).
  { intro Hr.
    assert (Hall : forall v, In v (map N.of_nat (seq 2 49)) -> N.divide v (N.of_nat n)).
    { intros v Hv. apply in_map_iff in Hv as (u & <- & Hu). apply in_seq in Hu.
      assert (E : n mod u = 0) by (apply B; lia).
      apply Nat.mod_divide in E; [|lia]. destruct E as [k E]. exists (N.of_nat k). rewrite E. lia. }
    apply lcm_all in Hall. destruct Hall as [k E].
    assert (Hl : (2 ^ 63 <= fold_right N.lcm 1%N (map N.of_nat (seq 2 49)))%N) by (vm_compute; discriminate).
    set (L := fold_right N.lcm 1%N (map N.of_nat (seq 2 49))) in *. clearbody L.
    destruct (N.eq_dec k 0) as [->|Hk]; [lia|].
    assert ((1 * L <= k * L)%N) by (apply N.mul_le_mono_r; lia). lia. }
  assert (2 <= r) by lia. split; [lia|]. destruct C as [C|C]; [lia|exact C].
Qed.
Lemma wrr_window_size {E} draws cur (hs : list (E * N)) items w c : 50 < length hs -> (N.of_nat (length hs) < 2 ^ 63)%N ->
  notifyWeightChange draws cur hs = Some (SelWindow items w c) -> 1 < w <= 50 /\ length hs mod w <> 0.
Proof.
  intros Hl Hb H. assert (Hw : w = windowSize (length hs)); [|subst w; apply windowSize_large; assumption].
  unfold notifyWeightChange in H. destruct (allSame (map snd hs)); [destruct cur as [[]|]; discriminate|].
  destruct (findGcd (map snd hs)) as [g|]; [|discriminate].
  assert (El : length (if (1 <? g)%N then map (fun w0 => (w0 / g)%N) (map snd hs) else map snd hs) = length hs)
    by (destruct (1 <? g)%N; rewrite ?map_length; reflexivity).
  destruct ((length _ <=? wrMaxEpSize) && _)%bool; [discriminate|]. rewrite El in H. congruence.
Qed.
