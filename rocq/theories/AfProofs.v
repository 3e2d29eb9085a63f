(* AfProofs.v *)
From Verif Require Import Base AfModel AfSpec.
From Coq Require Import Lia.

Lemma subseq_skip_snoc {A} (a l : list A) x : subseq a l -> subseq a (l ++ [x]).
Proof. induction 1; cbn; [apply sub_nil|apply sub_keep|apply sub_skip]; assumption. Qed.
Lemma subseq_keep_snoc {A} (a l : list A) x : subseq a l -> subseq (a ++ [x]) (l ++ [x]).
Proof.
  induction 1; cbn; [|apply sub_keep; assumption|apply sub_skip; assumption].
  induction l; cbn; [apply sub_keep, sub_nil|apply sub_skip; assumption].
Qed.
Lemma shuffle_snoc_l {A} (a b l : list A) x : shuffle a b l -> shuffle (a ++ [x]) b (l ++ [x]).
Proof. induction 1; cbn; [apply sh_l, sh_nil|apply sh_l; assumption|apply sh_r; assumption]. Qed.
Lemma shuffle_snoc_r {A} (a b l : list A) x : shuffle a b l -> shuffle a (b ++ [x]) (l ++ [x]).
Proof. induction 1; cbn; [apply sh_r, sh_nil|apply sh_l; assumption|apply sh_r; assumption]. Qed.
Lemma shuffle_nil_r {A} (a l : list A) : shuffle a [] l -> a = l.
Proof. remember [] as b eqn:E. induction 1; [reflexivity|f_equal; auto|discriminate]. Qed.

Lemma sameBut_refl s : sameBut s s.
Proof. repeat split. Qed.
Lemma doF_same : forall allow s it, sameBut s (doFilters s it allow).
Proof.
  induction allow as [|e r IH]; intros s it; cbn [doFilters]; destruct (a_filters s) eqn:EF; try apply sameBut_refl;
    destruct (room s); try (repeat split; cbn; congruence).
  match goal with |- sameBut s (doFilters ?x _ _) => pose proof (IH x e) as H; destruct H as (H1&H2&H3&H4&H5&H6&H7&H8) end.
  cbn in *. repeat split; congruence.
Qed.
Definition queueInv (s : ast) : Prop := a_in s = a_taken s ++ a_queue s /\ length (a_queue s) <= a_cap s.
Lemma doF_queue : forall allow s it, queueInv s -> queueInv (doFilters s it allow).
Proof.
  induction allow as [|e r IH]; intros s it [H1 H2]; cbn [doFilters]; destruct (a_filters s) eqn:EF; try (split; assumption);
    destruct (room s) eqn:ER.
  - split; cbn; [rewrite H1, app_assoc; reflexivity|]. rewrite app_length. cbn. apply Nat.ltb_lt in ER. lia.
  - split; assumption.
  - split; cbn; [rewrite H1, app_assoc; reflexivity|]. rewrite app_length. cbn. apply Nat.ltb_lt in ER. lia.
  - apply IH. split; assumption.
Qed.
(* what serving one name does *)
Lemma deliver_cases s n it s1 ok : deliver s n it = (s1, ok) ->
  (aget bs_eqb (a_filters s) n = None /\ s1 = s /\ ok = true)
  \/ (exists c k, aget bs_eqb (a_filters s) n = Some c /\ nth_error (a_chans s) c = Some k /\ k_bad k = false /\ length (k_items k) < k_cap k /\ ok = true
       /\ s1 = mkA (a_cap s) (a_queue s) (a_filters s) (list_set (a_chans s) c (mkChan (k_items k ++ [it]) (k_cap k) (k_bad k))) (a_cons s)
                   (a_in s) (a_taken s) (a_sent s ++ [(n, c, it)]) (a_read s) (a_lost s) (a_miss s))
  \/ (exists c, aget bs_eqb (a_filters s) n = Some c /\ ok = false
       /\ (nth_error (a_chans s) c = None \/ exists k, nth_error (a_chans s) c = Some k /\ (k_bad k = true \/ k_cap k <= length (k_items k)))
       /\ s1 = mkA (a_cap s) (a_queue s) (a_filters s) (a_chans s) (a_cons s) (a_in s) (a_taken s) (a_sent s) (a_read s) (a_lost s) (a_miss s ++ [(n, it)])).
Proof.
  unfold deliver. intros H. destruct (aget bs_eqb (a_filters s) n) as [c|] eqn:E1.
  2:{ left. injection H as <- <-. auto. }
  destruct (nth_error (a_chans s) c) as [k|] eqn:E2.
  2:{ injection H as <- <-. right; right. exists c. auto. }
  destruct (k_bad k) eqn:E3.
  { injection H as <- <-. right; right. exists c. repeat split; auto. right. exists k. auto. }
  destruct (length (k_items k) <? k_cap k) eqn:E4.
  - injection H as <- <-. apply Nat.ltb_lt in E4. right; left. exists c, k. rewrite E3. repeat split; auto.
  - injection H as <- <-. apply Nat.ltb_ge in E4. right; right. exists c. repeat split; auto. right. exists k. auto.
Qed.
(* one served name, with the message about it *)
Lemma serve_cases s allow it n r s' : a_cons s = CServe it (n :: r) -> astep s (AServe allow) = Some s' ->
  exists s1 ok, deliver s n it = (s1, ok) /\ a_filters s' = a_filters s1 /\ a_chans s' = a_chans s1 /\ a_taken s' = a_taken s1 /\ a_sent s' = a_sent s1
    /\ a_read s' = a_read s1 /\ a_miss s' = a_miss s1 /\ a_cons s' = (match r with [] => CWait | _ => CServe it r end)
    /\ (queueInv s1 -> queueInv s') /\ (ok = true -> a_queue s' = a_queue s1 /\ a_in s' = a_in s1 /\ a_lost s' = a_lost s1).
Proof.
  intros EC H. cbn [astep] in H. rewrite EC in H. destruct (deliver s n it) as [s1 ok] eqn:ED. exists s1, ok. split; [reflexivity|].
  injection H as <-. destruct ok.
  - unfold setCons; cbn. unfold queueInv; cbn. repeat split; tauto.
  - destruct allow as [|e es].
    + unfold setCons; cbn. unfold queueInv; cbn. repeat split; try tauto; discriminate.
    + pose proof (doF_same es s1 e) as (B1&B2&B3&B4&B5&B6&B7&B8). pose proof (doF_queue es s1 e) as Q.
      unfold setCons; cbn [a_filters a_chans a_taken a_sent a_read a_miss a_cons a_queue a_in a_lost].
      split; [congruence|]. split; [congruence|]. split; [congruence|]. split; [congruence|]. split; [congruence|]. split; [congruence|]. split; [reflexivity|].
      split; [|discriminate]. intros X. exact (Q X).
Qed.
Lemma deliver_queue s n it s1 ok : deliver s n it = (s1, ok) -> queueInv s -> queueInv s1.
Proof.
  intros H Q. destruct (deliver_cases _ _ _ _ _ H) as [(_&->&_)|[(c&k&_&_&_&_&_&->)|(c&_&_&_&->)]]; exact Q.
Qed.
Lemma step_queue s o s' : queueInv s -> astep s o = Some s' -> queueInv s'.
Proof.
  intros Q H. destruct o as [it allow| |order|allow|name c|cap bad|c].
  - injection H as <-. apply doF_queue, Q.
  - cbn in H. destruct (a_cons s); try discriminate. destruct (a_queue s) as [|i q] eqn:EQ; [discriminate|]. injection H as <-.
    destruct Q as [Q1 Q2]. rewrite EQ in *. split; cbn in *; [rewrite Q1, <- app_assoc; reflexivity|lia].
  - cbn in H. destruct (a_cons s); try discriminate. injection H as <-. exact Q.
  - destruct (a_cons s) as [| |it [|n r]] eqn:EC; try (cbn in H; rewrite EC in H; discriminate).
    destruct (serve_cases _ _ _ _ _ _ EC H) as (s1&ok&D&_&_&_&_&_&_&_&QQ&_). apply QQ. eapply deliver_queue; eassumption.
  - cbn [astep] in H. destruct (a_cons s); try discriminate; destruct (c <? length (a_chans s)); try discriminate; injection H as <-; exact Q.
  - injection H as <-. exact Q.
  - cbn [astep] in H. destruct (nth_error (a_chans s) c) as [k|]; [|discriminate]. destruct (k_items k); [discriminate|]. injection H as <-. exact Q.
Qed.
Lemma queue_ok : forall s os s', aruns s os s' -> queueInv s -> queueInv s'.
Proof. induction 1; intros Q; [exact Q|]. apply IHaruns. eapply step_queue; eassumption. Qed.
Lemma queue_full cap os s : aruns (ainit cap) os s -> a_in s = a_taken s ++ a_queue s /\ length (a_queue s) <= cap.
Proof.
  intros H. assert (Q : queueInv s) by (eapply queue_ok; [exact H|]; split; cbn; [reflexivity|lia]).
  assert (C : a_cap s = cap).
  { clear Q. assert (K : forall s1 os1 s2, aruns s1 os1 s2 -> a_cap s2 = a_cap s1); [|rewrite (K _ _ _ H); reflexivity].
    clear. induction 1 as [|s o s1 os s2 _ HS _ IH]; [reflexivity|]. rewrite IH. clear IH.
    destruct o as [it allow| |order|allow|name c|cp bad|c]; cbn [astep] in HS.
    - injection HS as <-. apply doF_same.
    - destruct (a_cons s); try discriminate. destruct (a_queue s); [discriminate|]. injection HS as <-. reflexivity.
    - destruct (a_cons s); try discriminate. injection HS as <-. reflexivity.
    - destruct (a_cons s) as [| |it [|n r]]; try discriminate. destruct (deliver s n it) as [s3 ok] eqn:ED. injection HS as <-.
      assert (E3 : a_cap s3 = a_cap s). { destruct (deliver_cases _ _ _ _ _ ED) as [(_&->&_)|[(c&k&_&_&_&_&_&->)|(c&_&_&_&->)]]; reflexivity. }
      destruct ok; [exact E3|]. destruct allow; [exact E3|]. cbn. rewrite <- E3. apply doF_same.
    - destruct (a_cons s); try discriminate; destruct (c <? length (a_chans s)); try discriminate; injection HS as <-; reflexivity.
    - injection HS as <-. reflexivity.
    - destruct (nth_error (a_chans s) c) as [k|]; [|discriminate]. destruct (k_items k); [discriminate|]. injection HS as <-. reflexivity. }
  destruct Q as [Q1 Q2]. rewrite C in Q2. auto.
Qed.

(* filters of snoc *)
Lemma sentAs_snoc l (n m : bs) c it :
  map snd (filter (fun e : bs * nat * item => bs_eqb (fst (fst e)) n) (l ++ [(m, c, it)]))
  = map snd (filter (fun e => bs_eqb (fst (fst e)) n) l) ++ (if bs_eqb m n then [it] else []).
Proof. rewrite filter_app, map_app. cbn. destruct (bs_eqb m n); reflexivity. Qed.
Lemma missed_snoc l (n m : bs) (it : item) :
  map snd (filter (fun e => bs_eqb (fst e) n) (l ++ [(m, it)]))
  = map snd (filter (fun e => bs_eqb (fst e) n) l) ++ (if bs_eqb m n then [it] else []).
Proof. rewrite filter_app, map_app. cbn. destruct (bs_eqb m n); reflexivity. Qed.
Definition restOK (s : ast) : Prop := match a_cons s with CServe _ r => NoDup r /\ r <> [] | _ => True end.

Lemma adds s o s' : restOK s -> okOp s o -> astep s o = Some s' -> restOK s'.
Proof.
  intros R OK H. destruct o as [it allow| |order|allow|name c|cap bad|c].
  - injection H as <-. unfold restOK in *. pose proof (doF_same allow s it) as (_&_&_&->&_). exact R.
  - cbn in H. destruct (a_cons s); try discriminate. destruct (a_queue s); [discriminate|]. injection H as <-. exact Logic.I.
  - cbn in H. destruct (a_cons s); try discriminate. injection H as <-. unfold restOK; cbn. destruct OK as [OK _]. destruct order; [exact Logic.I|]. split; [exact OK|discriminate].
  - destruct (a_cons s) as [| |it [|n r]] eqn:EC; try (cbn in H; rewrite EC in H; discriminate).
    destruct (serve_cases _ _ _ _ _ _ EC H) as (s1&ok&D&_&_&_&_&_&_&E&_). unfold restOK in *. rewrite EC in R. rewrite E.
    destruct r; [exact Logic.I|]. destruct R as [R _]. apply NoDup_cons_iff in R. split; [apply R|discriminate].
  - cbn [astep] in H. unfold restOK in *. destruct (a_cons s) eqn:EC; try discriminate; destruct (c <? length (a_chans s)); try discriminate; injection H as <-; exact Logic.I.
  - injection H as <-. exact R.
  - cbn [astep] in H. destruct (nth_error (a_chans s) c) as [k|]; [|discriminate]. destruct (k_items k); [discriminate|]. injection H as <-. exact R.
Qed.
Lemma rest_ok : forall s os s', aruns s os s' -> restOK s -> restOK s'.
Proof. induction 1; intros Q; [exact Q|]. apply IHaruns. eapply adds; eassumption. Qed.

(* at most once and in order *)
Definition pendFor (s : ast) (n : bs) : option item :=
  match a_cons s with CWait => None | CTook it => Some it | CServe it r => if existsb (bs_eqb n) r then Some it else None end.
Definition ordInv (n : bs) (s : ast) : Prop :=
  match pendFor s n with
  | None => subseq (sentAs s n) (a_taken s)
  | Some it => exists T, a_taken s = T ++ [it] /\ subseq (sentAs s n) T
  end.
Lemma notin_existsb n r : ~ In n r -> existsb (bs_eqb n) r = false.
Proof.
  intros H. destruct (existsb (bs_eqb n) r) eqn:E; [|reflexivity]. apply existsb_exists in E. destruct E as (x&I1&E). apply bs_eqb_spec in E. subst. contradiction.
Qed.
Lemma ord_done n s : ordInv n s -> subseq (sentAs s n) (a_taken s).
Proof. unfold ordInv. destruct (pendFor s n); [|auto]. intros (T&->&H). apply subseq_skip_snoc, H. Qed.
Lemma ord_step n s o s' : ordInv n s -> restOK s -> okOp s o -> astep s o = Some s' -> ordInv n s'.
Proof.
  intros J R OK H. destruct o as [it allow| |order|allow|name c|cap bad|c].
  - injection H as <-. pose proof (doF_same allow s it) as (_&_&_&E4&E5&E6&_&_). unfold ordInv, pendFor, sentAs in *. rewrite E4, E5, E6. exact J.
  - cbn in H. destruct (a_cons s) eqn:EC; try discriminate. destruct (a_queue s) as [|i q]; [discriminate|]. injection H as <-.
    unfold ordInv, pendFor in *. rewrite EC in J. cbn. exists (a_taken s). split; [reflexivity|exact J].
  - cbn in H. destruct (a_cons s) as [|it|] eqn:EC; try discriminate. injection H as <-.
    pose proof (ord_done _ _ J) as D. unfold ordInv, pendFor in *. rewrite EC in J. cbn.
    destruct order as [|x y]; [exact D|]. destruct (existsb (bs_eqb n) (x :: y)); [exact J|exact D].
  - destruct (a_cons s) as [| |it [|m r]] eqn:EC; try (cbn in H; rewrite EC in H; discriminate).
    destruct (serve_cases _ _ _ _ _ _ EC H) as (s1&ok&D&E1&E2&E3&E4&E5&E6&E7&_&_).
    unfold restOK in R. rewrite EC in R. destruct R as [R _]. apply NoDup_cons_iff in R. destruct R as [NI _].
    unfold ordInv, pendFor, sentAs in *. rewrite EC in J. rewrite E7, E3, E4. cbn [existsb] in J.
    destruct (bs_eqb n m) eqn:EN.
    + cbn [orb] in J. apply bs_eqb_spec in EN. subst m. destruct J as (T&ET&J).
      assert (P : pendFor s' n = None). { unfold pendFor. rewrite E7. destruct r; [reflexivity|]. rewrite (notin_existsb _ _ NI). reflexivity. }
      unfold pendFor in P. rewrite E7 in P.
      assert (G : subseq (map snd (filter (fun e => bs_eqb (fst (fst e)) n) (a_sent s1))) (a_taken s1)).
      { destruct (deliver_cases _ _ _ _ _ D) as [(_&->&_)|[(c&k&_&_&_&_&_&->)|(c&_&_&_&->)]]; cbn [a_sent a_taken]; rewrite ET.
        - apply subseq_skip_snoc, J.
        - rewrite sentAs_snoc, bs_eqb_refl. apply subseq_keep_snoc, J.
        - apply subseq_skip_snoc, J. }
      destruct r as [|x y]; [exact G|]. rewrite P. exact G.
    + cbn [orb] in J.
      assert (G : map snd (filter (fun e => bs_eqb (fst (fst e)) n) (a_sent s1)) = map snd (filter (fun e => bs_eqb (fst (fst e)) n) (a_sent s)) /\ a_taken s1 = a_taken s).
      { destruct (deliver_cases _ _ _ _ _ D) as [(_&->&_)|[(c&k&_&_&_&_&_&->)|(c&_&_&_&->)]]; cbn [a_sent a_taken]; auto.
        rewrite sentAs_snoc, bs_eqb_sym, EN, app_nil_r. auto. }
      destruct G as [G1 G2]. rewrite G1, G2. destruct r as [|x y]; exact J.
  - cbn [astep] in H. unfold ordInv, pendFor in *. destruct (a_cons s) eqn:EC; try discriminate; destruct (c <? length (a_chans s)); try discriminate; injection H as <-; exact J.
  - injection H as <-. exact J.
  - cbn [astep] in H. destruct (nth_error (a_chans s) c) as [k|]; [|discriminate]. destruct (k_items k); [discriminate|]. injection H as <-. exact J.
Qed.
Lemma ord_runs n : forall s os s', aruns s os s' -> ordInv n s -> restOK s -> ordInv n s'.
Proof.
  induction 1; intros J R; [exact J|]. apply IHaruns; [eapply ord_step; eassumption|eapply adds; eassumption].
Qed.
Lemma order_ok cap os s n : aruns (ainit cap) os s -> subseq (sentAs s n) (a_taken s).
Proof. intros H. apply ord_done. eapply ord_runs; [exact H|apply sub_nil|exact Logic.I]. Qed.

(* every item taken while a filter is registered goes to it or is missed by it *)
Definition accInv (n : bs) (s0 s : ast) : Prop :=
  registered s n /\ exists T S M, a_taken s = a_taken s0 ++ T /\ sentAs s n = sentAs s0 n ++ S /\ missed s n = missed s0 n ++ M
    /\ match pendFor s n with None => shuffle S M T | Some it => exists T', T = T' ++ [it] /\ shuffle S M T' end.
Lemma acc_step n s0 s o s' : accInv n s0 s -> restOK s -> okOp s o -> astep s o = Some s' -> accInv n s0 s'.
Proof.
  intros [RG (T&S&M&HT&HS&HM&J)] R OK H. destruct o as [it allow| |order|allow|name c|cap bad|c].
  - injection H as <-. pose proof (doF_same allow s it) as (_&E2&_&E4&E5&E6&_&E8).
    unfold accInv, registered, pendFor, sentAs, missed in *. rewrite E2, E4, E5, E6, E8. split; [exact RG|]. exists T, S, M. auto.
  - cbn in H. destruct (a_cons s) eqn:EC; try discriminate. destruct (a_queue s) as [|i q]; [discriminate|]. injection H as <-.
    unfold pendFor in J. rewrite EC in J. split; [exact RG|]. exists (T ++ [i]), S, M. cbn.
    split; [rewrite HT, app_assoc; reflexivity|]. split; [exact HS|]. split; [exact HM|]. exists T. auto.
  - cbn in H. destruct (a_cons s) as [|it|] eqn:EC; try discriminate. injection H as <-.
    unfold pendFor in J. rewrite EC in J. split; [exact RG|]. exists T, S, M. split; [exact HT|]. split; [exact HS|]. split; [exact HM|].
    assert (I1 : In n order) by (apply OK; exact RG). unfold pendFor; cbn.
    destruct order as [|x y]; [destruct I1|].
    replace (existsb (bs_eqb n) (x :: y)) with true; [exact J|]. symmetry. apply existsb_exists. exists n. split; [exact I1|apply bs_eqb_refl].
  - destruct (a_cons s) as [| |it [|m r]] eqn:EC; try (cbn in H; rewrite EC in H; discriminate).
    destruct (serve_cases _ _ _ _ _ _ EC H) as (s1&ok&D&E1&E2&E3&E4&E5&E6&E7&_&_).
    unfold restOK in R. rewrite EC in R. destruct R as [R _]. apply NoDup_cons_iff in R. destruct R as [NI _].
    unfold pendFor in J. rewrite EC in J. cbn [existsb] in J.
    assert (FS : a_filters s1 = a_filters s). { destruct (deliver_cases _ _ _ _ _ D) as [(_&->&_)|[(c&k&_&_&_&_&_&->)|(c&_&_&_&->)]]; reflexivity. }
    assert (TS : a_taken s1 = a_taken s). { destruct (deliver_cases _ _ _ _ _ D) as [(_&->&_)|[(c&k&_&_&_&_&_&->)|(c&_&_&_&->)]]; reflexivity. }
    split; [unfold registered in *; rewrite E1, FS; exact RG|].
    unfold sentAs, missed, pendFor in *. rewrite E3, E4, E6, E7, TS.
    destruct (bs_eqb n m) eqn:EN.
    + cbn [orb] in J. apply bs_eqb_spec in EN. subst m. destruct J as (T'&ET&J).
      assert (P : (match (match r with [] => CWait | _ :: _ => CServe it r end) with CWait => None | CTook it0 => Some it0 | CServe it0 r0 => if existsb (bs_eqb n) r0 then Some it0 else None end) = None).
      { destruct r; [reflexivity|]. rewrite (notin_existsb _ _ NI). reflexivity. }
      rewrite P.
      destruct (deliver_cases _ _ _ _ _ D) as [(NA&_&_)|[(c&k&_&_&_&_&_&->)|(c&_&_&_&->)]]; cbn [a_sent a_taken a_miss].
      * exfalso. apply (aget_None bs_eqb bs_eqb_spec) in NA. contradiction.
      * exists T, (S ++ [it]), M. rewrite sentAs_snoc, bs_eqb_refl, HS, app_assoc. split; [exact HT|]. split; [reflexivity|]. split; [exact HM|]. subst T. apply shuffle_snoc_l, J.
      * exists T, S, (M ++ [it]). rewrite missed_snoc, bs_eqb_refl, HM, app_assoc. split; [exact HT|]. split; [exact HS|]. split; [reflexivity|]. subst T. apply shuffle_snoc_r, J.
    + cbn [orb] in J. exists T, S, M. split; [exact HT|].
      assert (EM : bs_eqb m n = false) by (rewrite bs_eqb_sym; exact EN).
      split; [|split; [|destruct r as [|x y]; exact J]].
      * rewrite <- HS. destruct (deliver_cases _ _ _ _ _ D) as [(_&->&_)|[(c&k&_&_&_&_&_&->)|(c&_&_&_&->)]]; cbn [a_sent]; try reflexivity. rewrite sentAs_snoc, EM, app_nil_r. reflexivity.
      * rewrite <- HM. destruct (deliver_cases _ _ _ _ _ D) as [(_&->&_)|[(c&k&_&_&_&_&_&->)|(c&_&_&_&->)]]; cbn [a_miss]; try reflexivity. rewrite missed_snoc, EM, app_nil_r. reflexivity.
  - cbn [astep] in H.
    assert (G : s' = mkA (a_cap s) (a_queue s) (aset bs_eqb (a_filters s) name c) (a_chans s) (a_cons s) (a_in s) (a_taken s) (a_sent s) (a_read s) (a_lost s) (a_miss s)).
    { destruct (a_cons s) eqn:EC; try discriminate; destruct (c <? length (a_chans s)); try discriminate; injection H as <-; reflexivity. }
    subst s'. split; [|exists T, S, M; auto]. unfold registered in *; cbn.
    destruct (aget bs_eqb (aset bs_eqb (a_filters s) name c) n) eqn:EG.
    + apply (aget_In bs_eqb bs_eqb_spec) in EG. apply in_map_iff. eexists. split; [|exact EG]. reflexivity.
    + exfalso. rewrite (aget_aset bs_eqb bs_eqb_spec) in EG. destruct (bs_eqb n name); [discriminate|]. apply (aget_None bs_eqb bs_eqb_spec) in EG. contradiction.
  - injection H as <-. split; [exact RG|]. exists T, S, M. auto.
  - cbn [astep] in H. destruct (nth_error (a_chans s) c) as [k|]; [|discriminate]. destruct (k_items k); [discriminate|]. injection H as <-. split; [exact RG|]. exists T, S, M. auto.
Qed.
Lemma acc_runs n s0 : forall s os s', aruns s os s' -> accInv n s0 s -> restOK s -> accInv n s0 s'.
Proof.
  induction 1; intros J R; [exact J|]. apply IHaruns; [eapply acc_step; eassumption|eapply adds; eassumption].
Qed.
Lemma each_ok cap os0 s0 os s n : aruns (ainit cap) os0 s0 -> registered s0 n -> a_cons s0 = CWait -> aruns s0 os s -> a_cons s = CWait ->
  exists T S M, a_taken s = a_taken s0 ++ T /\ sentAs s n = sentAs s0 n ++ S /\ missed s n = missed s0 n ++ M /\ shuffle S M T.
Proof.
  intros H0 RG W0 H W.
  assert (R0 : restOK s0) by (unfold restOK; rewrite W0; exact Logic.I).
  assert (A : accInv n s0 s).
  { eapply acc_runs; [exact H| |exact R0]. split; [exact RG|]. exists [], [], []. rewrite !app_nil_r. unfold pendFor. rewrite W0. repeat split. apply sh_nil. }
  destruct A as [_ (T&S&M&A1&A2&A3&A4)]. exists T, S, M. unfold pendFor in A4. rewrite W in A4. auto.
Qed.
Lemma none_missed cap os0 s0 os s n : aruns (ainit cap) os0 s0 -> registered s0 n -> a_cons s0 = CWait -> aruns s0 os s -> a_cons s = CWait ->
  missed s n = missed s0 n -> exists T, a_taken s = a_taken s0 ++ T /\ sentAs s n = sentAs s0 n ++ T.
Proof.
  intros H0 RG W0 H W E. destruct (each_ok _ _ _ _ _ _ H0 RG W0 H W) as (T&S&M&A1&A2&A3&A4).
  assert (M = []). { rewrite A3 in E. apply (f_equal (@length item)) in E. rewrite app_length in E. destruct M; [reflexivity|cbn in E; lia]. }
  subst M. apply shuffle_nil_r in A4. subst S. exists T. auto.
Qed.

(* a channel gives its reader what was put in it *)
Definition chanInv (s : ast) : Prop :=
  (forall c k, nth_error (a_chans s) c = Some k -> sentTo s c = readFrom s c ++ k_items k /\ (k_items k = [] \/ length (k_items k) <= k_cap k))
  /\ (forall c, length (a_chans s) <= c -> sentTo s c = [] /\ readFrom s c = []).
Lemma sentTo_snoc l c n c' (it : item) :
  map snd (filter (fun e : bs * nat * item => Nat.eqb (snd (fst e)) c) (l ++ [(n, c', it)]))
  = map snd (filter (fun e => Nat.eqb (snd (fst e)) c) l) ++ (if Nat.eqb c' c then [it] else []).
Proof. rewrite filter_app, map_app. cbn. destruct (Nat.eqb c' c); reflexivity. Qed.
Lemma readFrom_snoc l c c' (it : item) :
  map snd (filter (fun e => Nat.eqb (fst e) c) (l ++ [(c', it)])) = map snd (filter (fun e => Nat.eqb (fst e) c) l) ++ (if Nat.eqb c' c then [it] else []).
Proof. rewrite filter_app, map_app. cbn. destruct (Nat.eqb c' c); reflexivity. Qed.
Lemma chan_deliver s n it s1 ok : deliver s n it = (s1, ok) -> chanInv s -> chanInv s1.
Proof.
  intros D [C1 C2]. destruct (deliver_cases _ _ _ _ _ D) as [(_&->&_)|[(c&k&_&EK&_&LT&_&->)|(c&_&_&_&->)]].
  - split; assumption.
  - assert (L : c < length (a_chans s)) by (apply nth_error_Some; rewrite EK; discriminate).
    split.
    + intros c' k'. cbn [a_chans]. rewrite (list_set_nth_error _ _ _ _ L). unfold sentTo, readFrom. cbn [a_sent a_read]. rewrite sentTo_snoc.
      destruct (Nat.eqb c' c) eqn:E.
      * apply Nat.eqb_eq in E. subst c'. intros E; injection E as <-. rewrite Nat.eqb_refl. cbn. destruct (C1 c k EK) as [A B]. unfold sentTo, readFrom in A. rewrite A, app_assoc. split; [reflexivity|]. right. rewrite app_length. cbn. lia.
      * intros EK'. rewrite Nat.eqb_sym, E, app_nil_r. apply C1, EK'.
    + intros c'. cbn [a_chans]. rewrite list_set_length. intros L'. destruct (C2 c' L') as [A B]. unfold sentTo, readFrom in *. cbn [a_sent a_read]. rewrite sentTo_snoc.
      replace (Nat.eqb c c') with false by (symmetry; apply Nat.eqb_neq; lia). rewrite app_nil_r. auto.
  - split; assumption.
Qed.
Lemma chan_step s o s' : chanInv s -> astep s o = Some s' -> chanInv s'.
Proof.
  intros [C1 C2] H. destruct o as [it allow| |order|allow|name c|cap bad|c].
  - injection H as <-. pose proof (doF_same allow s it) as (_&_&E3&_&_&E6&E7&_). unfold chanInv, sentTo, readFrom. rewrite E3, E6, E7. split; assumption.
  - cbn in H. destruct (a_cons s); try discriminate. destruct (a_queue s); [discriminate|]. injection H as <-. split; assumption.
  - cbn in H. destruct (a_cons s); try discriminate. injection H as <-. split; assumption.
  - destruct (a_cons s) as [| |it [|m r]] eqn:EC; try (cbn in H; rewrite EC in H; discriminate).
    destruct (serve_cases _ _ _ _ _ _ EC H) as (s1&ok&D&E1&E2&E3&E4&E5&E6&E7&_&_).
    pose proof (chan_deliver _ _ _ _ _ D (conj C1 C2)) as CC. unfold chanInv, sentTo, readFrom in *. rewrite E2, E4, E5. exact CC.
  - cbn [astep] in H. destruct (a_cons s); try discriminate; destruct (c <? length (a_chans s)); try discriminate; injection H as <-; split; assumption.
  - injection H as <-. split; cbn [a_chans]; unfold sentTo, readFrom; cbn [a_sent a_read].
    + intros c k E. destruct (Nat.lt_ge_cases c (length (a_chans s))) as [L|L].
      * rewrite nth_error_app1 in E by exact L. apply C1, E.
      * rewrite nth_error_app2 in E by exact L. destruct (c - length (a_chans s)) as [|j] eqn:EJ; [|destruct j; discriminate]. injection E as <-.
        destruct (C2 c L) as [A B]. unfold sentTo, readFrom in A, B. rewrite A, B. split; [reflexivity|left; reflexivity].
    + intros c L. rewrite app_length in L. cbn in L. apply C2. lia.
  - cbn [astep] in H. destruct (nth_error (a_chans s) c) as [k|] eqn:EK; [|discriminate]. destruct (k_items k) as [|i r] eqn:EI; [discriminate|]. injection H as <-.
    assert (L : c < length (a_chans s)) by (apply nth_error_Some; rewrite EK; discriminate).
    split.
    + intros c' k'. cbn [a_chans]. rewrite (list_set_nth_error _ _ _ _ L). unfold sentTo, readFrom. cbn [a_sent a_read]. rewrite readFrom_snoc.
      destruct (Nat.eqb c' c) eqn:E.
      * apply Nat.eqb_eq in E. subst c'. intros E; injection E as <-. rewrite Nat.eqb_refl. cbn. destruct (C1 c k EK) as [A B]. unfold sentTo, readFrom in A. rewrite A, EI, <- app_assoc. split; [reflexivity|].
        right. rewrite EI in B. destruct B as [B|B]; [discriminate|]. cbn in B. lia.
      * intros EK'. rewrite Nat.eqb_sym, E, app_nil_r. apply C1, EK'.
    + intros c'. cbn [a_chans]. rewrite list_set_length. intros L'. destruct (C2 c' L') as [A B]. unfold sentTo, readFrom in *. cbn [a_sent a_read]. rewrite readFrom_snoc.
      replace (Nat.eqb c c') with false by (symmetry; apply Nat.eqb_neq; lia). rewrite app_nil_r. auto.
Qed.
Lemma chan_ok cap os s c k : aruns (ainit cap) os s -> nth_error (a_chans s) c = Some k -> sentTo s c = readFrom s c ++ k_items k /\ length (k_items k) <= k_cap k.
Proof.
  intros H E. assert (C : chanInv s).
  { assert (K : forall s1 os1 s2, aruns s1 os1 s2 -> chanInv s1 -> chanInv s2). { induction 1; intros Q; [exact Q|]. apply IHaruns. eapply chan_step; eassumption. }
    eapply K; [exact H|]. split; cbn; [intros [|?] ? X; discriminate X|]. intros; split; reflexivity. }
  destruct C as [C _]. destruct (C c k E) as [A [B|B]]; split; auto. rewrite B. cbn. lia.
Qed.

(* single steps *)
Lemma log_ok s it allow : exists s', astep s (ALog it allow) = Some s'
  /\ sameBut s s'
  /\ (a_filters s = [] -> s' = s)
  /\ (a_filters s <> [] -> length (a_queue s) < a_cap s -> a_queue s' = a_queue s ++ [it] /\ a_lost s' = a_lost s)
  /\ (a_cap s <= length (a_queue s) -> a_queue s' = a_queue s)
  /\ (exists l, a_lost s' = a_lost s ++ l /\ incl l (it :: allow)).
Proof.
  exists (doFilters s it allow). split; [reflexivity|]. split; [apply doF_same|].
  split. { intros E. destruct allow; cbn [doFilters]; rewrite E; reflexivity. }
  split. { intros E L. assert (ER : room s = true) by (apply Nat.ltb_lt; exact L). destruct allow; cbn [doFilters]; destruct (a_filters s); try contradiction; rewrite ER; split; reflexivity. }
  split.
  - revert s it. induction allow as [|e r IH]; intros s it L; cbn [doFilters]; destruct (a_filters s); try reflexivity;
      (replace (room s) with false by (symmetry; apply Nat.ltb_ge; exact L)); [reflexivity|]. rewrite IH; [reflexivity|exact L].
  - revert s it. induction allow as [|e r IH]; intros s it; cbn [doFilters]; destruct (a_filters s); try (exists []; rewrite app_nil_r; split; [reflexivity|intros ? []]);
      destruct (room s); try (exists []; cbn; rewrite app_nil_r; split; [reflexivity|intros ? []]).
    + exists [it]. split; [reflexivity|]. intros x X; exact X.
    + match goal with |- context[doFilters ?x e r] => destruct (IH x e) as (ls&E&I1) end. exists (it :: ls). split; [rewrite E; cbn; rewrite <- app_assoc; reflexivity|].
      intros x [X|X]; [left; exact X|right; apply I1, X].
Qed.
Lemma serve_ok s it n r c allow : a_cons s = CServe it (n :: r) -> canTake s n c ->
  exists s' k, astep s (AServe allow) = Some s' /\ nth_error (a_chans s) c = Some k /\ nth_error (a_chans s') c = Some (mkChan (k_items k ++ [it]) (k_cap k) (k_bad k))
    /\ (forall c', c' <> c -> nth_error (a_chans s') c' = nth_error (a_chans s) c')
    /\ sentAs s' n = sentAs s n ++ [it] /\ a_miss s' = a_miss s /\ a_queue s' = a_queue s
    /\ a_cons s' = match r with [] => CWait | _ => CServe it r end.
Proof.
  intros EC (EA&k&EK&EB&EL). assert (exists s', astep s (AServe allow) = Some s') as [s' H].
  { cbn [astep]. rewrite EC. destruct (deliver s n it). eexists; reflexivity. }
  destruct (serve_cases _ _ _ _ _ _ EC H) as (s1&ok&D&E1&E2&E3&E4&E5&E6&E7&_&E9). exists s', k. split; [exact H|]. split; [exact EK|].
  destruct (deliver_cases _ _ _ _ _ D) as [(NA&_)|[(c'&k'&EA'&EK'&_&_&OKK&ES)|(c'&EA'&_&BAD&_)]].
  - congruence.
  - rewrite EA in EA'. injection EA' as <-. rewrite EK in EK'. injection EK' as <-. destruct (E9 OKK) as (Q1&_&_). subst s1. cbn [a_chans a_sent a_miss a_queue] in *.
    assert (L : c < length (a_chans s)) by (apply nth_error_Some; rewrite EK; discriminate).
    split. { rewrite E2, (list_set_nth_error _ _ _ _ L), Nat.eqb_refl. reflexivity. }
    split. { intros c' NE. rewrite E2, (list_set_nth_error _ _ _ _ L). replace (Nat.eqb c' c) with false by (symmetry; apply Nat.eqb_neq; exact NE). reflexivity. }
    split. { unfold sentAs. rewrite E4, sentAs_snoc, bs_eqb_refl. reflexivity. }
    auto.
  - exfalso. rewrite EA in EA'. injection EA' as <-. destruct BAD as [BAD|(k'&EK'&BAD)]; [congruence|]. rewrite EK in EK'. injection EK' as <-. destruct BAD as [B|B]; [congruence|lia].
Qed.
Lemma serve_moves s it n r allow : a_cons s = CServe it (n :: r) ->
  exists s', astep s (AServe allow) = Some s' /\ a_cons s' = match r with [] => CWait | _ => CServe it r end.
Proof.
  intros EC. assert (exists s', astep s (AServe allow) = Some s') as [s' H]. { cbn [astep]. rewrite EC. destruct (deliver s n it). eexists; reflexivity. }
  destruct (serve_cases _ _ _ _ _ _ EC H) as (s1&ok&D&_&_&_&_&_&_&E7&_). exists s'. auto.
Qed.
Lemma miss_why s o s' : astep s o = Some s' ->
  a_miss s' = a_miss s
  \/ exists it n r c, o <> ATake /\ a_cons s = CServe it (n :: r) /\ a_miss s' = a_miss s ++ [(n, it)] /\ a_sent s' = a_sent s
      /\ aget bs_eqb (a_filters s) n = Some c /\ ~ canTake s n c.
Proof.
  intros H. destruct o as [it allow| |order|allow|name c|cap bad|c].
  - left. injection H as <-. apply doF_same.
  - left. cbn in H. destruct (a_cons s); try discriminate. destruct (a_queue s); [discriminate|]. injection H as <-. reflexivity.
  - left. cbn in H. destruct (a_cons s); try discriminate. injection H as <-. reflexivity.
  - destruct (a_cons s) as [| |it [|m r]] eqn:EC; try (cbn in H; rewrite EC in H; discriminate).
    destruct (serve_cases _ _ _ _ _ _ EC H) as (s1&ok&D&E1&E2&E3&E4&E5&E6&E7&_&_). rewrite E6, E4.
    destruct (deliver_cases _ _ _ _ _ D) as [(_&->&_)|[(c&k&_&_&_&_&_&->)|(c&EA&_&BAD&->)]]; [left; reflexivity|left; reflexivity|].
    right. exists it, m, r, c. split; [discriminate|]. split; [reflexivity|]. split; [reflexivity|]. split; [reflexivity|]. split; [exact EA|].
    intros (_&k&EK&B1&B2). destruct BAD as [BAD|(k'&EK'&BAD)]; [congruence|]. rewrite EK in EK'. injection EK' as <-. destruct BAD; [congruence|lia].
  - left. cbn [astep] in H. destruct (a_cons s); try discriminate; destruct (c <? length (a_chans s)); try discriminate; injection H as <-; reflexivity.
  - left. injection H as <-. reflexivity.
  - left. cbn [astep] in H. destruct (nth_error (a_chans s) c) as [k|]; [|discriminate]. destruct (k_items k); [discriminate|]. injection H as <-. reflexivity.
Qed.
