(* ClcProofs2.v: histories of client contexts. *)
From Verif Require Import Base Strconv GoStrings GoStrings2 UrlModel UrlSpec UrlProofs ConfModel ConfSpec ConfProofs CtxModel CtxSpec CtxProofs BootModel BootSpec BootProofs ClcModel ClcSpec ClcProofs.
Require Import Coq.Sorting.Permutation.
Ltac Zify.zify_post_hook ::= idtac.

Lemma crun_app e a : forall s b, crun e s (a ++ b) =
  match crun e s a with Some (s1, t1) => match crun e s1 b with Some (s2, t2) => Some (s2, t1 ++ t2) | None => None end | None => None end.
Proof.
  induction a as [|o a IH]; intros s b; cbn [app crun].
  - destruct (crun e s b) as [[s2 t2]|]; reflexivity.
  - destruct (cstep e s o) as [[s1 x]|]; [|reflexivity]. rewrite IH. destruct (crun e s1 a) as [[s2 t2]|]; [|reflexivity].
    destruct (crun e s2 b) as [[s3 t3]|]; reflexivity.
Qed.
Lemma crun_split e os : forall s s' tr p o x, crun e s os = Some (s', tr) -> nth_error tr p = Some (o, x) ->
  exists s1 s2, crun e s (firstn p os) = Some (s1, firstn p tr) /\ cstep e s1 o = Some (s2, x) /\ crun e s2 (skipn (S p) os) = Some (s', skipn (S p) tr) /\ nth_error os p = Some o.
Proof.
  induction os as [|o0 os IH]; intros s s' tr p o x H N; cbn [crun] in H.
  - injection H as <- <-. destruct p; discriminate N.
  - destruct (cstep e s o0) as [[s1 y]|] eqn:E; [|discriminate H]. destruct (crun e s1 os) as [[s2 t2]|] eqn:R; [|discriminate H]. injection H as <- <-.
    destruct p as [|p]; cbn [nth_error firstn skipn crun] in N |- *.
    + injection N as -> ->. exists s, s1. repeat split; [exact E|exact R].
    + destruct (IH _ _ _ _ _ _ R N) as (a & b & A & B & C & D). exists a, b. rewrite E, A. repeat split; assumption.
Qed.

(* what a step does to the tables *)
Lemma newctx_shape e s conf s' x : newClientContext e s conf = (s', x) ->
  cFiles s' = cFiles s /\ cClus s' = cClus s /\ cReads s' = cReads s /\
  ((x = OPanic /\ cAll s' = cAll s) \/
   (x = OCtx (length (cAll s)) /\ exists c, newContext e conf = Some c /\ cAll s' = cAll s ++ [mkMctx conf c []])).
Proof.
  unfold newClientContext. destruct (newContext e conf) as [c|]; [|intro H; injection H as <- <-; repeat split; left; split; reflexivity].
  cbv zeta. destruct (obind _ _) as [[fs li]|]; [|intro H; injection H as <- <-; repeat split; left; split; reflexivity].
  destruct (registerSwitchers _ _) as [sw [|]]; intro H; injection H as <- <-; repeat split.
  - right. split; [reflexivity|]. exists c. split; reflexivity.
  - left. split; reflexivity.
Qed.
Lemma step_shape e s o s' x : cstep e s o = Some (s', x) ->
  (cFiles s' = cFiles s /\ cAll s' = cAll s /\ (forall i, x = OCtx i -> exists f c, o = CGet f c /\ aget bs_eqb (cFiles s) f = Some i) /\ cClus s' = cClus s /\ (forall i, started i o = None)) \/
  (x = OCtx (length (cAll s)) /\ (exists conf c, op_conf o = Some conf /\ newContext e conf = Some c /\ cAll s' = cAll s ++ [mkMctx conf c []]) /\
   cClus s' = cClus s /\ (forall i, started i o = None) /\
   ((exists f c, o = CGet f c /\ aget bs_eqb (cFiles s) f = None /\ cFiles s' = aset bs_eqb (cFiles s) f (length (cAll s))) \/ (exists c, o = CNew c) /\ cFiles s' = cFiles s)) \/
  (exists i f m, o = CStart i f /\ x = ODone /\ nth_error (cAll s) i = Some m /\ cFiles s' = cFiles s /\
     let fc := match f with None => FDefault | Some n => FGiven n end in
     let st := startRefers fc (xRefers (mCtx m)) (mClients m) (cClus s) in
     cAll s' = list_set (cAll s) i (mkMctx (mConf m) (mCtx m) (fst st)) /\ cClus s' = snd st).
Proof.
  destruct o as [f c|conf|i f|i k|i]; cbn [cstep].
  - destruct (aget bs_eqb (cFiles s) f) as [i|] eqn:A.
    { intro H. injection H as <- <-. left. split; [reflexivity|]. split; [reflexivity|]. split; [|split; reflexivity]. intros j E. injection E as <-. exists f, c. split; [reflexivity|exact A]. }
    destruct c as [conf|]; cbv zeta.
    + destruct (newClientContext _ _ conf) as [s2 y] eqn:N. apply newctx_shape in N. cbn [cFiles cClus cReads cAll] in N. destruct N as (N1 & N2 & N3 & [[-> N4]|[-> (c & N4 & N5)]]); intro H; injection H as <- <-.
      * left. split; [exact N1|]. split; [exact N4|]. split; [intros i E; discriminate E|]. split; [exact N2|reflexivity].
      * right. left. cbn [cFiles cAll cClus]. split; [reflexivity|]. split; [exists conf, c; split; [reflexivity|split; [exact N4|exact N5]]|].
        split; [exact N2|]. split; [reflexivity|]. left. exists f, (Some conf). split; [reflexivity|]. split; [exact A|]. rewrite N1. reflexivity.
    + intro H. injection H as <- <-. left. split; [reflexivity|]. split; [reflexivity|]. split; [intros i E; discriminate E|split; reflexivity].
  - destruct (newClientContext e s conf) as [s2 y] eqn:N. apply newctx_shape in N. destruct N as (N1 & N2 & N3 & [[-> N4]|[-> (c & N4 & N5)]]); intro H; injection H as <- <-.
    + left. split; [exact N1|]. split; [exact N4|]. split; [intros i E; discriminate E|]. split; [exact N2|reflexivity].
    + right. left. split; [reflexivity|]. split; [exists conf, c; split; [reflexivity|split; [exact N4|exact N5]]|]. split; [exact N2|]. split; [reflexivity|]. right. split; [eauto|exact N1].
  - destruct (nth_error (cAll s) i) as [m|] eqn:E; [|discriminate]. intro H. injection H as <- <-. right. right. exists i, f, m. repeat split. exact E.
  - destruct (nth_error (cAll s) i) as [m|] eqn:E; [|discriminate]. intro H. injection H as <- <-. left. split; [reflexivity|]. split; [reflexivity|]. split; [intros j Q; discriminate Q|split; reflexivity].
  - destruct (nth_error (cAll s) i) as [m|] eqn:E; [|discriminate]. intro H. injection H as <- <-. left. split; [reflexivity|]. split; [reflexivity|]. split; [intros j Q; discriminate Q|split; reflexivity].
Qed.
Lemma step_len e s o s' x : cstep e s o = Some (s', x) -> length (cAll s) <= length (cAll s').
Proof.
  intro H. apply step_shape in H as [(_ & -> & _)|[(_ & (conf & c & _ & _ & ->) & _)|(i & f & m & _ & _ & _ & _ & -> & _)]]; [lia|rewrite app_length; lia|rewrite list_set_length; lia].
Qed.
Lemma step_keep e s o s' x f i : cstep e s o = Some (s', x) -> aget bs_eqb (cFiles s) f = Some i -> aget bs_eqb (cFiles s') f = Some i.
Proof.
  intros H A. apply step_shape in H as [(-> & _)|[(_ & _ & _ & _ & [(g & c & _ & B & ->)|[_ ->]])|(j & g & m & _ & _ & _ & -> & _)]]; try exact A.
  rewrite (aget_aset bs_eqb bs_eqb_spec). destruct (bs_eqb f g) eqn:E; [|exact A]. apply bs_eqb_spec in E. subst g. rewrite A in B. discriminate B.
Qed.
Lemma step_back e s o s' x g i : cstep e s o = Some (s', x) -> aget bs_eqb (cFiles s') g = Some i -> i < length (cAll s) -> aget bs_eqb (cFiles s) g = Some i.
Proof.
  intros H A L. apply step_shape in H as [(Q & _)|[(_ & _ & _ & _ & [(h & c & _ & B & Q)|[_ Q]])|(j & h & m & _ & _ & _ & Q & _)]]; rewrite Q in A; try exact A.
  rewrite (aget_aset bs_eqb bs_eqb_spec) in A. destruct (bs_eqb g h); [injection A as <-; lia|exact A].
Qed.
Lemma run_keep e os : forall s s' tr f i, crun e s os = Some (s', tr) -> aget bs_eqb (cFiles s) f = Some i -> aget bs_eqb (cFiles s') f = Some i.
Proof.
  induction os as [|o os IH]; intros s s' tr f i H A; cbn [crun] in H; [injection H as <- <-; exact A|].
  destruct (cstep e s o) as [[s1 x]|] eqn:E; [|discriminate H]. destruct (crun e s1 os) as [[s2 t2]|] eqn:R; [|discriminate H]. injection H as <- <-.
  eapply IH; [exact R|]. eapply step_keep; [exact E|exact A].
Qed.
Lemma run_len e os : forall s s' tr, crun e s os = Some (s', tr) -> length (cAll s) <= length (cAll s').
Proof.
  induction os as [|o os IH]; intros s s' tr H; cbn [crun] in H; [injection H as <- <-; lia|].
  destruct (cstep e s o) as [[s1 x]|] eqn:E; [|discriminate H]. destruct (crun e s1 os) as [[s2 t2]|] eqn:R; [|discriminate H]. injection H as <- <-.
  apply step_len in E. apply IH in R. lia.
Qed.
Lemma run_back e os : forall s s' tr g i, crun e s os = Some (s', tr) -> aget bs_eqb (cFiles s') g = Some i -> i < length (cAll s) -> aget bs_eqb (cFiles s) g = Some i.
Proof.
  induction os as [|o os IH]; intros s s' tr g i H A L; cbn [crun] in H; [injection H as <- <-; exact A|].
  destruct (cstep e s o) as [[s1 x]|] eqn:E; [|discriminate H]. destruct (crun e s1 os) as [[s2 t2]|] eqn:R; [|discriminate H]. injection H as <- <-.
  eapply step_back; [exact E| |exact L]. eapply IH; [exact R|exact A|]. apply step_len in E. lia.
Qed.
(* a context that was returned exists, and is in the table if a file was asked for *)
Lemma step_ctx e s o s' i : (forall f j, aget bs_eqb (cFiles s) f = Some j -> j < length (cAll s)) -> cstep e s o = Some (s', OCtx i) ->
  i < length (cAll s') /\ (forall f c, o = CGet f c -> aget bs_eqb (cFiles s') f = Some i) /\
  ((exists f c, o = CGet f c /\ aget bs_eqb (cFiles s) f = Some i) \/ (i = length (cAll s) /\ forall c, o = CNew c -> cFiles s' = cFiles s)).
Proof.
  intros V H. pose proof (step_len _ _ _ _ _ H) as L. pose proof H as K. apply step_shape in H as [(Q & _ & G & _)|[(E & (conf & c & _ & _ & A) & _ & _ & [(f & d & -> & B & Q)|[[d ->] Q]])|(j & f & m & _ & E & _)]].
  - destruct (G i eq_refl) as (f & c & -> & A). split; [|split].
    + specialize (V _ _ A). lia.
    + intros f' c' E. injection E as <- <-. rewrite Q. exact A.
    + left. exists f, c. split; [reflexivity|exact A].
  - injection E as ->. split; [rewrite A, app_length; cbn; lia|]. split; [|right; split; [reflexivity|intros c0 E; discriminate E]].
    intros f' c' E. injection E as <- <-. rewrite Q, (aget_aset bs_eqb bs_eqb_spec), bs_eqb_refl. reflexivity.
  - injection E as ->. split; [rewrite A, app_length; cbn; lia|]. split; [intros f' c' E; discriminate E|]. right. split; [reflexivity|]. intros _ _. exact Q.
  - discriminate E.
Qed.
(* the table is sound *)
Definition tbl (s : cst) : Prop := (forall f j, aget bs_eqb (cFiles s) f = Some j -> j < length (cAll s)) /\
  forall f g j, aget bs_eqb (cFiles s) f = Some j -> aget bs_eqb (cFiles s) g = Some j -> f = g.
Lemma tbl0 : tbl cst0.
Proof. split; intros; discriminate. Qed.
Lemma step_tbl e s o s' x : tbl s -> cstep e s o = Some (s', x) -> tbl s'.
Proof.
  intros [T1 T2] H. pose proof (step_len _ _ _ _ _ H) as L. apply step_shape in H as [(Q & _)|[(_ & (conf & c & _ & _ & A) & _ & _ & [(h & d & _ & B & Q)|[_ Q]])|(j & h & m & _ & _ & _ & Q & _)]];
    try (split; rewrite Q; [intros f k K; specialize (T1 _ _ K); lia|exact T2]).
  rewrite A, app_length in L. cbn [length] in L. split; rewrite Q.
  - intros f j. rewrite A, app_length, (aget_aset bs_eqb bs_eqb_spec). cbn [length]. destruct (bs_eqb f h); intro K; [injection K as <-; lia|specialize (T1 _ _ K); lia].
  - intros f g j. rewrite !(aget_aset bs_eqb bs_eqb_spec). destruct (bs_eqb f h) eqn:F, (bs_eqb g h) eqn:G; intros K1 K2.
    + apply bs_eqb_spec in F, G. congruence.
    + injection K1 as <-. specialize (T1 _ _ K2). lia.
    + injection K2 as <-. specialize (T1 _ _ K1). lia.
    + exact (T2 _ _ _ K1 K2).
Qed.
Lemma run_tbl e os : forall s s' tr, tbl s -> crun e s os = Some (s', tr) -> tbl s'.
Proof.
  induction os as [|o os IH]; intros s s' tr T H; cbn [crun] in H; [injection H as <- <-; exact T|].
  destruct (cstep e s o) as [[s1 x]|] eqn:E; [|discriminate H]. destruct (crun e s1 os) as [[s2 t2]|] eqn:R; [|discriminate H]. injection H as <- <-.
  eapply IH; [|exact R]. eapply step_tbl; [exact T|exact E].
Qed.
Lemma nth_skip {A} (l : list A) p q : p < q -> nth_error (skipn (S p) l) (q - S p) = nth_error l q.
Proof.
  revert p q. induction l as [|a l IH]; intros p q L; [rewrite skipn_nil; destruct (q - S p), q; reflexivity|].
  destruct q as [|q]; [lia|]. destruct p as [|p]; cbn [skipn nth_error]; [rewrite Nat.sub_succ, Nat.sub_0_r; reflexivity|].
  rewrite <- (IH p q) by lia. reflexivity.
Qed.
(* two positions of a history *)
Lemma two_points e os s tr p q o x o' y : crun e cst0 os = Some (s, tr) -> p < q -> nth_error tr p = Some (o, x) -> nth_error tr q = Some (o', y) ->
  exists s1 s2 s3 s4 os' tr', tbl s1 /\ cstep e s1 o = Some (s2, x) /\ crun e s2 os' = Some (s3, tr') /\ cstep e s3 o' = Some (s4, y).
Proof.
  intros R L P Q. destruct (crun_split _ _ _ _ _ _ _ _ R P) as (s1 & s2 & A & B & C & _). rewrite <- (nth_skip _ _ _ L) in Q.
  destruct (crun_split _ _ _ _ _ _ _ _ C Q) as (s3 & s4 & A' & B' & _). exists s1, s2, s3, s4. eexists. eexists. split; [eapply run_tbl; [exact tbl0|exact A]|].
  split; [exact B|]. split; [exact A'|exact B'].
Qed.
Lemma cached e os s tr p q f c c' i x : crun e cst0 os = Some (s, tr) -> p < q -> nth_error tr p = Some (CGet f c, OCtx i) -> nth_error tr q = Some (CGet f c', x) -> x = OCtx i.
Proof.
  intros R L P Q. destruct (two_points _ _ _ _ _ _ _ _ _ _ R L P Q) as (s1 & s2 & s3 & s4 & os' & tr' & T & A & B & C).
  destruct (step_ctx _ _ _ _ _ (proj1 T) A) as (_ & G & _). specialize (G _ _ eq_refl). pose proof (run_keep _ _ _ _ _ _ _ B G) as K.
  cbn [cstep] in C. rewrite K in C. injection C as _ <-. reflexivity.
Qed.
Lemma apart e os s tr p q o o' i : crun e cst0 os = Some (s, tr) -> p < q -> nth_error tr p = Some (o, OCtx i) -> nth_error tr q = Some (o', OCtx i) ->
  exists f c c', o = CGet f c /\ o' = CGet f c'.
Proof.
  intros R L P Q. destruct (two_points _ _ _ _ _ _ _ _ _ _ R L P Q) as (s1 & s2 & s3 & s4 & os' & tr' & T & A & B & C).
  pose proof (step_tbl _ _ _ _ _ T A) as T2. pose proof (run_tbl _ _ _ _ _ T2 B) as T3.
  destruct (step_ctx _ _ _ _ _ (proj1 T) A) as (I1 & G & F). destruct (step_ctx _ _ _ _ _ (proj1 T3) C) as (_ & _ & [(g & c' & -> & K)|[K _]]).
  - pose proof (run_back _ _ _ _ _ _ _ B K I1) as K2. destruct o as [f c|conf|j fa|j k|j]; [| |cbn [cstep] in A; destruct (nth_error (cAll s1) j); discriminate A..].
    + specialize (G _ _ eq_refl). rewrite (proj2 T2 _ _ _ G K2). exists g, c, c'. split; reflexivity.
    + destruct F as [(f & c & E & _)|[-> F]]; [discriminate E|]. rewrite (F _ eq_refl) in K2. apply (proj1 T) in K2. lia.
  - apply run_len in B. lia.
Qed.
Lemma step_reads e s o s' x f : cstep e s o = Some (s', x) ->
  countb (bs_eqb f) (cReads s') = countb (bs_eqb f) (cReads s) + match aget bs_eqb (cFiles s) f with Some _ => 0 | None => match o with CGet g _ => if bs_eqb g f then 1 else 0 | _ => 0 end end.
Proof.
  destruct o as [g c|conf|i fa|i k|i]; cbn [cstep].
  - destruct (aget bs_eqb (cFiles s) g) as [i|] eqn:A.
    { intro H. injection H as <- _. destruct (bs_eqb g f) eqn:E; [apply bs_eqb_spec in E; subst g; rewrite A; lia|]. destruct (aget _ _ f); lia. }
    assert (X : countb (bs_eqb f) (cReads s ++ [g]) = countb (bs_eqb f) (cReads s) + match aget bs_eqb (cFiles s) f with Some _ => 0 | None => if bs_eqb g f then 1 else 0 end).
    { rewrite countb_app, countb_cons, (bs_eqb_sym f g). change (countb (bs_eqb f) []) with 0. destruct (bs_eqb g f) eqn:E; [apply bs_eqb_spec in E; subst g; rewrite A; lia|]. destruct (aget _ _ f); lia. }
    destruct c as [conf|]; cbv zeta.
    + destruct (newClientContext _ _ conf) as [s2 y] eqn:N. apply newctx_shape in N. cbn [cFiles cClus cReads cAll] in N. destruct N as (N1 & N2 & N3 & [[-> N4]|[-> (c & N4 & N5)]]); intro H; injection H as <- _; cbn [cReads]; rewrite N3; exact X.
    + intro H. injection H as <- _. exact X.
  - destruct (newClientContext e s conf) as [s2 y] eqn:N. apply newctx_shape in N. destruct N as (N1 & N2 & N3 & _). intro H; injection H as <- _. rewrite N3. destruct (aget _ _ f); lia.
  - destruct (nth_error _ _); [|discriminate]. intro H. injection H as <- _. cbn [cReads]. destruct (aget _ _ f); lia.
  - destruct (nth_error _ _); [|discriminate]. intro H. injection H as <- _. destruct (aget _ _ f); lia.
  - destruct (nth_error _ _); [|discriminate]. intro H. injection H as <- _. destruct (aget _ _ f); lia.
Qed.
Lemma reads_gen e os f : forall s s' tr, tbl s -> crun e s os = Some (s', tr) ->
  countb (bs_eqb f) (cReads s') = countb (bs_eqb f) (cReads s) + match aget bs_eqb (cFiles s) f with Some _ => 0 | None => tries f tr end.
Proof.
  induction os as [|o os IH]; intros s s' tr T H; cbn [crun] in H; [injection H as <- <-; cbn [tries]; destruct (aget _ _ f); lia|].
  destruct (cstep e s o) as [[s1 x]|] eqn:E; [|discriminate H]. destruct (crun e s1 os) as [[s2 t2]|] eqn:R; [|discriminate H]. injection H as <- <-.
  rewrite (IH _ _ _ (step_tbl _ _ _ _ _ T E) R), (step_reads _ _ _ _ _ f E).
  destruct (aget bs_eqb (cFiles s) f) as [i|] eqn:A; [rewrite (step_keep _ _ _ _ _ _ _ E A); lia|]. cbn [tries].
  destruct o as [g c|conf|i fa|i k|i];
    try (assert (X : aget bs_eqb (cFiles s1) f = None);
         [apply step_shape in E as [(-> & _)|[(_ & _ & _ & _ & [(h & d & E' & _)|[_ ->]])|(j & h & m & _ & _ & _ & -> & _)]]; [exact A|discriminate E'|exact A|exact A]|rewrite X; lia]).
  destruct (bs_eqb g f) eqn:B.
  - apply bs_eqb_spec in B. subst g. destruct x as [i| | | |].
    + rewrite (proj1 (proj2 (step_ctx _ _ _ _ _ (proj1 T) E)) _ _ eq_refl). lia.
    + assert (X : aget bs_eqb (cFiles s1) f = None). { apply step_shape in E as [(-> & _)|[(E & _)|(j & h & m & E & _)]]; [exact A|discriminate E|discriminate E]. } rewrite X. lia.
    + assert (X : aget bs_eqb (cFiles s1) f = None). { apply step_shape in E as [(-> & _)|[(E & _)|(j & h & m & E & _)]]; [exact A|discriminate E|discriminate E]. } rewrite X. lia.
    + assert (X : aget bs_eqb (cFiles s1) f = None). { apply step_shape in E as [(-> & _)|[(E & _)|(j & h & m & E & _)]]; [exact A|discriminate E|discriminate E]. } rewrite X. lia.
    + assert (X : aget bs_eqb (cFiles s1) f = None). { apply step_shape in E as [(-> & _)|[(E & _)|(j & h & m & E & _)]]; [exact A|discriminate E|discriminate E]. } rewrite X. lia.
  - assert (X : aget bs_eqb (cFiles s1) f = None).
    { apply step_shape in E as [(-> & _)|[(_ & _ & _ & _ & [(h & d & E' & _ & ->)|[_ ->]])|(j & h & m & _ & _ & _ & -> & _)]]; try exact A.
      injection E' as <- <-. rewrite (aget_aset bs_eqb bs_eqb_spec), (bs_eqb_sym f g), B. exact A. }
    rewrite X. lia.
Qed.
Lemma reads e os s tr f : crun e cst0 os = Some (s, tr) -> countb (bs_eqb f) (cReads s) = tries f tr.
Proof. intro H. rewrite (reads_gen _ _ f _ _ _ tbl0 H). reflexivity. Qed.

(* ---- clients *)
Lemma start_spec f refers : NoDup (map fst refers) -> forall cl clus, let st := startRefers f refers cl clus in
  length (snd st) = length clus + length refers /\
  (forall n c, nth_error clus n = Some c -> nth_error (snd st) n = Some c) /\
  (forall k, match aget bs_eqb refers k with
             | None => aget bs_eqb (fst st) k = aget bs_eqb cl k
             | Some c => exists n, aget bs_eqb (fst st) k = Some (cUrl c, n, f) /\ nth_error (snd st) n = Some (mkClu (cUrl c) f) end).
Proof.
  unfold startRefers. induction refers as [|[k0 c0] refers IH]; intros N cl clus; cbv zeta; cbn [fold_left fst snd map] in *.
  - split; [cbn; lia|]. split; [auto|]. intro k. reflexivity.
  - inversion N as [|? ? N1 N2]; subst. destruct (IH N2 (aset bs_eqb cl k0 (cUrl c0, length clus, f)) (clus ++ [mkClu (cUrl c0) f])) as (A & B & C). clear IH. cbv zeta in A, B, C.
    split; [rewrite A, app_length; cbn [length]; lia|]. split.
    + intros n c H. apply B. rewrite nth_error_app1; [exact H|]. apply nth_error_Some. rewrite H. discriminate.
    + intro k. specialize (C k). cbn [aget]. destruct (bs_eqb k k0) eqn:E.
      * apply bs_eqb_spec in E. subst k0. rewrite (proj2 (aget_None bs_eqb bs_eqb_spec refers k) N1) in C. rewrite C, (aget_aset bs_eqb bs_eqb_spec), bs_eqb_refl.
        exists (length clus). split; [reflexivity|]. apply B. rewrite nth_error_app2 by lia. rewrite Nat.sub_diag. reflexivity.
      * destruct (aget bs_eqb refers k); [exact C|]. rewrite C, (aget_aset bs_eqb bs_eqb_spec), E. reflexivity.
Qed.
Definition clients_ok (s : cst) (l : option fac) (m : mctx) : Prop :=
  forall k, match l with
            | None => aget bs_eqb (mClients m) k = None
            | Some f => match aget bs_eqb (xRefers (mCtx m)) k with
                        | None => aget bs_eqb (mClients m) k = None
                        | Some c => exists n, aget bs_eqb (mClients m) k = Some (cUrl c, n, f) /\ nth_error (cClus s) n = Some (mkClu (cUrl c) f)
                        end
            end.
Definition good (e : envr) (s : cst) (tr : list (cop * cout)) : Prop :=
  (forall i m, nth_error (cAll s) i = Some m -> newContext e (mConf m) = Some (mCtx m) /\ conf_map (mConf m) /\ clients_ok s (last_start i tr) m /\ made_of tr i (mConf m)) /\
  (forall i, length (cAll s) <= i -> last_start i tr = None /\ forall q o, nth_error tr q <> Some (o, OCtx i)).
Lemma last_start_app i tr o x : last_start i (tr ++ [(o, x)]) = match started i o with Some f => Some f | None => last_start i tr end.
Proof.
  induction tr as [|[o' x'] tr IH]; cbn [app last_start]; [destruct (started i o); reflexivity|]. rewrite IH. destruct (started i o); reflexivity.
Qed.
Lemma made_app tr i conf z : made_of tr i conf -> made_of (tr ++ [z]) i conf.
Proof.
  intros (p & o & P & C & F). assert (L : p < length tr) by (apply nth_error_Some; rewrite P; discriminate). exists p, o. split; [rewrite nth_error_app1 by exact L; exact P|]. split; [exact C|].
  intros q o' Q. rewrite nth_error_app1 by lia. apply F. exact Q.
Qed.
Lemma good_step e s tr o s' x : tbl s -> (forall c, op_conf o = Some c -> conf_map c) -> good e s tr -> cstep e s o = Some (s', x) -> good e s' (tr ++ [(o, x)]).
Proof.
  intros T M [G1 G2] H. pose proof H as H0. apply step_shape in H as [(_ & A & X & K & S0)|[(-> & (conf & c & O1 & O2 & A) & K & S0 & _)|(j & f & m & -> & -> & E & _ & A & K)]].
  - split.
    + intros i m Hm. rewrite A in Hm. destruct (G1 i m Hm) as (B1 & B2 & B3 & B4). split; [exact B1|]. split; [exact B2|]. split; [|apply made_app; exact B4].
      rewrite last_start_app, S0. unfold clients_ok in *. rewrite K. exact B3.
    + intros i L. rewrite A in L. destruct (G2 i L) as [B1 B2]. split; [rewrite last_start_app, S0; exact B1|]. intros q o' Q.
      destruct (lt_dec q (length tr)) as [Lq|Lq]; [rewrite nth_error_app1 in Q by exact Lq; exact (B2 _ _ Q)|]. rewrite nth_error_app2 in Q by lia.
      destruct (q - length tr) as [|n]; [|destruct n; discriminate Q]. cbn [nth_error] in Q. injection Q as -> ->. destruct (X i eq_refl) as (f & c & _ & B). apply (proj1 T) in B. lia.
  - split.
    + intros i m Hm. rewrite A in Hm. destruct (lt_dec i (length (cAll s))) as [Li|Li].
      * rewrite nth_error_app1 in Hm by exact Li. destruct (G1 i m Hm) as (B1 & B2 & B3 & B4). split; [exact B1|]. split; [exact B2|]. split; [|apply made_app; exact B4].
        rewrite last_start_app, S0. unfold clients_ok in *. rewrite K. exact B3.
      * rewrite nth_error_app2 in Hm by lia. destruct (i - length (cAll s)) as [|n] eqn:D; [|destruct n; discriminate Hm]. injection Hm as <-. assert (i = length (cAll s)) by lia. subst i. cbn [mConf mCtx].
        destruct (G2 _ (le_n _)) as [B1 B2]. split; [exact O2|]. split; [apply M; exact O1|]. split.
        -- rewrite last_start_app, S0, B1. intro k. reflexivity.
        -- exists (length tr), o. split; [rewrite nth_error_app2 by lia; rewrite Nat.sub_diag; reflexivity|]. split; [exact O1|]. intros q o' Q. rewrite nth_error_app1 by exact Q. apply B2.
    + intros i L. rewrite A, app_length in L. cbn [length] in L. destruct (G2 i ltac:(lia)) as [B1 B2]. split; [rewrite last_start_app, S0; exact B1|]. intros q o' Q.
      destruct (lt_dec q (length tr)) as [Lq|Lq]; [rewrite nth_error_app1 in Q by exact Lq; exact (B2 _ _ Q)|]. rewrite nth_error_app2 in Q by lia.
      destruct (q - length tr) as [|n]; [|destruct n; discriminate Q]. cbn [nth_error] in Q. injection Q as -> E. lia.
  - cbv zeta in A, K. assert (Lj : j < length (cAll s)) by (apply nth_error_Some; rewrite E; discriminate).
    destruct (G1 j m E) as (B1 & B2 & B3 & B4).
    pose proof (start_spec (match f with None => FDefault | Some n => FGiven n end) (xRefers (mCtx m)) (context_nodup _ _ _ B2 B1) (mClients m) (cClus s)) as (ST1 & ST2 & ST3).
    rewrite <- K in ST2, ST3. split.
    + intros i m' Hm. rewrite A in Hm. rewrite list_set_nth_error in Hm by exact Lj. rewrite last_start_app. cbn [started]. rewrite (Nat.eqb_sym j i). destruct (Nat.eqb i j) eqn:Ei.
      * apply Nat.eqb_eq in Ei. subst i. injection Hm as <-. cbn [mConf mCtx]. split; [exact B1|]. split; [exact B2|]. split; [|apply made_app; exact B4].
        intro k. cbn [mCtx mClients]. specialize (ST3 k). destruct (aget bs_eqb (xRefers (mCtx m)) k) as [c|] eqn:Q; [exact ST3|]. rewrite ST3. specialize (B3 k). rewrite Q in B3. destruct (last_start j tr); exact B3.
      * destruct (G1 i m' Hm) as (C1 & C2 & C3 & C4). split; [exact C1|]. split; [exact C2|]. split; [|apply made_app; exact C4].
        intro k. specialize (C3 k). destruct (last_start i tr); [|exact C3]. destruct (aget bs_eqb (xRefers (mCtx m')) k); [|exact C3]. destruct C3 as (n & C3 & C5). exists n. split; [exact C3|]. apply ST2. exact C5.
    + intros i L. rewrite A, list_set_length in L. destruct (G2 i L) as [C1 C2]. split.
      * rewrite last_start_app. cbn [started]. destruct (Nat.eqb j i) eqn:Ei; [apply Nat.eqb_eq in Ei; lia|exact C1].
      * intros q o' Q. destruct (lt_dec q (length tr)) as [Lq|Lq]; [rewrite nth_error_app1 in Q by exact Lq; exact (C2 _ _ Q)|]. rewrite nth_error_app2 in Q by lia.
        destruct (q - length tr) as [|n]; [discriminate Q|destruct n; discriminate Q].
Qed.
Lemma good_run e os : forall s tr, maps os -> crun e cst0 os = Some (s, tr) -> tbl s /\ good e s tr.
Proof.
  induction os as [|o os IH] using rev_ind; intros s tr M H.
  - injection H as <- <-. split; [exact tbl0|]. split.
    + intros i m E. destruct i; discriminate E.
    + intros i _. split; [reflexivity|]. intros q o Q. destruct q; discriminate Q.
  - rewrite crun_app in H. destruct (crun e cst0 os) as [[s1 t1]|] eqn:R; [|discriminate H]. cbn [crun] in H. destruct (cstep e s1 o) as [[s2 x]|] eqn:E; [|discriminate H]. injection H as <- <-.
    destruct (IH s1 t1) as [T G]; [intros o' c I; apply M; apply in_or_app; left; exact I|reflexivity|]. split; [eapply step_tbl; [exact T|exact E]|].
    eapply good_step; [exact T| |exact G|exact E]. intros c Q. apply (M o); [apply in_or_app; right; left; reflexivity|exact Q].
Qed.
Lemma made_unique tr i a b : made_of tr i a -> made_of tr i b -> a = b.
Proof.
  intros (p & o & P & C & F) (q & o' & Q & C' & F'). destruct (lt_eq_lt_dec p q) as [[L|L]|L].
  - destruct (F' _ _ L P).
  - subst q. rewrite P in Q. injection Q as <-. rewrite C in C'. injection C' as <-. reflexivity.
  - destruct (F _ _ L Q).
Qed.
Lemma maps_firstn os p : maps os -> maps (firstn p os).
Proof. intros M o c I. apply M. rewrite <- (firstn_skipn p os). apply in_or_app. left. exact I. Qed.
Lemma made_firstn tr i conf q : (exists p o, p < q /\ nth_error tr p = Some (o, OCtx i)) -> made_of tr i conf -> made_of (firstn q tr) i conf.
Proof.
  intros (p0 & o0 & L & P0) (p & o & P & C & F). assert (Lp : p < q). { destruct (le_lt_dec p p0) as [X|X]; [lia|]. destruct (F _ _ X P0). }
  assert (NF : forall r, r < q -> nth_error (firstn q tr) r = nth_error tr r).
  { clear. revert q. induction tr as [|a tr IH]; intros q r L; [rewrite firstn_nil; reflexivity|]. destruct q; [lia|]. destruct r; [reflexivity|]. cbn [firstn nth_error]. apply IH. lia. }
  exists p, o. split; [rewrite NF by exact Lp; exact P|]. split; [exact C|]. intros r o' R. rewrite NF by lia. apply F. exact R.
Qed.
Lemma made_back tr i conf q : made_of (firstn q tr) i conf -> made_of tr i conf.
Proof.
  intros (p & o & P & C & F).
  assert (NF : forall r z, nth_error (firstn q tr) r = Some z -> nth_error tr r = Some z /\ r < q).
  { clear. revert q. induction tr as [|a tr IH]; intros q r z; [rewrite firstn_nil; intro H; destruct r; discriminate H|]. destruct q; [destruct r; discriminate|]. destruct r; cbn [firstn nth_error]; [intro H; split; [exact H|lia]|].
    intro H. apply IH in H. split; [tauto|lia]. }
  destruct (NF _ _ P) as [P' Lp]. exists p, o. split; [exact P'|]. split; [exact C|]. intros r o' R E. apply (F r o' R).
  assert (NG : forall r, r < q -> nth_error (firstn q tr) r = nth_error tr r).
  { clear. revert q. induction tr as [|a tr IH]; intros q r L; [rewrite firstn_nil; reflexivity|]. destruct q; [lia|]. destruct r; [reflexivity|]. cbn [firstn nth_error]. apply IH. lia. }
  rewrite NG by lia. exact E.
Qed.
Lemma run_clus e os : forall s s' tr n c, (forall i m, nth_error (cAll s) i = Some m -> NoDup (map fst (xRefers (mCtx m)))) -> (forall o cf, In o os -> op_conf o = Some cf -> conf_map cf) ->
  crun e s os = Some (s', tr) -> nth_error (cClus s) n = Some c -> nth_error (cClus s') n = Some c.
Proof.
  induction os as [|o os IH]; intros s s' tr n c N M H A; cbn [crun] in H; [injection H as <- <-; exact A|].
  destruct (cstep e s o) as [[s1 x]|] eqn:E; [|discriminate H]. destruct (crun e s1 os) as [[s2 t2]|] eqn:R; [|discriminate H]. injection H as <- <-.
  assert (N1 : (forall i m, nth_error (cAll s1) i = Some m -> NoDup (map fst (xRefers (mCtx m)))) /\ nth_error (cClus s1) n = Some c).
  { apply step_shape in E as [(_ & Q & _ & K & _)|[(_ & (conf & cx & O1 & O2 & Q) & K & _)|(j & f & m & _ & _ & E & _ & Q & K)]].
    - rewrite Q, K. split; assumption.
    - rewrite K. split; [|exact A]. rewrite Q. intros i m Hm. destruct (lt_dec i (length (cAll s))) as [Li|Li]; [rewrite nth_error_app1 in Hm by exact Li; exact (N _ _ Hm)|].
      rewrite nth_error_app2 in Hm by lia. destruct (i - length (cAll s)) as [|z]; [|destruct z; discriminate Hm]. injection Hm as <-. cbn [mCtx]. apply (context_nodup e conf); [apply (M o); [left; reflexivity|exact O1]|exact O2].
    - cbv zeta in Q, K. pose proof (start_spec (match f with None => FDefault | Some n => FGiven n end) (xRefers (mCtx m)) (N _ _ E) (mClients m) (cClus s)) as (_ & ST2 & _). split.
      + rewrite Q. intros i m' Hm. rewrite list_set_nth_error in Hm by (apply nth_error_Some; rewrite E; discriminate). destruct (Nat.eqb i j); [injection Hm as <-; exact (N _ _ E)|exact (N _ _ Hm)].
      + rewrite K. apply ST2. exact A. }
  eapply IH; [exact (proj1 N1)| |exact R|exact (proj2 N1)]. intros o' cf I. apply M. right. exact I.
Qed.
Lemma clients e calls os s tr i conf q k x : maps os -> crun e cst0 os = Some (s, tr) -> made_of tr i conf -> nth_error tr q = Some (CClient i k, x) ->
  (last_start i (firstn q tr) = None -> x = OClient None) /\
  (forall f, last_start i (firstn q tr) = Some f -> eSubSuffix e = [] -> (forall l, Permutation (eOrd e l) l) -> eExt e = fold_left addRelevantFilter calls [] ->
     (refer_info conf k = None -> x = OClient None) /\
     (forall info, refer_info conf k = Some info -> exists u n, x = OClient (Some (u, n, f)) /\ nth_error (cClus s) n = Some (mkClu u f) /\ refer_is e calls conf k info u)).
Proof.
  intros M R D Q. destruct (crun_split _ _ _ _ _ _ _ _ R Q) as (s1 & s2 & A & B & C & _). destruct (good_run _ _ _ _ (maps_firstn _ q M) A) as [T [G1 G2]].
  cbn [cstep] in B. destruct (nth_error (cAll s1) i) as [m|] eqn:E; [|discriminate B]. injection B as <- <-. destruct (G1 _ _ E) as (B1 & B2 & B3 & B4).
  apply made_back in B4. pose proof (made_unique _ _ _ _ D B4) as ->. split.
  - intro L. specialize (B3 k). rewrite L in B3. rewrite B3. reflexivity.
  - intros f L S0 Ho He. specialize (B3 k). rewrite L in B3. split.
    + intro N. rewrite (refer_none _ _ _ _ B1 S0 N) in B3. rewrite B3. reflexivity.
    + intros info I. destruct (refer_some _ _ _ _ _ _ B2 B1 S0 Ho He I) as (c & F & RI). rewrite F in B3. destruct B3 as (n & B3 & B5). exists (cUrl c), n. rewrite B3. split; [reflexivity|]. split; [|exact RI].
      eapply run_clus; [| |exact C|exact B5]; [|intros o' cf I'; apply M; rewrite <- (firstn_skipn (S q) os); apply in_or_app; right; exact I'].
      intros j mj Ej. destruct (G1 _ _ Ej) as (Z1 & Z2 & _). exact (context_nodup _ _ _ Z2 Z1).
Qed.
