(* FoProofs.v *)
From Verif Require Import Base BytesModel BytesSpec BytesProofs Strconv ProtoModel ProtoSpec ConvModel ConvSpec SimpleModel SimpleSpec UrlModel UrlSpec
  ServerModel ServerSpec ProvModel ProvSpec ServerProofs ProvProofs FoModel FoSpec.
From Verif Require HaModel HaSpec HaProofs.
Ltac Zify.zify_post_hook ::= idtac.
Open Scope nat_scope.

(* ------------------------------------------------------------ one attempt *)

Lemma readReply_told c l rid reply b : readAnswer c rid reply b <> Lost -> told (readReply c l rid reply b) = readAnswer c rid reply b.
Proof.
  unfold readAnswer, readReply. destruct (decodeMsg _ _) as [m rest|]; [|intros []; reflexivity]. cbv zeta.
  destruct (convertToResponse _ _ _) as [s|e]; [|reflexivity]. destruct (rpExc s); [reflexivity|]. destruct (rpBody s); [|reflexivity].
  destruct (fst _); try reflexivity; intros []; reflexivity.
Qed.

Lemma attempt_told c l reply q : lk_wire l = Passes ->
  roundTrip c (lk_srv l) (lk_ip l) (lk_pt l) (lk_sid l) reply q <> Lost ->
  told (callEndpoint c l reply q) = roundTrip c (lk_srv l) (lk_ip l) (lk_pt l) (lk_sid l) reply q.
Proof.
  intros Hw. unfold callEndpoint, roundTrip, serverSide. destruct (sendRequest _ _ _) as [m|e]; [|reflexivity]. rewrite Hw.
  destruct (readOne _ _) as [j r| |]; try (intros []; reflexivity). destruct j; try (intros []; reflexivity).
  destruct (processV2 _ _ _ _ _); try (intros []; reflexivity). apply readReply_told.
Qed.

Lemma told_value a v s : told a = Value v s -> a = Gave v s.
Proof. destruct a; cbn; congruence. Qed.

(* ------------------------------------------------------------ a server that serves *)

Lemma spec_fails s n meth args reply eof un e : spec_method s n meth args reply eof un = Fails e -> eType e = 1%Z.
Proof.
  unfold spec_method, panicked. destruct n as [n|]; [|intro H; injection H as <-; reflexivity].
  destruct (aget _ _ _) as [m|]; [|intro H; injection H as <-; reflexivity]. cbv zeta.
  destruct (_ && _); [intro H; injection H as <-; reflexivity|]. destruct (_ && _); [intro H; injection H as <-; reflexivity|].
  destruct (_ <? _); [intro H; injection H as <-; reflexivity|]. destruct (forallb _ _); [|intro H; injection H as <-; reflexivity].
  unfold back. destruct (g_run _ _) as [[|v vs]|]; [discriminate| |intro H; injection H as <-; reflexivity].
  destruct (supportedIn v); [discriminate|intro H; injection H as <-; reflexivity].
Qed.

Lemma readReply_exc c l rid reply b m s e : decodeMsg (c_max c) b = DecOk m [] -> convertToResponse (c_ext c) true m = inl s -> rpExc s = Some e ->
  readReply c l rid reply b = Failed e.
Proof. intros D1 D2 E. unfold readReply. rewrite D1, readAnswer_ext, D2. cbn [rpExc]. rewrite E. reflexivity. Qed.

Lemma serves_answer c reply q l r : ordinary q -> args_ok (qArgs q) -> serves c reply q l r -> lk_wire l = Passes ->
  callEndpoint c l reply q = match r with Gives v => Gave v (assigned reply v) | Fails e => Failed e end.
Proof.
  intros Ho Ha (Hps & Hsid & Hfit & p & Hp & Hr & -> & Hj) Hw. set (g := lk_srv l) in *.
  pose proof (every_call c g (lk_ip l) (lk_pt l) (lk_sid l) reply q p Hps Ho Ha Hsid Hfit Hp Hr Hj) as E. cbv zeta in E.
  destruct (spec_method _ _ _ _ _ _ _) as [v|e] eqn:R.
  - apply told_value. rewrite attempt_told; [exact E|exact Hw|fold g; rewrite E; discriminate].
  - clear E. destruct (request_side c g (lk_ip l) (lk_sid l) q Ho Ha Hps Hsid) as (m & S1 & S2 & S3 & S4 & S5 & rq & T1 & T2 & T3 & T4 & T5 & T6).
    destruct (Hfit m S1) as [F1 F2]. unfold callEndpoint, serverSide. rewrite S1, Hw. fold g. rewrite (S2 F1).
    rewrite <- T3 in Hp.
    destruct (handler_side g rq p reply (qArgs q) Ha Hr T5 T6 Hp) as (res & H1 & H2 & H3 & H4 & H5). cbv zeta in H5. rewrite T4, R in H5.
    destruct (answer_side c g (lk_ip l) (lk_pt l) (gHandler g) (received m) rq res reply (qID q) Hps S3 S5) as (w & W1 & W2 & m' & s & D1 & D2 & _ & D4); try assumption.
    + cbn. rewrite S4. exact Hsid.
    + intros e0 E. destruct H5 as [(e' & R' & E1 & E2)|[(E1 & _)|(v & E1 & _)]]; try congruence.
      rewrite E1 in E. injection E as <-. split; [apply Hj, R'|exact E2].
    + intros v E. destruct H5 as [(e' & R' & E1 & E2)|[(_ & E1 & _)|(v' & E1 & E2 & V1 & V2 & V3 & R')]]; try congruence.
      rewrite E2 in E. injection E as <-. repeat (split; [assumption|]). intro Hs. apply Hj. rewrite R'. cbn [back]. rewrite Hs. reflexivity.
    + rewrite W1. apply (readReply_exc c l (qID q) reply _ m' s e D1 D2). rewrite D4.
      destruct H5 as [(e' & R' & E1 & E2)|[(E0 & E1 & R')|(v' & E1 & E2 & V1 & V2 & V3 & R')]].
      * rewrite E1. symmetry. congruence.
      * discriminate R'.
      * rewrite E1, E2, <- R'. reflexivity.
Qed.

Lemma serves_handled c reply q l r : ordinary q -> args_ok (qArgs q) -> serves c reply q l r -> lk_wire l <> NotReached ->
  exists w, serverSide c l q = Some w.
Proof.
  intros Ho Ha (Hps & Hsid & Hfit & p & Hp & Hr & -> & Hj) Hw. set (g := lk_srv l) in *.
  pose proof (every_call c g (lk_ip l) (lk_pt l) (lk_sid l) reply q p Hps Ho Ha Hsid Hfit Hp Hr Hj) as E. cbv zeta in E.
  unfold roundTrip in E. unfold serverSide. fold g.
  destruct (request_side c g (lk_ip l) (lk_sid l) q Ho Ha Hps Hsid) as (m & S1 & _). rewrite S1 in *.
  destruct (readOne _ _) as [j rr| |]; [destruct j|..]; try (destruct (spec_method _ _ _ _ _ _ _); discriminate E).
  destruct (processV2 _ _ _ _ _) as [w| |]; try (destruct (spec_method _ _ _ _ _ _ _); discriminate E).
  exists w. destruct (lk_wire l); [reflexivity|contradiction|reflexivity].
Qed.

Lemma not_reached c l q : lk_wire l = NotReached -> serverSide c l q = None.
Proof. intro H. unfold serverSide. rewrite H. destruct (sendRequest _ _ _); reflexivity. Qed.

Lemma no_answer c l reply q : lk_wire l <> Passes -> unsuccessful (callEndpoint c l reply q).
Proof.
  intro H. unfold callEndpoint. destruct (sendRequest _ _ _); [|eexists; split; [reflexivity|cbn; lia]].
  destruct (serverSide _ _ _); [destruct (lk_wire l); [contradiction|..]|]; (eexists; split; [reflexivity|cbn; lia]).
Qed.

Lemma not_exported_answer c reply q l : ordinary q -> args_ok (qArgs q) -> not_exported c q l -> lk_wire l = Passes ->
  callEndpoint c l reply q = Failed (mkExc 404 (s2b "provider not exist serviceKey=" ++ qService q) 1).
Proof.
  intros Ho Ha (Hps & Hsid & Hfit & Hp & Hj) Hw. set (g := lk_srv l) in *. set (e := mkExc 404 _ 1) in *.
  destruct (request_side c g (lk_ip l) (lk_sid l) q Ho Ha Hps Hsid) as (m & S1 & S2 & S3 & S4 & S5 & rq & T1 & T2 & T3 & T4 & T5 & T6).
  destruct (Hfit m S1) as [F1 F2]. unfold callEndpoint, serverSide. rewrite S1, Hw. fold g. rewrite (S2 F1).
  assert (Hh : gHandler g rq = HRes (excResponse (rqID rq) e)).
  { unfold gHandler. set (run := fun c : callee => _). set (d := mkDreq _ _ _) in *. rewrite <- T3 in Hp.
    unfold handlerCall. rewrite (@dispatch_none (mresponse value) [MetaServiceName] (g_table g) (d_service d) d run T6 Hp). cbn [fst].
    unfold d, e. cbn [d_service d_id]. rewrite T3. reflexivity. }
  destruct (answer_side c g (lk_ip l) (lk_pt l) (gHandler g) (received m) rq (excResponse (rqID rq) e) reply (qID q) Hps S3 S5)
    as (w & W1 & W2 & m' & s & D1 & D2 & _ & D4); try assumption; try reflexivity.
  - cbn. rewrite S4. exact Hsid.
  - intros e' E. injection E as <-. split; [exact Hj|reflexivity].
  - intros v E. discriminate E.
  - rewrite W1. exact (readReply_exc c l (qID q) reply _ m' s e D1 D2 D4).
Qed.

Lemma fails_unsuccessful c reply q l : ordinary q -> args_ok (qArgs q) -> fails_there c reply q l -> unsuccessful (callEndpoint c l reply q).
Proof.
  intros Ho Ha H. destruct (lk_wire l) eqn:Ew; [|apply no_answer; congruence|apply no_answer; congruence].
  destruct H as [H|[H|[(e & H)|H]]]; try congruence.
  2: { rewrite (not_exported_answer c reply q l Ho Ha H Ew). eexists. split; [reflexivity|cbn; lia]. }
  rewrite (serves_answer c reply q l (Fails e) Ho Ha H Ew). exists e. split; [reflexivity|].
  destruct H as (_ & _ & _ & p & _ & _ & R & _). symmetry in R. apply spec_fails in R. lia.
Qed.

(* ------------------------------------------------------------ the loop *)

Section Loop.
  Variables (id : N) (rt : Z) (noEp : bs) (env : nat -> option (option HaModel.resp)).

  Lemma loop_nobody : forall n i last le k, i <= k < i + n -> (forall j, i <= j < k -> HaSpec.failed_attempt (env j)) -> env k = None ->
    HaModel.failoverLoop n i id rt noEp env last le = (HaModel.errorResponse id HaModel.ENoEndpoints noEp, k).
  Proof.
    induction n as [|n IH]; intros i last le k Hk Hf He; [lia|]. cbn [HaModel.failoverLoop].
    destruct (Nat.eq_dec i k) as [->|Hne]; [rewrite He; reflexivity|]. pose proof (Hf i ltac:(lia)) as Hi.
    destruct (env i) as [[r|]|] eqn:Ei.
    - assert (HaModel.conclusive r = false) as ->.
      { destruct Hi as [H|(r' & H & Hn)]; [discriminate H|]. injection H as <-. rewrite <- HaProofs.conclusive_spec in Hn. destruct (HaModel.conclusive r); congruence. }
      apply IH; [lia| |exact He]. intros j Hj. apply Hf. lia.
    - apply IH; [lia| |exact He]. intros j Hj. apply Hf. lia.
    - destruct Hi as [H|(r & H & _)]; discriminate H.
  Qed.
End Loop.

Lemma asResp_failed rid a : unsuccessful a -> HaSpec.failed_attempt (Some (Some (asResp rid a))).
Proof.
  intros (e & -> & He). right. eexists. split; [reflexivity|]. intros [H|(x & H & T)]; [discriminate H|]. cbn in H. injection H as <-. apply He, T.
Qed.

Lemma failed_asResp rid a : HaSpec.failed_attempt (Some (Some (asResp rid a))) -> unsuccessful a.
Proof.
  intros [H|(r & H & Hn)]; [discriminate H|]. injection H as <-. destruct a as [v s|e|].
  - exfalso. apply Hn. left. reflexivity.
  - exists e. split; [reflexivity|]. intro T. apply Hn. right. eexists. split; [reflexivity|exact T].
  - exfalso. apply Hn. right. eexists. split; reflexivity.
Qed.

Lemma told_asResp rid a : match HaModel.rExc (asResp rid a) with Some e => Error (HaModel.eMsg e) | None => told a end = told a.
Proof. destruct a; reflexivity. Qed.

Lemma result c sel u reply q noEp : let o := fst (failoverTrip c sel u reply q noEp) in let n := snd (failoverTrip c sel u reply q noEp) in
  (exists k l, n = S k /\ k <= retries u q /\ sel k = Some l /\ o = told (callEndpoint c l reply q) /\
     (forall j, j < k -> exists l', sel j = Some l' /\ unsuccessful (callEndpoint c l' reply q)) /\
     (unsuccessful (callEndpoint c l reply q) -> k = retries u q)) \/
  (n <= retries u q /\ sel n = None /\ o = Error noEp /\
     forall j, j < n -> exists l', sel j = Some l' /\ unsuccessful (callEndpoint c l' reply q)).
Proof.
  cbv zeta. unfold failoverTrip.
  set (env := fun i => match sel i with None => None | Some l => Some (Some (asResp (qID q) (callEndpoint c l reply q))) end).
  pose proof (HaProofs.failover_ok u (qMethod q) (qDesc q) (qID q) noEp env) as F.
  assert (Back : forall j, HaSpec.failed_attempt (env j) -> exists l', sel j = Some l' /\ unsuccessful (callEndpoint c l' reply q)).
  { intros j H. unfold env in H. destruct (sel j) as [l|]; [|destruct H as [H|(r & H & _)]; discriminate H]. exists l. split; [reflexivity|apply failed_asResp in H; exact H]. }
  assert (Some_env : forall k r, env k = Some (Some r) -> exists l, sel k = Some l /\ r = asResp (qID q) (callEndpoint c l reply q)).
  { intros k r H. unfold env in H. destruct (sel k) as [l|]; [|discriminate H]. injection H as <-. exists l. split; reflexivity. }
  destruct (HaModel.failoverCall u (qMethod q) (qDesc q) (qID q) noEp env) as [r n] eqn:EC. cbn [fst snd] in *.
  change (Z.to_nat (HaSpec.retries_for u (qMethod q) (qDesc q))) with (retries u q) in F.
  inversion F as [k r0 Hk Hf He Hfin E1 E2|k r0 Hk Hf He _ _ E1 E2|k r0 Hk Hf He E1 E2|k r0 Hk Hf He _ _ E1 E2]; subst r0.
  - left. destruct (Some_env k r He) as (l & Hl & ->). exists k, l. replace (S k - 1) with k by lia. rewrite Hl, told_asResp.
    split; [reflexivity|]. split; [lia|]. split; [reflexivity|]. split; [reflexivity|]. split; [intros j Hj; apply Back, Hf, Hj|].
    intro Hu. apply (asResp_failed (qID q)) in Hu. destruct Hu as [H|(r' & H & Hn)]; [discriminate H|]. injection H as <-. contradiction.
  - right. subst k. split; [lia|]. assert (Hs : sel n = None) by (unfold env in He; destruct (sel n); [discriminate He|reflexivity]).
    split; [exact Hs|]. split; [|intros j Hj; apply Back, Hf, Hj].
    unfold HaModel.failoverCall in EC. rewrite HaProofs.if_positive_max in EC. change (Z.max 0 (method_int_or u (qMethod q) (qDesc q) _ 0)) with (HaSpec.retries_for u (qMethod q) (qDesc q)) in EC.
    rewrite (loop_nobody _ _ _ _ _ _ _ _ n) in EC; [injection EC as <-; reflexivity| |intros j Hj; apply Hf; lia|exact He].
    unfold retries in Hk. assert (0 <= HaSpec.retries_for u (qMethod q) (qDesc q))%Z by apply Z.le_max_l. lia.
  - left. destruct (Some_env k r He) as (l & Hl & ->). exists k, l. replace (S (retries u q) - 1) with k by lia. rewrite Hl, told_asResp.
    split; [lia|]. split; [lia|]. split; [reflexivity|]. split; [reflexivity|]. split; [intros j Hj; apply Back, Hf; lia|]. intros _. lia.
  - exfalso. unfold env in He. destruct (sel k); discriminate He.
Qed.

Lemma first_final c sel u reply q noEp k l : k <= retries u q -> sel k = Some l ->
  (forall j, j < k -> exists l', sel j = Some l' /\ unsuccessful (callEndpoint c l' reply q)) ->
  (~ unsuccessful (callEndpoint c l reply q) \/ k = retries u q) ->
  failoverTrip c sel u reply q noEp = (told (callEndpoint c l reply q), S k).
Proof.
  intros Hk Hl Hf Hn. pose proof (result c sel u reply q noEp) as R. cbv zeta in R. destruct (failoverTrip c sel u reply q noEp) as [o n]. cbn [fst snd] in R.
  destruct R as [(k' & l' & -> & K1 & K2 & -> & K3 & K4)|(K1 & K2 & -> & K3)].
  - assert (k' = k) as ->.
    { destruct (lt_eq_lt_dec k' k) as [[H|H]|H]; [exfalso|exact H|exfalso].
      - destruct (Hf k' H) as (l2 & L1 & L2). rewrite K2 in L1. injection L1 as <-. specialize (K4 L2). lia.
      - destruct (K3 k H) as (l2 & L1 & L2). rewrite Hl in L1. injection L1 as <-. destruct Hn as [Hn|Hn]; [contradiction|lia]. }
    rewrite Hl in K2. injection K2 as <-. reflexivity.
  - exfalso. destruct (lt_eq_lt_dec n k) as [[H|H]|H].
    + destruct (Hf n H) as (l2 & L1 & _). congruence.
    + congruence.
    + destruct (K3 k H) as (l2 & L1 & L2). rewrite Hl in L1. injection L1 as <-. destruct Hn as [Hn|Hn]; [contradiction|lia].
Qed.

Lemma first_working c sel u reply q noEp k l v : ordinary q -> args_ok (qArgs q) -> k <= retries u q -> sel k = Some l ->
  (forall j, j < k -> exists l', sel j = Some l' /\ fails_there c reply q l') -> lk_wire l = Passes -> serves c reply q l (Gives v) ->
  failoverTrip c sel u reply q noEp = (Value v (assigned reply v), S k).
Proof.
  intros Ho Ha Hk Hl Hf Hw Hs. pose proof (serves_answer c reply q l (Gives v) Ho Ha Hs Hw) as E. cbv iota beta in E.
  rewrite (first_final c sel u reply q noEp k l Hk Hl); [rewrite E; reflexivity| |].
  - intros j Hj. destruct (Hf j Hj) as (l' & L1 & L2). exists l'. split; [exact L1|apply fails_unsuccessful; assumption].
  - left. rewrite E. intros (e & H & _). discriminate H.
Qed.

Lemma all_fail c sel u reply q noEp l e : ordinary q -> args_ok (qArgs q) -> sel (retries u q) = Some l ->
  (forall j, j < retries u q -> exists l', sel j = Some l' /\ fails_there c reply q l') -> lk_wire l = Passes -> serves c reply q l (Fails e) ->
  failoverTrip c sel u reply q noEp = (Error (eMsg e), S (retries u q)).
Proof.
  intros Ho Ha Hl Hf Hw Hs. pose proof (serves_answer c reply q l (Fails e) Ho Ha Hs Hw) as E. cbv iota beta in E.
  rewrite (first_final c sel u reply q noEp (retries u q) l (le_n _) Hl); [rewrite E; reflexivity| |right; reflexivity].
  intros j Hj. destruct (Hf j Hj) as (l' & L1 & L2). exists l'. split; [exact L1|apply fails_unsuccessful; assumption].
Qed.

Lemma handled_none c sel q : forall n, (forall j, j < n -> exists l', sel j = Some l' /\ lk_wire l' = NotReached) -> handled c sel q n = 0.
Proof.
  induction n as [|n IH]; intro H; [reflexivity|]. cbn [handled]. rewrite IH by (intros j Hj; apply H; lia).
  destruct (H n ltac:(lia)) as (l & -> & L). rewrite (not_reached c l q L). reflexivity.
Qed.

Lemma handled_all c sel q reply : forall n, ordinary q -> args_ok (qArgs q) ->
  (forall j, j < n -> exists l' r, sel j = Some l' /\ lk_wire l' <> NotReached /\ serves c reply q l' r) -> handled c sel q n = n.
Proof.
  induction n as [|n IH]; intros Ho Ha H; [reflexivity|]. cbn [handled]. rewrite IH by (try assumption; intros j Hj; apply H; lia).
  destruct (H n ltac:(lia)) as (l & r & -> & L1 & L2). destruct (serves_handled c reply q l r Ho Ha L2 L1) as (w & ->). lia.
Qed.

Lemma once c sel u reply q noEp k l v : ordinary q -> args_ok (qArgs q) -> k <= retries u q -> sel k = Some l ->
  (forall j, j < k -> exists l', sel j = Some l' /\ lk_wire l' = NotReached) -> lk_wire l = Passes -> serves c reply q l (Gives v) ->
  failoverTrip c sel u reply q noEp = (Value v (assigned reply v), S k) /\ handled c sel q (S k) = 1.
Proof.
  intros Ho Ha Hk Hl Hf Hw Hs. split.
  - apply (first_working c sel u reply q noEp k l v); try assumption. intros j Hj. destruct (Hf j Hj) as (l' & L1 & L2). exists l'. split; [exact L1|left; exact L2].
  - cbn [handled]. rewrite (handled_none c sel q k Hf), Hl. destruct (serves_handled c reply q l (Gives v) Ho Ha Hs) as (w & ->); [rewrite Hw; discriminate|reflexivity].
Qed.

Lemma again c sel u reply q noEp : ordinary q -> args_ok (qArgs q) ->
  (forall j, j <= retries u q -> exists l' r, sel j = Some l' /\ serves c reply q l' r /\ (lk_wire l' = AnswerLost \/ lk_wire l' = Passes /\ exists e, r = Fails e)) ->
  snd (failoverTrip c sel u reply q noEp) = S (retries u q) /\ handled c sel q (S (retries u q)) = S (retries u q).
Proof.
  intros Ho Ha H. split.
  - destruct (H (retries u q) (le_n _)) as (l & r & L1 & _).
    rewrite (first_final c sel u reply q noEp (retries u q) l (le_n _) L1); [reflexivity| |right; reflexivity].
    intros j Hj. destruct (H j ltac:(lia)) as (l' & r' & M1 & M2 & M3). exists l'. split; [exact M1|]. apply fails_unsuccessful; [exact Ho|exact Ha|].
    destruct M3 as [M3|(_ & e & ->)]; [right; left; exact M3|right; right; left; exists e; exact M2].
  - apply (handled_all c sel q reply); [exact Ho|exact Ha|]. intros j Hj. destruct (H j ltac:(lia)) as (l' & r' & M1 & M2 & M3). exists l', r'.
    split; [exact M1|]. split; [|exact M2]. destruct M3 as [M3|[M3 _]]; rewrite M3; discriminate.
Qed.

Lemma send_refused c sid q : cSerialized (qCtx q) = false -> Forall good (qArgs q) -> (N.of_nat (length (concat (map wire (qArgs q)))) < 2 ^ 32)%N ->
  forallb supported (qArgs q) = false -> exists e, sendRequest c sid q = inr e.
Proof.
  intros Hs Hg Hl Hn. unfold sendRequest. cbv zeta. unfold convertToReqMessage. cbv zeta. cbn [qCtx cProxy cSerialized cSerNum qArgs]. rewrite Hs.
  cbn [simpleSer s_num s_multi]. destruct (qArgs q) as [|v vs] eqn:Ea; [discriminate Hn|].
  destruct (serializeAll_refuses (v :: vs) (newBuf DefaultBufferSize BigE) (BytesProofs.newBuf_ok _ _) eq_refl Hg Hn Hl) as (b' & E).
  unfold serializeMulti. rewrite E. eexists. reflexivity.
Qed.

Lemma unsendable c sel u reply q noEp :
  cSerialized (qCtx q) = false -> Forall good (qArgs q) -> (N.of_nat (length (concat (map wire (qArgs q)))) < 2 ^ 32)%N ->
  forallb supported (qArgs q) = false -> (forall j, j <= retries u q -> sel j <> None) ->
  failoverTrip c sel u reply q noEp = (Error (s2b "convert motan request fail!"), S (retries u q)) /\ forall n, handled c sel q n = 0.
Proof.
  intros Hs Hg Hl Hn Hsel.
  assert (C : forall l, callEndpoint c l reply q = Failed (mkExc 500 (s2b "convert motan request fail!") 1)).
  { intro l. unfold callEndpoint. destruct (send_refused c (lk_sid l) q Hs Hg Hl Hn) as (e & ->). reflexivity. }
  split.
  - destruct (sel (retries u q)) as [l|] eqn:El; [|destruct (Hsel (retries u q) (le_n _) El)].
    rewrite (first_final c sel u reply q noEp (retries u q) l (le_n _) El); [rewrite C; reflexivity| |right; reflexivity].
    intros j Hj. destruct (sel j) as [l'|] eqn:Ej; [|destruct (Hsel j ltac:(lia) Ej)]. exists l'. split; [reflexivity|].
    rewrite C. eexists. split; [reflexivity|cbn; lia].
  - induction n as [|n IH]; [reflexivity|]. cbn [handled]. rewrite IH. destruct (sel n) as [l|]; [|reflexivity].
    unfold serverSide. destruct (send_refused c (lk_sid l) q Hs Hg Hl Hn) as (e & ->). reflexivity.
Qed.

Lemma value_from c l reply q v s : callEndpoint c l reply q = Gave v s ->
  lk_wire l = Passes /\ roundTrip c (lk_srv l) (lk_ip l) (lk_pt l) (lk_sid l) reply q = Value v s.
Proof.
  unfold callEndpoint, serverSide, roundTrip, channelError. destruct (sendRequest _ _ _) as [m|e]; [|discriminate].
  destruct (lk_wire l); [|discriminate|destruct (match readOne _ _ with RGot _ _ => _ | _ => _ end); discriminate].
  destruct (readOne _ _) as [j r| |]; try discriminate. destruct j as [m2|]; try discriminate. destruct (processV2 _ _ _ _ _) as [w| |]; try discriminate.
  intro H. split; [reflexivity|]. revert H. unfold readReply, readAnswer. destruct (decodeMsg _ _) as [m3 rest|]; [|discriminate]. cbv zeta.
  destruct (convertToResponse _ _ _) as [x|e]; [|discriminate]. destruct (rpExc x); [discriminate|]. destruct (rpBody x) as [b|]; [|congruence].
  destruct (fst _); try discriminate. congruence.
Qed.

Lemma business_from c l reply q e : callEndpoint c l reply q = Failed e -> eType e = 2%Z ->
  lk_wire l = Passes /\ exists r m' rest s, serverSide c l q = Some r /\ decodeMsg (c_max c) (concat (getEncodedBytes None r)) = DecOk m' rest /\
    convertToResponse (c_ext c) true m' = inl s /\ rpExc s = Some e.
Proof.
  unfold callEndpoint, channelError. destruct (sendRequest _ _ _) as [m|e0]; [|intros H T; injection H as <-; discriminate T].
  destruct (serverSide _ _ _) as [r|]; [|intros H T; injection H as <-; discriminate T].
  destruct (lk_wire l); try (intros H T; injection H as <-; discriminate T). unfold readReply.
  destruct (decodeMsg _ _) as [m' rest|] eqn:D; [|intros H T; injection H as <-; discriminate T]. rewrite readAnswer_ext.
  destruct (convertToResponse _ _ _) as [s|x] eqn:C; [|intros H T; injection H as <-; discriminate T]. cbn [rpExc rpBody].
  destruct (rpExc s) as [y|] eqn:X.
  - intros H T. injection H as <-. split; [reflexivity|]. exists r, m', rest, s. repeat split; assumption.
  - destruct (rpBody s) as [b|]; [|discriminate]. destruct (fst _); try discriminate. intros H T. injection H as <-. discriminate T.
Qed.

Lemma lost c l reply q m : sendRequest c (lk_sid l) q = inl m -> lk_wire l <> Passes ->
  callEndpoint c l reply q = Failed (mkExc 400 (s2b "channel call error:" ++ lk_err l) 1).
Proof. intros H W. unfold callEndpoint. rewrite H. destruct (serverSide _ _ _); [destruct (lk_wire l); [contradiction|..]|]; reflexivity. Qed.
