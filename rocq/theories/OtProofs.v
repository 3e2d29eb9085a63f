(* OtProofs.v *)
From Verif Require Import Base OtModel OtSpec.

Section P.
Variable ctx : Type.
Variable extract : attm -> option ctx.
Variable inject : ctx -> attm -> attm.
Variable mkctx : option ctx -> nat -> ctx.
Notation call := (traceCall extract inject mkctx).
Lemma call_shape rec r name n att next evs res att' : call rec r name n att next = (evs, res, att') ->
  exists mid inner nr, next (inject (mkctx (extract att) n) att) = (inner, nr)
    /\ evs = EStart n (extract att) r name :: ENext (inject (mkctx (extract att) n) att) :: inner ++ mid ++ [EFinish n]
    /\ Forall (recordOf n) mid /\ 1 <= length mid <= 2 /\ att' = inject (mkctx (extract att) n) att
    /\ nth_error mid 0 = Some (ERecord n (match nr with NRet o => mkCdata r o None | NPanic v => mkCdata r None (Some v) end))
    /\ (calm rec -> length mid = 1 /\ res = nr).
Proof.
  unfold traceCall. destruct (next (inject (mkctx (extract att) n) att)) as [inner nr] eqn:EN. destruct nr as [o|v].
  - destruct (rec (mkCdata r o None)) as [t|v] eqn:ER; intros H; injection H as <- <- <-.
    + exists [ERecord n (mkCdata r o None)], inner, (NRet o). repeat split; auto. constructor; [eexists; reflexivity|constructor].
    + exists [ERecord n (mkCdata r o None); ERecord n (mkCdata r None (Some v))], inner, (NRet o). split; [reflexivity|]. split; [reflexivity|].
      split; [repeat constructor; eexists; reflexivity|]. split; [cbn; auto|]. split; [reflexivity|]. split; [reflexivity|].
      intros C. destruct (C (mkCdata r o None)) as [t E]. rewrite E in ER. discriminate.
  - intros H; injection H as <- <- <-. exists [ERecord n (mkCdata r None (Some v))], inner, (NPanic v). split; [reflexivity|]. split; [reflexivity|].
    split; [repeat constructor; eexists; reflexivity|]. split; [cbn; auto|]. split; [reflexivity|]. split; [reflexivity|].
    intros C. split; [reflexivity|]. destruct (C (mkCdata r None (Some v))) as [t E]. rewrite E. reflexivity.
Qed.
Lemma starts_rec n mid : Forall (recordOf n) mid -> startsOf (mid : list (ev ctx)) = [] /\ finishesOf mid = [].
Proof.
  induction 1 as [|e l [d ->] F [IH1 IH2]]; [split; reflexivity|]. split; cbn; [exact IH1|exact IH2].
Qed.
Lemma starts_app (a b : list (ev ctx)) : startsOf (a ++ b) = startsOf a ++ startsOf b.
Proof. apply flat_map_app. Qed.
Lemma finishes_app (a b : list (ev ctx)) : finishesOf (a ++ b) = finishesOf a ++ finishesOf b.
Proof. apply flat_map_app. Qed.
Lemma starts_call n p r name a inner mid : Forall (recordOf n) mid ->
  startsOf (EStart n p r name :: ENext a :: inner ++ mid ++ [EFinish n] : list (ev ctx)) = (n, p) :: startsOf inner.
Proof.
  intros F. destruct (starts_rec n mid F) as [S1 _]. change (startsOf (EStart n p r name :: ENext a :: inner ++ mid ++ [EFinish n])) with ((n, p) :: startsOf (inner ++ mid ++ [EFinish n])).
  rewrite !starts_app, S1, app_nil_r. reflexivity.
Qed.
Lemma nested_ok rec : forall hops last att, carries_ctx extract inject -> (forall a, startsOf (fst (last a)) = [] /\ finishesOf (fst (last a)) = []) ->
  let evs := fst (nested extract inject mkctx rec hops last att) in
  map fst (startsOf evs) = map snd hops /\ chainFrom mkctx (extract att) (startsOf evs) /\ finishesOf evs = rev (map snd hops).
Proof.
  induction hops as [|[[r name] n] hops IH]; intros last att C L; cbv zeta.
  - cbn [nested]. destruct (L att) as [L1 L2]. rewrite L1, L2. repeat split.
  - cbn [nested]. destruct (call rec r name n att (nested extract inject mkctx rec hops last)) as [[evs res] att'] eqn:E.
    destruct (call_shape _ _ _ _ _ _ _ _ _ E) as (mid & inner & nr & EN & -> & FM & _). cbn [fst].
    destruct (IH last (inject (mkctx (extract att) n) att) C L) as (I1 & I2 & I3). rewrite EN in I1, I2, I3. cbn [fst] in *.
    destruct (starts_rec n mid FM) as [S1 S2].
    pose proof (starts_call n (extract att) r name (inject (mkctx (extract att) n) att) inner mid FM) as ES.
    rewrite ES. split; [cbn [map fst snd]; rewrite I1; reflexivity|]. split.
    + cbn [chainFrom]. split; [reflexivity|]. rewrite C in I2. exact I2.
    + change (finishesOf (EStart n (extract att) r name :: ENext (inject (mkctx (extract att) n) att) :: inner ++ mid ++ [EFinish n])) with (finishesOf (inner ++ mid ++ [EFinish n])).
      rewrite !finishes_app, S2, I3. reflexivity.
Qed.
Lemma nested_transparent rec : forall hops last att, calm rec -> exists a, snd (nested extract inject mkctx rec hops last att) = snd (last a).
Proof.
  induction hops as [|[[r name] n] hops IH]; intros last att C; [exists att; reflexivity|]. cbn [nested].
  destruct (call rec r name n att (nested extract inject mkctx rec hops last)) as [[evs res] att'] eqn:E.
  destruct (call_shape _ _ _ _ _ _ _ _ _ E) as (mid & inner & nr & EN & _ & _ & _ & _ & _ & T). destruct (T C) as [_ ->]. cbn [snd].
  destruct (IH last (inject (mkctx (extract att) n) att) C) as [a A]. rewrite EN in A. exists a. exact A.
Qed.
Lemma default_ok r name n att next inner o : next (inject (mkctx (extract att) n) att) = (inner, NRet (Some o)) ->
  exists evs att', call defaultRec r name n att next = (evs, NRet (Some o), att').
Proof. intros H. unfold traceCall. rewrite H. cbn. eexists _, _. reflexivity. Qed.
Lemma default_masks r name n att next inner v : next (inject (mkctx (extract att) n) att) = (inner, NPanic v) ->
  snd (fst (call defaultRec r name n att next)) = NPanic PNilDeref.
Proof. intros H. unfold traceCall. rewrite H. reflexivity. Qed.
Lemma default_nil r name n att next inner : next (inject (mkctx (extract att) n) att) = (inner, NRet None) ->
  snd (fst (call defaultRec r name n att next)) = NPanic PNilDeref.
Proof. intros H. unfold traceCall. rewrite H. reflexivity. Qed.
Lemma retry_nests rec name n1 n2 att next : carries_ctx extract inject -> (forall a, startsOf (fst (next a)) = []) ->
  startsOf (attempts extract inject mkctx rec name [n1; n2] att next) = [(n1, extract att); (n2, Some (mkctx (extract att) n1))].
Proof.
  intros C L. unfold attempts.
  destruct (call rec Client name n1 att next) as [[e1 r1] a1] eqn:E1. destruct (call rec Client name n2 a1 next) as [[e2 r2] a2] eqn:E2.
  destruct (call_shape _ _ _ _ _ _ _ _ _ E1) as (m1 & i1 & nr1 & N1 & -> & F1 & _ & -> & _). destruct (call_shape _ _ _ _ _ _ _ _ _ E2) as (m2 & i2 & nr2 & N2 & -> & F2 & _).
  rewrite C in *. destruct (starts_rec n1 m1 F1) as [S1 _]. destruct (starts_rec n2 m2 F2) as [S2 _].
  pose proof (L (inject (mkctx (extract att) n1) att)) as L1. rewrite N1 in L1. pose proof (L (inject (mkctx (Some (mkctx (extract att) n1)) n2) (inject (mkctx (extract att) n1) att))) as L2. rewrite N2 in L2. cbn [fst] in *.
  rewrite app_nil_r, starts_app, (starts_call _ _ _ _ _ _ _ F1), (starts_call _ _ _ _ _ _ _ F2), L1, L2. reflexivity.
Qed.
End P.
