(* ReqProps.v: C83, requests from the pool and clones. *)
From Verif Require Import Base ReqModel ReqSpec ReqProofs.
Require Import Lia.

(* a request from the pool shows nothing of an earlier call and nobody else has it *)
Theorem C83_fresh os p : careful os -> careful_op os (QAcquire p) -> Forall never_async os ->
  let r := acquired (qrun os) p in ~ in_use os r /\
  exists t, see (qrun (os ++ [QAcquire p])) r = Some (blank (mkCtx None false false 0 0 0 false false None None t None false [])).
Proof.
  intros C CO FA r. pose proof (pinv_all os C) as P. unfold pinv in P. unfold in_use. unfold careful_op in CO. destruct (uses os) as [[us n] pl]. cbn [fst snd] in *.
  destruct P as (N & Ep & ND & RG & CL & AS). subst pl. rewrite qrun_snoc. unfold r, acquired. destruct p as [i|].
  - assert (Hr : In (nth i (sPool (qrun os)) O) (sPool (qrun os))) by (apply nth_In; exact CO). split.
    + intro I. apply in_split in I as (a & b & ->). rewrite <- app_assoc in ND. cbn in ND. apply NoDup_remove_2 in ND. apply ND. apply in_or_app. right. apply in_or_app. auto.
    + assert (Lt : (nth i (sPool (qrun os)) O < n)%nat) by (apply RG; apply in_or_app; auto).
      destruct (nth_error (sReq (qrun os)) (nth i (sPool (qrun os)) O)) as [q|] eqn:E; [|apply nth_error_None in E; lia].
      pose proof (CL _ _ Hr E) as (c & Eq & Ec). pose proof (AS FA _ _ E) as A. exists (cTimes c). unfold see. cbn [qstep sReq sArr sFin sMap]. rewrite E.
      rewrite Eq in A |- *. cbn [qCtx] in A. cbn. unfold blank. do 2 f_equal. rewrite <- Ec. unfold ctxReset. cbn. rewrite A. reflexivity.
  - split; [intro I; assert (length (sReq (qrun os)) < n)%nat by (apply RG; apply in_or_app; auto); lia|]. exists 0%N. cbn [qstep]. unfold see. cbn [sReq sArr sFin sMap].
    rewrite nth_error_app2, Nat.sub_diag by lia. reflexivity.
Qed.
Print Assumptions C83_fresh.
(* a clone shows what the original shows, but for body size, asynchrony, motan1 flag and remote address *)
Theorem C83_clone os r v : see (qrun os) r = Some v ->
  see (qrun (os ++ [QClone r])) (length (sReq (qrun os))) = Some (mkView (vId v) (vSvc v) (vMth v) (vDesc v) (vArgs v) (vAtt v) (clone_ctx (vCtx v)) (vMsg v) (vHandlers v)) /\
  see (qrun (os ++ [QClone r])) r = Some v.
Proof.
  intro H. split; [exact (see_clone os r v H)|]. rewrite <- H. apply isolated; [congruence|discriminate|]. intros x v' g [X|X]; discriminate X.
Qed.
Print Assumptions C83_clone.
(* what is done to one request is not seen by the holder of another, except that appending arguments or handlers may be seen by requests of the same family *)
Theorem C83_isolated os o r : see (qrun os) r <> None -> works_on o <> Some r ->
  (forall x v g, o = QAppend x v g \/ o = QHandler x v g -> ~ related os x r) -> see (qrun (os ++ [o])) r = see (qrun os) r.
Proof. exact (isolated os o r). Qed.
Print Assumptions C83_isolated.
(* each operation has its effect and no other on its own request *)
Theorem C83_own os r v : see (qrun os) r = Some v ->
  (forall k w, exists v', see (qrun (os ++ [QStore r k w])) r = Some v' /\ vAtt v' = Some (aset bs_eqb (match vAtt v with Some m => m | None => [] end) k w) /\
     vArgs v' = vArgs v /\ vHandlers v' = vHandlers v /\ vCtx v' = vCtx v /\ vId v' = vId v /\ vSvc v' = vSvc v /\ vMth v' = vMth v /\ vDesc v' = vDesc v) /\
  (forall x g, exists v', see (qrun (os ++ [QAppend r x g])) r = Some v' /\ vArgs v' = vArgs v ++ [Some x] /\
     vAtt v' = vAtt v /\ vHandlers v' = vHandlers v /\ vCtx v' = vCtx v /\ vMsg v' = vMsg v /\ vId v' = vId v /\ vSvc v' = vSvc v /\ vMth v' = vMth v /\ vDesc v' = vDesc v) /\
  (forall x g, exists v', see (qrun (os ++ [QHandler r x g])) r = Some v' /\ vHandlers v' = vHandlers v ++ [Some x] /\
     vAtt v' = vAtt v /\ vArgs v' = vArgs v /\ vCtx v' = vCtx v /\ vMsg v' = vMsg v /\ vId v' = vId v /\ vSvc v' = vSvc v /\ vMth v' = vMth v /\ vDesc v' = vDesc v).
Proof. intro H. split; [|split]; intros; [exact (see_store os r v k w H)|exact (see_append os r v x g H)|exact (see_handler os r v x g H)]. Qed.
Print Assumptions C83_own.

(* what is sent for a proxied request: the metadata of its message, with the group the request asks for now *)
Theorem C83_sent os r v m meta grp : see (qrun os) r = Some v -> vMsg v = Some (m, meta) ->
  exists s, sentMeta (qrun os) r grp = Some s /\
    forall k, aget bs_eqb s k = if bs_eqb k grp then Some (match vAtt v with Some a => match aget bs_eqb a grp with Some g => g | None => [] end | None => [] end) else aget bs_eqb meta k.
Proof.
  unfold see, sentMeta. destruct (nth_error (sReq (qrun os)) r) as [q|]; [|discriminate]. intros E M. injection E as <-. cbn [vMsg vAtt] in *.
  destruct (qMsg q) as [[m' k']|]; [|discriminate M]. cbn [option_map fst snd] in M. injection M as -> <-. eexists. split; [reflexivity|].
  intros k. rewrite (aget_aset bs_eqb bs_eqb_spec). destruct (bs_eqb k grp); [|reflexivity]. destruct (qAtt q); reflexivity.
Qed.
Print Assumptions C83_sent.
(* attachments set on the request that was made from the message are sent *)
Lemma shared_step s o r : (forall m meta, o <> QMessage r m meta) -> o <> QRelease r ->
  (exists q m k, nth_error (sReq s) r = Some q /\ qAtt q = Some k /\ qMsg q = Some (m, k)) ->
  exists q m k, nth_error (sReq (qstep s o)) r = Some q /\ qAtt q = Some k /\ qMsg q = Some (m, k).
Proof.
  intros N1 N2 (q & m & k & E & A & M).
  assert (L : r < length (sReq s)) by (apply nth_error_Some; congruence).
  assert (K : forall x q', (x = r -> exists m' k', qAtt q' = Some k' /\ qMsg q' = Some (m', k')) -> nth_error (sReq s) x <> None ->
     exists q0 m0 k0, nth_error (list_set (sReq s) x q') r = Some q0 /\ qAtt q0 = Some k0 /\ qMsg q0 = Some (m0, k0)).
  { intros x q' H Hx. apply nth_error_Some in Hx. rewrite list_set_nth_error by exact Hx. destruct (Nat.eqb_spec r x) as [->|].
    - destruct (H eq_refl) as (m' & k' & X & Y). eauto 6.
    - exists q, m, k. auto. }
  assert (P : forall x q1, nth_error (sReq s) x = Some q1 -> x = r -> exists m' k', qAtt q1 = Some k' /\ qMsg q1 = Some (m', k')).
  { intros x q1 X ->. rewrite E in X. injection X as <-. eauto. }
  assert (App : forall x, exists q0 m0 k0, nth_error (sReq s ++ [x]) r = Some q0 /\ qAtt q0 = Some k0 /\ qMsg q0 = Some (m0, k0)).
  { intros x. rewrite nth_error_app1 by exact L. exists q, m, k. auto. }
  destruct o as [[p|]|r' i svc mth desc|r' m' meta|r' k' v|r' v g|r' vs|r' v g|r' c|r'|r']; cbn [qstep].
  - cbn [sReq]. exists q, m, k. auto.
  - cbn [sReq]. apply App.
  - destruct (nth_error (sReq s) r') as [q1|] eqn:X; [|exists q, m, k; auto]. cbn [setReq sReq]. apply K; [|congruence]. intros Y. exact (P _ _ X Y).
  - destruct (nth_error (sReq s) r') as [q1|] eqn:X; [|exists q, m, k; auto]. cbn [sReq]. apply K; [|congruence]. intros ->. exfalso. exact (N1 m' meta eq_refl).
  - destruct (nth_error (sReq s) r') as [q1|] eqn:X; [|exists q, m, k; auto]. destruct (qAtt q1) eqn:Q1; [cbn [sReq]; exists q, m, k; auto|].
    cbn [sReq]. apply K; [|congruence]. intros ->. exfalso. rewrite E in X. injection X as <-. congruence.
  - destruct (nth_error (sReq s) r') as [q1|] eqn:X; [|exists q, m, k; auto]. destruct (goAppend _ _ _ _) as [h sl]. cbn [sReq]. apply K; [|congruence]. intros Y. exact (P _ _ X Y).
  - destruct (nth_error (sReq s) r') as [q1|] eqn:X; [|exists q, m, k; auto]. cbn [sReq]. apply K; [|congruence]. intros Y. exact (P _ _ X Y).
  - destruct (nth_error (sReq s) r') as [q1|] eqn:X; [|exists q, m, k; auto]. destruct (goAppend _ _ _ _) as [h sl]. cbn [sReq]. apply K; [|congruence]. intros Y. exact (P _ _ X Y).
  - destruct (nth_error (sReq s) r') as [q1|] eqn:X; [|exists q, m, k; auto]. cbn [setReq sReq]. apply K; [|congruence]. intros Y. exact (P _ _ X Y).
  - destruct (nth_error (sReq s) r') as [q1|] eqn:X; [|exists q, m, k; auto]. destruct (copyMap s (qAtt q1)) as [maps att].
    destruct (qMsg q1) as [[m1 k1]|]; [destruct (copyMap _ _) as [mm k2]|]; cbn [sReq]; apply App.
  - destruct (nth_error (sReq s) r') as [q1|] eqn:X; [|exists q, m, k; auto]. cbn [sReq]. apply K; [|congruence]. intros ->. exfalso. exact (N2 eq_refl).
Qed.
Theorem C83_attachments_sent os1 r m meta os2 v a grp k : see (qrun os1) r <> None -> (forall m' meta', ~ In (QMessage r m' meta') os2) -> ~ In (QRelease r) os2 ->
  let os := os1 ++ QMessage r m meta :: os2 in see (qrun os) r = Some v -> vAtt v = Some a -> k <> grp ->
  exists s, sentMeta (qrun os) r grp = Some s /\ aget bs_eqb s k = aget bs_eqb a k.
Proof.
  intros H1 N1 N2 os Sv Ea Nk.
  assert (H : exists q m k, nth_error (sReq (qrun os)) r = Some q /\ qAtt q = Some k /\ qMsg q = Some (m, k)).
  { subst os. clear Sv Ea. revert N1 N2. induction os2 as [|o os2 IH] using rev_ind; intros N1 N2.
    - rewrite qrun_snoc. unfold see in H1. cbn [qstep]. destruct (nth_error (sReq (qrun os1)) r) as [q|] eqn:E; [|exfalso; apply H1; reflexivity].
      cbn [sReq]. do 3 eexists. rewrite list_set_nth_error by (apply nth_error_Some; congruence). rewrite Nat.eqb_refl. split; [reflexivity|]. split; reflexivity.
    - replace (os1 ++ QMessage r m meta :: os2 ++ [o]) with ((os1 ++ QMessage r m meta :: os2) ++ [o]) by (rewrite <- app_assoc; reflexivity).
      rewrite qrun_snoc. apply shared_step.
      + intros m' meta' ->. apply (N1 m' meta'). apply in_or_app. right. left. reflexivity.
      + intros ->. apply N2. apply in_or_app. right. left. reflexivity.
      + apply IH; [intros m' meta' X; apply (N1 m' meta'); apply in_or_app; left; exact X|intros X; apply N2; apply in_or_app; left; exact X]. }
  destruct H as (q & m' & kk & E & A & M). unfold see in Sv. rewrite E in Sv. injection Sv as <-. cbn [vAtt] in Ea. rewrite A in Ea. cbn [option_map] in Ea. injection Ea as <-.
  unfold sentMeta. rewrite E, M. eexists. split; [reflexivity|]. rewrite (aget_aset bs_eqb bs_eqb_spec). apply bs_eqb_neq in Nk. rewrite Nk. reflexivity.
Qed.
Print Assumptions C83_attachments_sent.

Definition grpKey := s2b "M_g".
Definition exQ : list qop := [QAcquire None; QHead 0 7 (s2b "Hello") (s2b "hi") []; QMessage 0 1 [(grpKey, s2b "g")]; QAppend 0 11 0; QClone 0; QStore 1 (s2b "k") (s2b "v"); QRelease 0].
Ltac careful_tac := repeat match goal with
  | |- careful [] => constructor
  | |- careful ?l => let b := eval cbv in (removelast l) in let o := eval cbv in (last l (QAcquire None)) in change (careful (b ++ [o])); apply careful_snoc
  end; try exact I; try (vm_compute; auto; lia); unfold careful_op, in_use; vm_compute; auto.
Example C83_example : careful exQ /\ careful_op exQ (QAcquire (Some O)) /\ Forall never_async exQ /\ acquired (qrun exQ) (Some O) = O /\
  option_map vArgs (see (qrun exQ) 1) = Some [Some 11%N] /\ option_map vMth (see (qrun exQ) 1) = Some (s2b "hi") /\ related exQ 0 1 /\ in_use exQ 1.
Proof.
  split; [unfold exQ; careful_tac|]. split; [vm_compute; lia|]. split; [repeat constructor|]. split; [reflexivity|]. split; [reflexivity|]. split; [reflexivity|].
  split; [split; [discriminate|reflexivity]|]. vm_compute. auto.
Qed.
(* "a clone keeps its arguments" is false: once the original went through the pool, the next call's arguments appear in the clone *)
Theorem C83_clone_arguments_refuted : exists os o r, careful (os ++ [o]) /\ in_use os r /\ works_on o <> Some r /\
  option_map vArgs (see (qrun os) r) = Some [Some 11%N] /\ option_map vArgs (see (qrun (os ++ [o])) r) = Some [Some 99%N].
Proof.
  exists (exQ ++ [QAcquire (Some O)]), (QAppend 0 99 0), 1%nat. split; [unfold exQ; careful_tac|]. split; [vm_compute; auto|]. split; [discriminate|]. split; reflexivity.
Qed.
Print Assumptions C83_clone_arguments_refuted.
(* "the handlers added to a request are those that run at its end" is false: original and clone overwrite each other's *)
Theorem C83_clone_handlers_refuted : exists os o r v, careful (os ++ [o]) /\ works_on o <> Some r /\ see (qrun os) r = Some v /\
  vHandlers v = [Some 1%N; Some 2%N] /\ option_map vHandlers (see (qrun (os ++ [o])) r) = Some [Some 1%N; Some 3%N].
Proof.
  exists [QAcquire None; QHandler 0 1 1; QClone 0; QHandler 0 2 0], (QHandler 1 3 0), O. eexists. split; [careful_tac|]. split; [discriminate|]. split; [reflexivity|]. split; reflexivity.
Qed.
Print Assumptions C83_clone_handlers_refuted.
(* "an attachment set on a proxied request is sent" holds of the request made from the message and is false of its clones *)
Theorem C83_clone_attachment_refuted : exists os r k v, careful os /\ in_use os r /\
  (exists w m, see (qrun os) r = Some w /\ vAtt w = Some m /\ aget bs_eqb m k = Some v) /\
  (exists s, sentMeta (qrun os) r grpKey = Some s /\ aget bs_eqb s k = None).
Proof.
  exists exQ, 1%nat, (s2b "k"), (s2b "v"). split; [unfold exQ; careful_tac|]. split; [vm_compute; auto|]. split.
  - eexists. eexists. split; [reflexivity|]. split; reflexivity.
  - eexists. split; reflexivity.
Qed.
Print Assumptions C83_clone_attachment_refuted.
(* "a clone is of the same protocol version as the original" is false: clones forget that a request is a motan1 request *)
Theorem C83_clone_version_refuted : exists os r v w, careful os /\ see (qrun os) r = Some v /\ see (qrun os) (S r) = Some w /\ vId w = vId v /\ cV1 (vCtx v) = true /\ cV1 (vCtx w) = false.
Proof.
  exists [QAcquire None; QCtx 0 (mkCtx None false false 0 0 0 false false None None 0 None true []); QClone 0], O. eexists. eexists.
  split; [careful_tac|]. split; [reflexivity|]. split; [reflexivity|]. split; [reflexivity|]. split; reflexivity.
Qed.
Print Assumptions C83_clone_version_refuted.
Definition exS : list qop := [QAcquire None; QMessage 0 1 [(grpKey, s2b "g")]; QStore 0 (s2b "k") (s2b "v"); QClone 0].
Example C83_attachments_sent_example : exists v a s, see (qrun exS) 0 = Some v /\ vAtt v = Some a /\ aget bs_eqb a (s2b "k") = Some (s2b "v") /\
  sentMeta (qrun exS) 0 grpKey = Some s /\ aget bs_eqb s (s2b "k") = Some (s2b "v").
Proof. do 3 eexists. split; [vm_compute; reflexivity|]. split; [reflexivity|]. split; [vm_compute; reflexivity|]. split; vm_compute; reflexivity. Qed.
