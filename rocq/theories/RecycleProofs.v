(* RecycleProofs.v: proofs for C75. *)
From Verif Require Import Base Lists BytesModel BytesSpec BytesProofs ProtoModel ProtoSpec ProtoProofs ConvModel RecycleModel RecycleSpec.
Ltac Zify.zify_post_hook ::= idtac.

Lemma bd_set b n : border (setWPos b n) = border b.
Proof. unfold setWPos. destruct (length (bbuf b) <? n); reflexivity. Qed.
Lemma bd_write b p : border (write b p) = border b.
Proof. unfold write. destruct (length (bbuf b) <? bwpos b + length p); reflexivity. Qed.
Lemma bd_byte b c : border (writeByte b c) = border b.
Proof. unfold writeByte. destruct (length (bbuf b) <? bwpos b + 1); reflexivity. Qed.
Lemma bd_uint k b u : border (writeUint k b u) = border b.
Proof. unfold writeUint. destruct (length (bbuf b) <? bwpos b + k); reflexivity. Qed.
Lemma writeEntry_border b kv : border (writeMetaEntry b kv) = border b.
Proof.
  destruct kv as [k v]. unfold writeMetaEntry. destruct (bs_empty k || bs_empty v); [reflexivity|].
  destruct (bs_has newline k || bs_has newline v); [reflexivity|]. rewrite bd_byte, bd_write, bd_byte, bd_write. reflexivity.
Qed.
Lemma bd_entries l : forall b, border (fold_left writeMetaEntry l b) = border b.
Proof. induction l as [|kv l IH]; intro b; [reflexivity|]; cbn [fold_left]; rewrite IH; apply writeEntry_border. Qed.
Lemma encode0_border ob m : buf_reusable ob -> border (encode0 ob m) = BigE.
Proof.
  intro H. unfold encode0, writeUint16, writeUint32, writeUint64. cbv zeta.
  rewrite bd_uint, bd_set, bd_uint, bd_set, bd_entries, bd_set, bd_uint, !bd_byte, bd_uint.
  destruct ob; [exact H|reflexivity].
Qed.
Lemma bytesNow_frame ob m c hd : buf_reusable ob -> small m -> bytesNow (mkObj m (Some (encode0 ob m)) c hd) = frame m.
Proof. intros H (A & B). unfold bytesNow. cbn [oBuf oMsg]. apply encode0_frame; assumption. Qed.

Definition encoded (o : obj) (m : message) : Prop := oMsg o = m /\ exists ob, buf_reusable ob /\ oBuf o = Some (encode0 ob m).
Lemma encoded_bytes o m : encoded o m -> small m -> bytesNow o = frame m.
Proof. intros (A & ob & B & C) D. destruct o as [x b c hd]. cbn in A, C. subst. apply bytesNow_frame; assumption. Qed.

Definition owns_req (p : hpc) : bool := match p with PRel _ | PEnd => false | _ => true end.
Definition trying (p : hpc) : bool := match p with PPre _ _ _ | PTry _ _ _ => true | _ => false end.
Definition req_stage (x : hnd) (o : obj) : Prop :=
  match hPc x with
  | PRun => hTries x = 0 -> oMsg o = hCall x /\ oCan o = false
  | PPre g sid _ => oMsg o = forward (hCall x) g sid /\ oCan o = false
  | PTry g sid _ => encoded o (forward (hCall x) g sid) /\ oCan o = false
  | _ => True
  end.
Definition req_ok (hp : list obj) (h : nat) (x : hnd) : Prop :=
  owns_req (hPc x) = true -> exists o, nth_error hp (hReq x) = Some o /\ oHold o = Some (h, false) /\ req_stage x o.
Definition res_ok (hp : list obj) (h : nat) (x : hnd) : Prop :=
  match hPc x with
  | PGot r m => exists o, nth_error hp r = Some o /\ oHold o = Some (h, true) /\ oMsg o = m
  | PEnc r m => exists o, nth_error hp r = Some o /\ oHold o = Some (h, true) /\ encoded o m
  | PSent r | PRel r => exists o, nth_error hp r = Some o /\ oHold o = Some (h, true)
  | _ => True
  end.
Definition good_answer (x : hnd) : Prop :=
  match hPc x with PGot _ m | PEnc _ m => exists a, m = setRid (answerFill a clean) (hReqID (mHeader (hCall x))) | _ => True end.
Definition ent_ok (hp : list obj) (hs : list hnd) (e : ent) : Prop :=
  exists x o, nth_error hs (eHnd e) = Some x /\ eObj e = hReq x /\ hTries x <> 0 /\ trying (hPc x) = false /\
    nth_error hp (eObj e) = Some o /\ oHold o = Some (eHnd e, false) /\ oCan o = false /\ exists g sid, eWant e = forward (hCall x) g sid.
Definition waits (hp : list obj) (e : ent) : Prop := exists o, nth_error hp (eObj e) = Some o /\ encoded o (eWant e).
Definition live (s : rst) : list ent := concat (rQueue s) ++ rBusy s.
Record inv (s : rst) : Prop := mkInv {
  i_nodup : NoDup (rPool s);
  i_pool : forall k, In k (rPool s) -> exists o, nth_error (rHeap s) k = Some o /\ oMsg o = clean /\ oCan o = false /\ oHold o = None;
  i_buf : forall k o, nth_error (rHeap s) k = Some o -> buf_reusable (oBuf o);
  i_req : forall h x, nth_error (rHnd s) h = Some x -> req_ok (rHeap s) h x;
  i_res : forall h x, nth_error (rHnd s) h = Some x -> res_ok (rHeap s) h x;
  i_ans : forall h x, nth_error (rHnd s) h = Some x -> good_answer x;
  i_tries : forall h x, nth_error (rHnd s) h = Some x -> trying (hPc x) = true -> hTries x <> 0;
  i_live : forall e, In e (live s) -> ent_ok (rHeap s) (rHnd s) e;
  i_once : NoDup (map eHnd (live s));
  i_waits : forall e, In e (concat (rQueue s)) -> waits (rHeap s) e;
  i_out : forall w, In w (rOut s) -> right w /\ whose s w }.

Arguments i_nodup {s} _.
Arguments i_pool {s} _.
Arguments i_buf {s} _.
Arguments i_req {s} _.
Arguments i_res {s} _.
Arguments i_ans {s} _.
Arguments i_tries {s} _.
Arguments i_live {s} _.
Arguments i_once {s} _.
Arguments i_waits {s} _.
Arguments i_out {s} _.

(* ---- updates *)
Lemma upd {A} (l : list A) k old v j : nth_error l k = Some old -> nth_error (list_set l k v) j = if Nat.eqb j k then Some v else nth_error l j.
Proof. intro H. apply list_set_nth_error. apply nth_error_Some. congruence. Qed.
Lemma upd_same {A} (l : list A) k old v : nth_error l k = Some old -> nth_error (list_set l k v) k = Some v.
Proof. intro H. rewrite (upd _ _ _ _ _ H), Nat.eqb_refl. reflexivity. Qed.
Lemma upd_other {A} (l : list A) k old v j : nth_error l k = Some old -> j <> k -> nth_error (list_set l k v) j = nth_error l j.
Proof. intros H N. rewrite (upd _ _ _ _ _ H). destruct (Nat.eqb_spec j k); [contradiction|reflexivity]. Qed.
Arguments upd {A l k old} v j _.
Arguments upd_same {A l k old} v _.
Arguments upd_other {A l k old} v {j} _ _.
Lemma app_old {A} (l r : list A) k x : nth_error l k = Some x -> nth_error (l ++ r) k = Some x.
Proof. intro H. rewrite nth_error_app1; [exact H|]. apply nth_error_Some. congruence. Qed.

(* heap changes that leave alone what [P] may refer to *)
Definition keeps (P : option (nat * bool) -> Prop) (hp hp' : list obj) : Prop :=
  forall k o, nth_error hp k = Some o -> P (oHold o) -> nth_error hp' k = Some o.
Lemma req_keeps (P : _ -> Prop) hp hp' h x : keeps P hp hp' -> P (Some (h, false)) -> req_ok hp h x -> req_ok hp' h x.
Proof. intros K HP R O. destruct (R O) as (o & A & B & C). exists o. split; [apply K; [exact A|rewrite B; exact HP]|]. split; assumption. Qed.
Lemma res_keeps (P : _ -> Prop) hp hp' h x : keeps P hp hp' -> P (Some (h, true)) -> res_ok hp h x -> res_ok hp' h x.
Proof.
  intros K HP R. unfold res_ok in *. destruct (hPc x); try exact I; destruct R as (o & A & B);
    exists o; (split; [apply K; [exact A|]|exact B]); try destruct B as (B & _); rewrite B; exact HP.
Qed.
Lemma ent_keeps (P : _ -> Prop) hp hp' hs e : keeps P hp hp' -> P (Some (eHnd e, false)) -> ent_ok hp hs e -> ent_ok hp' hs e.
Proof.
  intros K HP (x & o & A & B & C & D & E & F & G). exists x, o. split; [exact A|]. split; [exact B|]. split; [exact C|]. split; [exact D|].
  split; [apply K; [exact E|rewrite F; exact HP]|]. split; [exact F|exact G].
Qed.
Lemma waits_keeps (P : _ -> Prop) hp hp' hs e : keeps P hp hp' -> P (Some (eHnd e, false)) -> ent_ok hp hs e -> waits hp e -> waits hp' e.
Proof.
  intros K HP (x & o & _ & _ & _ & _ & E & F & _) (o2 & A & B). exists o2. split; [|exact B]. assert (o2 = o) by congruence. subst o2.
  apply K; [exact E|rewrite F; exact HP].
Qed.
Lemma keeps_set hp k o o' : nth_error hp k = Some o -> keeps (fun v => v <> oHold o) hp (list_set hp k o').
Proof. intros H j x A B. rewrite (upd _ _ H). destruct (Nat.eqb_spec j k) as [->|N]; [|exact A]. assert (x = o) by congruence. subst x. contradiction. Qed.
Lemma keeps_app hp l : keeps (fun _ => True) hp (hp ++ l).
Proof. intros j x A _. apply app_old, A. Qed.

(* handler changes that entries do not notice *)
Lemma ent_hnd hp hs h x x' e : nth_error hs h = Some x -> hReq x' = hReq x -> hCall x' = hCall x ->
  (eHnd e = h -> hTries x' <> 0 /\ trying (hPc x') = false) -> ent_ok hp hs e -> ent_ok hp (list_set hs h x') e.
Proof.
  intros H A B C (y & o & D & E & F & G & R). destruct (Nat.eq_dec (eHnd e) h) as [Eh|N].
  - unfold ent_ok. rewrite Eh in *. destruct (C eq_refl) as (C1 & C2). assert (y = x) by congruence. subst y. exists x', o. rewrite (upd_same _ H), A, B. tauto.
  - exists y, o. rewrite (upd_other _ H N). tauto.
Qed.
Lemma whose_hnd s s' w h x x' : nth_error (rHnd s) h = Some x -> rHnd s' = list_set (rHnd s) h x' -> hCall x' = hCall x -> whose s w -> whose s' w.
Proof.
  intros H E C (y & A & B). unfold whose. rewrite E. destruct (Nat.eq_dec (wHnd w) h) as [Eh|N].
  - rewrite Eh in *. assert (y = x) by congruence. subst y. exists x'. rewrite (upd_same _ H), C. tauto.
  - exists y. rewrite (upd_other _ H N). tauto.
Qed.

(* a step of handler [h] that changes the object [k] that it holds, or nothing *)
Lemma inv_hnd s h x x' hp' :
  inv s -> nth_error (rHnd s) h = Some x -> hReq x' = hReq x -> hCall x' = hCall x ->
  keeps (fun v => v <> Some (h, false) /\ v <> Some (h, true)) (rHeap s) hp' ->
  (forall k o, nth_error hp' k = Some o -> buf_reusable (oBuf o)) ->
  req_ok hp' h x' -> res_ok hp' h x' -> good_answer x' -> (trying (hPc x') = true -> hTries x' <> 0) ->
  (forall e, In e (live s) -> eHnd e = h -> ent_ok hp' (list_set (rHnd s) h x') e) ->
  (forall e, In e (concat (rQueue s)) -> eHnd e = h -> waits hp' e) ->
  inv (mkRst hp' (rPool s) (list_set (rHnd s) h x') (rQueue s) (rBusy s) (rOut s)).
Proof.
  intros I H Hr Hc K Hb R1 R2 R3 R4 R5 R6.
  assert (Ne : forall h', h' <> h -> forall b, Some (h', b) <> Some (h, false) /\ Some (h', b) <> Some (h, true)) by (intros; split; congruence).
  constructor; cbn [rHeap rPool rHnd rQueue rBusy rOut].
  - apply I.
  - intros k Hk. destruct (i_pool I k Hk) as (o & A & B & C & D). exists o. split; [apply K; [exact A|rewrite D; split; discriminate]|tauto].
  - exact Hb.
  - intros h' y Hy. rewrite (upd _ _ H) in Hy. destruct (Nat.eqb_spec h' h) as [->|N]; [injection Hy as <-; exact R1|].
    eapply req_keeps; [exact K|apply Ne, N|apply (i_req I _ _ Hy)].
  - intros h' y Hy. rewrite (upd _ _ H) in Hy. destruct (Nat.eqb_spec h' h) as [->|N]; [injection Hy as <-; exact R2|].
    eapply res_keeps; [exact K|apply Ne, N|apply (i_res I _ _ Hy)].
  - intros h' y Hy. rewrite (upd _ _ H) in Hy. destruct (Nat.eqb_spec h' h) as [->|N]; [injection Hy as <-; exact R3|apply (i_ans I _ _ Hy)].
  - intros h' y Hy. rewrite (upd _ _ H) in Hy. destruct (Nat.eqb_spec h' h) as [->|N]; [injection Hy as <-; exact R4|apply (i_tries I _ _ Hy)].
  - intros e He. change (In e (live s)) in He. destruct (Nat.eq_dec (eHnd e) h) as [E|N]; [apply R5; assumption|].
    eapply ent_hnd; [exact H|exact Hr|exact Hc|intro; contradiction|]. eapply ent_keeps; [exact K|apply Ne, N|apply (i_live I _ He)].
  - apply (i_once I).
  - intros e He. destruct (Nat.eq_dec (eHnd e) h) as [E|N]; [apply R6; assumption|].
    eapply waits_keeps; [exact K|apply Ne, N| |apply (i_waits I _ He)]. apply (i_live I). apply in_or_app. left. exact He.
  - intros w Hw. destruct (i_out I _ Hw) as (A & B). split; [exact A|]. eapply whose_hnd; [exact H|reflexivity|exact Hc|exact B].
Qed.

(* ---- objects nobody refers to *)
Definition resOf (p : hpc) : option nat := match p with PGot r _ | PEnc r _ | PSent r | PRel r => Some r | _ => None end.
Record unref (s : rst) (k : nat) : Prop := mkUnref {
  u_req : forall h x, nth_error (rHnd s) h = Some x -> owns_req (hPc x) = true -> hReq x <> k;
  u_res : forall h x, nth_error (rHnd s) h = Some x -> resOf (hPc x) <> Some k;
  u_live : forall e, In e (live s) -> eObj e <> k }.
Lemma res_ref hp h x r : res_ok hp h x -> resOf (hPc x) = Some r -> exists o, nth_error hp r = Some o /\ oHold o = Some (h, true).
Proof.
  unfold res_ok. destruct (hPc x); intros A B; try discriminate B; injection B as <-; destruct A as (o & A & C); exists o; tauto.
Qed.
Lemma unref_none s k o : inv s -> nth_error (rHeap s) k = Some o -> oHold o = None -> unref s k.
Proof.
  intros I A B. split.
  - intros h x H W E. subst k. destruct (i_req I _ _ H W) as (o2 & C & D & _). congruence.
  - intros h x H E. destruct (res_ref _ _ _ _ (i_res I _ _ H) E) as (o2 & C & D). congruence.
  - intros e He E. destruct (i_live I _ He) as (x & o2 & _ & _ & _ & _ & C & D & _). congruence.
Qed.
Lemma inv_set s k o o' : inv s -> nth_error (rHeap s) k = Some o -> unref s k -> ~ In k (rPool s) -> buf_reusable (oBuf o') -> inv (setObj s k o').
Proof.
  intros I H U P B.
  assert (K : forall j, j <> k -> nth_error (list_set (rHeap s) k o') j = nth_error (rHeap s) j) by (intros j N; apply (upd_other _ H N)).
  constructor; cbn [setObj rHeap rPool rHnd rQueue rBusy rOut]; try apply I.
  - intros j Hj. rewrite K by congruence. apply (i_pool I _ Hj).
  - intros j y Hy. rewrite (upd _ _ H) in Hy. destruct (j =? k); [injection Hy as <-; exact B|apply (i_buf I _ _ Hy)].
  - intros h x Hx W. rewrite K by (apply (u_req _ _ U _ _ Hx W)). apply (i_req I _ _ Hx W).
  - intros h x Hx. pose proof (i_res I _ _ Hx) as R. pose proof (u_res _ _ U _ _ Hx) as N. unfold res_ok in *.
    destruct (hPc x); try exact I0; cbn in N; try (rewrite K by congruence); exact R.
  - intros e He. change (In e (live s)) in He. destruct (i_live I _ He) as (x & o2 & A1 & A2 & A3 & A4 & A5 & A6). exists x, o2.
    rewrite K by (apply (u_live _ _ U _ He)). tauto.
  - intros e He. destruct (i_waits I _ He) as (o2 & C & D). exists o2. rewrite K; [tauto|].
    apply (u_live _ _ U). apply in_or_app. left. exact He.
Qed.
Lemma inv_put s k o : inv s -> nth_error (rHeap s) k = Some o -> oMsg o = clean -> oCan o = false -> oHold o = None -> ~ In k (rPool s) ->
  inv (setPool s (k :: rPool s)).
Proof.
  intros I H A B C N. constructor; cbn [setPool rHeap rPool rHnd rQueue rBusy rOut]; try apply I.
  - constructor; [exact N|apply I].
  - intros j [<-|Hj]; [exists o; tauto|apply (i_pool I _ Hj)].
Qed.
Lemma inv_sub s p : inv s -> NoDup p -> incl p (rPool s) -> inv (setPool s p).
Proof.
  intros I A B. constructor; cbn [setPool rHeap rPool rHnd rQueue rBusy rOut]; try apply I; [exact A|]. intros j Hj. apply (i_pool I), B, Hj.
Qed.
Lemma inv_grow s : inv s -> inv (mkRst (rHeap s ++ [obj0]) (rPool s) (rHnd s) (rQueue s) (rBusy s) (rOut s)).
Proof.
  intro I. pose proof (keeps_app (rHeap s) [obj0]) as K. constructor; cbn [rHeap rPool rHnd rQueue rBusy rOut]; try apply I.
  - intros k Hk. destruct (i_pool I _ Hk) as (o & A & B). exists o. split; [apply app_old, A|exact B].
  - intros k o Hk. destruct (Nat.lt_ge_cases k (length (rHeap s))) as [L|G].
    + rewrite nth_error_app1 in Hk by exact L. apply (i_buf I _ _ Hk).
    + rewrite nth_error_app2 in Hk by exact G. destruct (k - length (rHeap s)) as [|n]; [injection Hk as <-; exact Logic.I|destruct n; discriminate Hk].
  - intros h x Hx. eapply req_keeps; [exact K|exact Logic.I|apply (i_req I _ _ Hx)].
  - intros h x Hx. eapply res_keeps; [exact K|exact Logic.I|apply (i_res I _ _ Hx)].
  - intros e He. eapply ent_keeps; [exact K|exact Logic.I|apply (i_live I _ He)].
  - intros e He. eapply waits_keeps; [exact K|exact Logic.I| |apply (i_waits I _ He)]. apply (i_live I). apply in_or_app. left. exact He.
Qed.
Lemma acquired s pick s1 k : inv s -> acquire s pick = Some (s1, k) ->
  inv s1 /\ ~ In k (rPool s1) /\ rHnd s1 = rHnd s /\
  exists y, nth_error (rHeap s1) k = Some y /\ oMsg y = clean /\ oCan y = false /\ oHold y = None /\ buf_reusable (oBuf y).
Proof.
  intros I. unfold acquire. destruct pick as [j|].
  - destruct (existsb (Nat.eqb j) (rPool s)) eqn:E; [|discriminate]. intro H. injection H as <- <-.
    apply existsb_exists in E. destruct E as (j' & E1 & E2). apply Nat.eqb_eq in E2. subst j'.
    destruct (i_pool I _ E1) as (o & A & B & C & D).
    split; [apply inv_sub; [exact I|apply NoDup_filter, I|intros x Hx; apply filter_In in Hx; apply Hx]|].
    split; [cbn [setPool rPool]; intro X; apply filter_In in X; rewrite Nat.eqb_refl in X; destruct X; discriminate|].
    split; [reflexivity|]. exists o. repeat (split; [assumption|]). apply (i_buf I _ _ A).
  - intro H. injection H as <- <-. split; [apply inv_grow, I|]. cbn [rPool rHeap rHnd].
    split; [intro X; destruct (i_pool I _ X) as (o & A & _); assert (Y : nth_error (rHeap s) (length (rHeap s)) = None) by (apply nth_error_None; lia); congruence|].
    split; [reflexivity|]. exists obj0. rewrite nth_error_app2, Nat.sub_diag by lia. repeat split.
Qed.
(* putting an object back that nobody refers to *)
Lemma inv_release s k o : inv s -> nth_error (rHeap s) k = Some o -> unref s k -> ~ In k (rPool s) -> inv (release s k).
Proof.
  intros I H U N. unfold release. rewrite H. destruct (oCan o); [|exact I].
  apply (inv_put (setObj s k (mkObj clean (oBuf o) false None)) k (mkObj clean (oBuf o) false None));
    [apply (inv_set _ _ _ _ I H U N); apply (i_buf I _ _ H)|apply (upd_same _ H)|reflexivity|reflexivity|reflexivity|exact N].
Qed.
Lemma held_not_pooled s k o : inv s -> nth_error (rHeap s) k = Some o -> oHold o <> None -> ~ In k (rPool s).
Proof. intros I A B C. destruct (i_pool I _ C) as (o2 & D & _ & _ & E). congruence. Qed.

(* ---- queues *)
Lemma list_set_mid {A} (a b : list A) q x : list_set (a ++ q :: b) (length a) x = a ++ x :: b.
Proof. induction a as [|y a IH]; [reflexivity|]. cbn. rewrite IH. reflexivity. Qed.
Lemma concat_set {A} (Q : list (list A)) ch q q' : nth_error Q ch = Some q -> exists a b, concat Q = a ++ q ++ b /\ concat (list_set Q ch q') = a ++ q' ++ b.
Proof.
  intro H. destruct (nth_error_split _ _ H) as (a & b & E & L). exists (concat a), (concat b). subst Q ch.
  rewrite list_set_mid, !concat_app. split; reflexivity.
Qed.

(* ---- steps *)
Lemma inv_init n : inv (rinit n).
Proof.
  assert (E : concat (repeat (@nil ent) n) = []) by (induction n; [reflexivity|exact IHn]).
  assert (NE : forall A k (x : A), nth_error [] k <> Some x) by (intros A k x; destruct k; discriminate).
  constructor; unfold rinit, live; cbn [rHeap rPool rHnd rQueue rBusy rOut]; rewrite ?E; cbn [app map].
  - constructor.
  - intros k [].
  - intros k o H. destruct (NE _ _ _ H).
  - intros k o H. destruct (NE _ _ _ H).
  - intros k o H. destruct (NE _ _ _ H).
  - intros k o H. destruct (NE _ _ _ H).
  - intros k o H. destruct (NE _ _ _ H).
  - intros e [].
  - constructor.
  - intros e [].
  - intros e [].
Qed.
Lemma keeps_weak (P P' : _ -> Prop) hp hp' : (forall v, P' v -> P v) -> keeps P hp hp' -> keeps P' hp hp'.
Proof. intros W K k o A B. apply K; [exact A|apply W, B]. Qed.
Lemma keeps_mine hp h b k o o' : nth_error hp k = Some o -> oHold o = Some (h, b) ->
  keeps (fun v => v <> Some (h, false) /\ v <> Some (h, true)) hp (list_set hp k o').
Proof. intros A B. eapply keeps_weak; [|apply (keeps_set _ _ _ _ A)]. intros v (V1 & V2). rewrite B. destruct b; assumption. Qed.
Lemma buf_set s k o o' : inv s -> nth_error (rHeap s) k = Some o -> buf_reusable (oBuf o') ->
  forall j y, nth_error (list_set (rHeap s) k o') j = Some y -> buf_reusable (oBuf y).
Proof. intros I H B j y Hy. rewrite (upd _ _ H) in Hy. destruct (j =? k); [injection Hy as <-; exact B|apply (i_buf I _ _ Hy)]. Qed.
Lemma keeps_refl P hp : keeps P hp hp.
Proof. intros k o A _. exact A. Qed.

Lemma step_new s k o m : inv s -> nth_error (rHeap s) k = Some o -> oHold o = Some (length (rHnd s), false) -> oMsg o = m -> oCan o = false ->
  inv (mkRst (rHeap s) (rPool s) (rHnd s ++ [mkHnd k m 0 PRun]) (rQueue s) (rBusy s) (rOut s)).
Proof.
  intros I H Ho Hm Hc.
  assert (C : forall h x, nth_error (rHnd s ++ [mkHnd k m 0 PRun]) h = Some x -> nth_error (rHnd s) h = Some x \/ (h = length (rHnd s) /\ x = mkHnd k m 0 PRun)).
  { intros h x Hx. destruct (Nat.lt_ge_cases h (length (rHnd s))) as [L|G].
    - rewrite nth_error_app1 in Hx by exact L. left. exact Hx.
    - rewrite nth_error_app2 in Hx by exact G. destruct (h - length (rHnd s)) as [|n] eqn:E; [|destruct n; discriminate Hx].
      injection Hx as <-. right. split; [lia|reflexivity]. }
  constructor; cbn [rHeap rPool rHnd rQueue rBusy rOut]; try apply I.
  - intros h x Hx. destruct (C _ _ Hx) as [D|(-> & ->)]; [apply (i_req I _ _ D)|]. intros _. exists o. cbn. tauto.
  - intros h x Hx. destruct (C _ _ Hx) as [D|(-> & ->)]; [apply (i_res I _ _ D)|exact Logic.I].
  - intros h x Hx. destruct (C _ _ Hx) as [D|(-> & ->)]; [apply (i_ans I _ _ D)|exact Logic.I].
  - intros h x Hx. destruct (C _ _ Hx) as [D|(-> & ->)]; [apply (i_tries I _ _ D)|discriminate].
  - intros e He. destruct (i_live I _ He) as (x & o2 & A & B). exists x, o2. split; [apply app_old, A|exact B].
  - intros w Hw. destruct (i_out I _ Hw) as (A & x & B & D). split; [exact A|]. exists x. split; [apply app_old, B|exact D].
Qed.
(* an entry of [h] when its response or nothing changes *)
Lemma ent_same s h x x' hp' e : inv s -> nth_error (rHnd s) h = Some x -> hReq x' = hReq x -> hCall x' = hCall x -> hTries x' = hTries x ->
  trying (hPc x') = false -> keeps (fun v => v <> Some (h, true)) (rHeap s) hp' -> In e (live s) -> ent_ok hp' (list_set (rHnd s) h x') e.
Proof.
  intros I H A B C D K He. pose proof (i_live I _ He) as L.
  eapply ent_hnd; [exact H|exact A|exact B| |eapply ent_keeps; [exact K|congruence|exact L]].
  intro E. destruct L as (y & o & L1 & L2 & L3 & _). rewrite E in L1. assert (y = x) by congruence. subst y. split; [congruence|exact D].
Qed.
Lemma wait_same s h hp' e : inv s -> keeps (fun v => v <> Some (h, true)) (rHeap s) hp' -> In e (concat (rQueue s)) -> waits hp' e.
Proof.
  intros I K He. eapply waits_keeps; [exact K|congruence| |apply (i_waits I _ He)]. apply (i_live I). apply in_or_app. left. exact He.
Qed.
Lemma in_queue_live s e : In e (concat (rQueue s)) -> In e (live s).
Proof. intro H. apply in_or_app. left. exact H. Qed.
(* while a handler prepares its first attempt it has nothing queued *)
Lemma trying_no_live s h x e : inv s -> nth_error (rHnd s) h = Some x -> trying (hPc x) = true \/ hTries x = 0 -> In e (live s) -> eHnd e <> h.
Proof.
  intros I H T He E. destruct (i_live I _ He) as (y & o & A & _ & B & C & _). rewrite E in A. assert (y = x) by congruence. subst y.
  destruct T; congruence.
Qed.
Lemma inv_emit s w : inv s -> right w -> whose s w -> inv (emit s w).
Proof.
  intros I A B. constructor; cbn [emit rHeap rPool rHnd rQueue rBusy rOut]; try apply I.
  intros v Hv. apply in_app_or in Hv. destruct Hv as [Hv|[<-|[]]]; [apply (i_out I _ Hv)|split; [exact A|exact B]].
Qed.
(* another arrangement of the queues, with entries that are well *)
Lemma inv_queue s q b : inv s -> NoDup (map eHnd (concat q ++ b)) ->
  (forall e, In e (concat q ++ b) -> ent_ok (rHeap s) (rHnd s) e) -> (forall e, In e (concat q) -> waits (rHeap s) e) ->
  inv (mkRst (rHeap s) (rPool s) (rHnd s) q b (rOut s)).
Proof. intros I A B C. constructor; cbn [rHeap rPool rHnd rQueue rBusy rOut]; try apply I; assumption. Qed.

Lemma NoDup_mid {A} (a q b : list A) : NoDup (a ++ q ++ b) -> NoDup (a ++ b).
Proof.
  intro H. assert (P : NoDup (q ++ a ++ b)).
  { apply (Permutation_NoDup (l := a ++ q ++ b)); [|exact H]. rewrite !app_assoc. apply Permutation_app_tail, Permutation_app_comm. }
  clear H. induction q as [|x q IH]; [exact P|]. apply IH. inversion P. assumption.
Qed.

Lemma rstep_inv s o s' : rstep s o = Some s' -> single s' -> inv s -> inv s'.
Proof.
  intros H Sg I. destruct o as [m pick|m pick|h g sid ch|h|h|h|ch|i|ch|h a pick|h|h|h|h]; cbn [rstep] in H.
  - (* RArrive *)
    destruct (acquire s pick) as [[s1 k]|] eqn:E; [|discriminate H].
    destruct (acquired _ _ _ _ I E) as (I1 & N & Eh & y & Y & Ym & Yc & Yh & Yb). rewrite Y in H. injection H as <-.
    set (o' := mkObj (fill (oMsg y) m) (oBuf y) (oCan y) (Some (length (rHnd s1), false))).
    assert (I2 : inv (setObj s1 k o')) by (apply (inv_set _ _ _ _ I1 Y); [apply (unref_none _ _ _ I1 Y Yh)|exact N|exact Yb]).
    apply (step_new (setObj s1 k o') k o' (fill clean m) I2); [apply (upd_same _ Y)|reflexivity|cbn; rewrite Ym; reflexivity|exact Yc].
  - (* RBad *)
    destruct (acquire s pick) as [[s1 k]|] eqn:E; [|discriminate H].
    destruct (acquired _ _ _ _ I E) as (I1 & N & Eh & y & Y & Ym & Yc & Yh & Yb). rewrite Y in H. injection H as <-.
    set (o' := mkObj (fill (oMsg y) m) (oBuf y) true None).
    assert (U := unref_none _ _ _ I1 Y Yh).
    apply (inv_release (setObj s1 k o') k o'); [apply (inv_set _ _ _ o' I1 Y U N Yb)|apply (upd_same _ Y)| |exact N].
    apply (unref_none (setObj s1 k o') k o'); [apply (inv_set _ _ _ o' I1 Y U N Yb)|apply (upd_same _ Y)|reflexivity].
  - (* RPrep *)
    destruct (nth_error (rHnd s) h) as [x|] eqn:X; [|discriminate H]. destruct (hPc x) eqn:P; try discriminate H.
    destruct (nth_error (rHeap s) (hReq x)) as [y|] eqn:Y; [|discriminate H]. injection H as <-.
    assert (T : hTries x = 0).
    { assert (S1 : S (hTries x) <= 1); [|lia].
      apply (Sg (mkHnd (hReq x) (hCall x) (Datatypes.S (hTries x)) (PPre g sid ch))). cbn [setHnd rHnd setObj].
      eapply nth_error_In, (upd_same _ X). }
    destruct (i_req I _ _ X) as (y2 & Y2 & Yh & St); [rewrite P; reflexivity|]. assert (y2 = y) by congruence. subst y2.
    unfold req_stage in St. rewrite P in St. destruct (St T) as (Ym & Yc).
    apply (inv_hnd s h x (mkHnd (hReq x) (hCall x) (Datatypes.S (hTries x)) (PPre g sid ch))
             (list_set (rHeap s) (hReq x) (mkObj (forward (oMsg y) g sid) (oBuf y) (oCan y) (oHold y))) I X eq_refl eq_refl).
    + apply (keeps_mine _ _ _ _ _ _ Y Yh).
    + apply (buf_set _ _ _ _ I Y). apply (i_buf I _ _ Y).
    + intros _. eexists. split; [apply (upd_same _ Y)|]. split; [exact Yh|]. cbn. rewrite Ym. split; [reflexivity|exact Yc].
    + exact Logic.I.
    + exact Logic.I.
    + intros _. cbn. lia.
    + intros e He E. destruct (trying_no_live s h x e I X (or_intror T) He E).
    + intros e He E. destruct (trying_no_live s h x e I X (or_intror T) (in_queue_live _ _ He) E).
  - (* REnc *)
    destruct (nth_error (rHnd s) h) as [x|] eqn:X; [|discriminate H]. destruct (hPc x) eqn:P; try discriminate H.
    destruct (nth_error (rHeap s) (hReq x)) as [y|] eqn:Y; [|discriminate H]. injection H as <-.
    assert (T : trying (hPc x) = true) by (rewrite P; reflexivity).
    destruct (i_req I _ _ X) as (y2 & Y2 & Yh & St); [rewrite P; reflexivity|]. assert (y2 = y) by congruence. subst y2.
    unfold req_stage in St. rewrite P in St. destruct St as (Ym & Yc).
    apply (inv_hnd s h x (mkHnd (hReq x) (hCall x) (hTries x) (PTry g sid ch))
             (list_set (rHeap s) (hReq x) (mkObj (oMsg y) (Some (encode0 (oBuf y) (oMsg y))) (oCan y) (oHold y))) I X eq_refl eq_refl).
    + apply (keeps_mine _ _ _ _ _ _ Y Yh).
    + apply (buf_set _ _ _ _ I Y). cbn [oBuf]. apply encode0_border, (i_buf I _ _ Y).
    + intros _. eexists. split; [apply (upd_same _ Y)|]. split; [exact Yh|]. cbn. split; [|exact Yc]. split; [exact Ym|].
      exists (oBuf y). split; [apply (i_buf I _ _ Y)|]. cbn [oBuf]. rewrite Ym. reflexivity.
    + exact Logic.I.
    + exact Logic.I.
    + intros _. cbn. apply (i_tries I _ _ X T).
    + intros e He E. destruct (trying_no_live s h x e I X (or_introl T) He E).
    + intros e He E. destruct (trying_no_live s h x e I X (or_introl T) (in_queue_live _ _ He) E).
  - (* RPush *)
    destruct (nth_error (rHnd s) h) as [x|] eqn:X; [|discriminate H]. destruct (hPc x) as [| |g sid c| | | | |] eqn:P; try discriminate H.
    destruct (nth_error (rQueue s) c) as [q|] eqn:Q; [|discriminate H]. injection H as <-.
    assert (T : trying (hPc x) = true) by (rewrite P; reflexivity). pose proof (i_tries I _ _ X T) as Tn.
    destruct (i_req I _ _ X) as (y & Y & Yh & St); [rewrite P; reflexivity|]. unfold req_stage in St. rewrite P in St. destruct St as (Ye & Yc).
    pose proof (fun e => trying_no_live s h x e I X (or_introl T)) as NL.
    set (x' := mkHnd (hReq x) (hCall x) (hTries x) PRun).
    assert (I1 : inv (goPc s h x PRun)).
    { apply (inv_hnd s h x x' (rHeap s) I X eq_refl eq_refl).
      - apply keeps_refl.
      - apply (i_buf I).
      - intros _. exists y. split; [exact Y|]. split; [exact Yh|]. cbn. intro Z. contradiction.
      - exact Logic.I.
      - exact Logic.I.
      - discriminate.
      - intros e He E. destruct (NL e He E).
      - intros e He E. destruct (NL e (in_queue_live _ _ He) E). }
    set (e := mkEnt (hReq x) h (forward (hCall x) g sid)).
    destruct (concat_set _ _ _ (q ++ [e]) Q) as (a & b & C1 & C2).
    assert (Inq : forall z, In z (concat (list_set (rQueue s) c (q ++ [e]))) -> z = e \/ In z (concat (rQueue s))).
    { intros z Hz. rewrite C2 in Hz. rewrite C1. rewrite !in_app_iff in *. cbn in Hz. intuition. }
    apply (inv_queue (goPc s h x PRun) (list_set (rQueue s) c (q ++ [e])) (rBusy s) I1).
    + assert (Pm : Permutation (concat (list_set (rQueue s) c (q ++ [e])) ++ rBusy s) (e :: live s)).
      { unfold live. rewrite C1, C2. change (e :: (a ++ q ++ b) ++ rBusy s) with ((e :: a ++ q ++ b) ++ rBusy s). apply Permutation_app_tail.
        transitivity (a ++ e :: q ++ b); [|symmetry; apply Permutation_middle]. apply Permutation_app_head. rewrite <- app_assoc. symmetry. apply Permutation_middle. }
      apply (Permutation_NoDup (Permutation_map eHnd (Permutation_sym Pm))). cbn [map]. constructor; [|apply I].
      intro Z. apply in_map_iff in Z. destruct Z as (z & Z1 & Z2). exact (NL z Z2 Z1).
    + intros z Hz. apply in_app_or in Hz. assert (D : z = e \/ In z (live s)).
      { destruct Hz as [Hz|Hz]; [destruct (Inq _ Hz); [left; assumption|right; apply in_queue_live; assumption]|right; apply in_or_app; right; exact Hz]. }
      destruct D as [->|D]; [|apply (i_live I1 z D)].
      exists x', y. cbn [goPc setHnd rHnd rHeap eHnd eObj e]. rewrite (upd_same _ X). repeat (split; [first [reflexivity|assumption]|]).
      exists g, sid. reflexivity.
    + intros z Hz. destruct (Inq _ Hz) as [->|D]; [exists y; split; [exact Y|exact Ye]|apply (i_waits I _ D)].
  - (* RNoPush *)
    destruct (nth_error (rHnd s) h) as [x|] eqn:X; [|discriminate H]. destruct (hPc x) as [| |g sid c| | | | |] eqn:P; try discriminate H.
    injection H as <-.
    assert (T : trying (hPc x) = true) by (rewrite P; reflexivity). pose proof (i_tries I _ _ X T) as Tn.
    destruct (i_req I _ _ X) as (y & Y & Yh & St); [rewrite P; reflexivity|].
    pose proof (fun e => trying_no_live s h x e I X (or_introl T)) as NL.
    apply (inv_hnd s h x (mkHnd (hReq x) (hCall x) (hTries x) PRun) (rHeap s) I X eq_refl eq_refl).
    + apply keeps_refl.
    + apply (i_buf I).
    + intros _. exists y. split; [exact Y|]. split; [exact Yh|]. cbn. intro Z. contradiction.
    + exact Logic.I.
    + exact Logic.I.
    + discriminate.
    + intros e He E. destruct (NL e He E).
    + intros e He E. destruct (NL e (in_queue_live _ _ He) E).
  - (* RWrite *)
    destruct (nth_error (rQueue s) ch) as [[|e q]|] eqn:Q; try discriminate H.
    destruct (nth_error (rHeap s) (eObj e)) as [y|] eqn:Y; [|discriminate H]. injection H as <-.
    destruct (concat_set _ _ _ q Q) as (a & b & C1 & C2).
    assert (He : In e (concat (rQueue s))) by (rewrite C1; apply in_or_app; right; left; reflexivity).
    assert (Pm : Permutation (live s) (concat (list_set (rQueue s) ch q) ++ rBusy s ++ [e])).
    { unfold live. rewrite C1, C2. cbn [app]. transitivity (e :: (a ++ q ++ b) ++ rBusy s).
      - change (e :: (a ++ q ++ b) ++ rBusy s) with ((e :: a ++ q ++ b) ++ rBusy s). apply Permutation_app_tail. symmetry. apply Permutation_middle.
      - rewrite (app_assoc (a ++ q ++ b)). apply Permutation_cons_append. }
    apply inv_emit.
    + apply (inv_queue s (list_set (rQueue s) ch q) (rBusy s ++ [e]) I).
      * apply (Permutation_NoDup (Permutation_map eHnd Pm)), I.
      * intros z Hz. apply (i_live I). apply (Permutation_in _ (Permutation_sym Pm) Hz).
      * intros z Hz. apply (i_waits I). rewrite C1. rewrite C2 in Hz. rewrite !in_app_iff in *. cbn. tauto.
    + intro Sm. destruct (i_waits I _ He) as (y2 & Y2 & Ye). assert (y2 = y) by congruence. subst y2. apply encoded_bytes; assumption.
    + destruct (i_live I _ (in_queue_live _ _ He)) as (x & o2 & X & _ & _ & _ & _ & _ & _ & W). exists x. split; [exact X|exact W].
  - (* RDone *)
    destruct (nth_error (rBusy s) i) as [e|] eqn:B; [|discriminate H].
    destruct (nth_error (rHeap s) (eObj e)) as [y|] eqn:Y; [|discriminate H]. injection H as <-.
    assert (He : In e (live s)) by (apply in_or_app; right; apply (nth_error_In _ _ B)).
    destruct (i_live I _ He) as (x & y2 & X & Xr & Xt & Xp & Y2 & Yh & Yc & W). assert (y2 = y) by congruence. subst y2.
    pose proof (nth_split_at _ _ _ B) as Sp. set (rest := firstn i (rBusy s) ++ skipn (Datatypes.S i) (rBusy s)) in *.
    assert (Pm : Permutation (live s) (e :: concat (rQueue s) ++ rest)).
    { unfold live. rewrite Sp at 1. unfold rest. rewrite (app_assoc (concat _)), (app_assoc (concat _)). symmetry. apply Permutation_middle. }
    assert (ND : NoDup (map eHnd (e :: concat (rQueue s) ++ rest))) by (apply (Permutation_NoDup (Permutation_map eHnd Pm)), I).
    cbn [map] in ND. apply NoDup_cons_iff in ND. destruct ND as (N1 & N2).
    assert (Other : forall z, In z (concat (rQueue s) ++ rest) -> In z (live s) /\ eHnd z <> eHnd e).
    { intros z Hz. split; [apply (Permutation_in _ (Permutation_sym Pm)); right; exact Hz|]. intro E. apply N1. rewrite <- E. apply in_map, Hz. }
    set (y' := mkObj (oMsg y) (oBuf y) true (oHold y)).
    pose proof (keeps_set (rHeap s) (eObj e) y y' Y) as K. rewrite Yh in K.
    constructor; cbn [setObj rHeap rPool rHnd rQueue rBusy rOut].
    + apply I.
    + intros k Hk. destruct (i_pool I _ Hk) as (o & A1 & A2 & A3 & A4). exists o. split; [apply K; [exact A1|rewrite A4; discriminate]|tauto].
    + apply (buf_set _ _ _ _ I Y). apply (i_buf I _ _ Y).
    + intros h z Hz. destruct (Nat.eq_dec h (eHnd e)) as [->|N].
      * assert (z = x) by congruence. subst z. intros _. exists y'. rewrite <- Xr. split; [apply (upd_same _ Y)|]. split; [exact Yh|].
        unfold req_stage. destruct (hPc x); try exact Logic.I; try discriminate Xp. intro; contradiction.
      * eapply req_keeps; [exact K|congruence|apply (i_req I _ _ Hz)].
    + intros h z Hz. eapply res_keeps; [exact K|congruence|apply (i_res I _ _ Hz)].
    + apply I.
    + apply I.
    + intros z Hz. destruct (Other z Hz) as (L & N). eapply ent_keeps; [exact K|congruence|apply (i_live I _ L)].
    + exact N2.
    + intros z Hz. destruct (Other z (in_or_app _ _ _ (or_introl Hz))) as (L & N).
      eapply waits_keeps; [exact K|congruence|apply (i_live I _ L)|apply (i_waits I _ Hz)].
    + intros w Hw. apply (i_out I _ Hw).
  - (* RShut *)
    destruct (nth_error (rQueue s) ch) as [q|] eqn:Q; [|discriminate H]. injection H as <-.
    destruct (concat_set _ _ _ [] Q) as (a & b & C1 & C2).
    assert (Sub : forall z, In z (concat (list_set (rQueue s) ch [])) -> In z (concat (rQueue s))) by
      (intros z Hz; rewrite C1; rewrite C2 in Hz; rewrite !in_app_iff in *; cbn in Hz; tauto).
    apply (inv_queue s (list_set (rQueue s) ch []) (rBusy s) I).
    + pose proof (i_once I) as O. unfold live in O. rewrite C1 in O. rewrite C2. cbn [app]. rewrite !map_app in *.
      rewrite <- !app_assoc in *. apply (NoDup_mid _ _ _ O).
    + intros z Hz. apply (i_live I). unfold live. rewrite in_app_iff in *. destruct Hz as [Hz|Hz]; [left; apply Sub, Hz|right; exact Hz].
    + intros z Hz. apply (i_waits I), Sub, Hz.
  - (* RAnswer *)
    destruct (nth_error (rHnd s) h) as [x|] eqn:X; [|discriminate H]. destruct (hPc x) eqn:P; try discriminate H.
    destruct (acquire s _) as [[s1 k]|] eqn:E; [|discriminate H].
    destruct (acquired _ _ _ _ I E) as (I1 & N & Eh & y & Y & Ym & Yc & Yh & Yb). rewrite Y in H. injection H as <-.
    rewrite <- Eh in X. set (rid := hReqID (mHeader (hCall x))) in *.
    set (o' := mkObj (setRid (answerFill a (oMsg y)) rid) (oBuf y) (oCan y) (Some (h, true))).
    assert (I2 : inv (setObj s1 k o')) by (apply (inv_set _ _ _ _ I1 Y); [apply (unref_none _ _ _ I1 Y Yh)|exact N|exact Yb]).
    set (x' := mkHnd (hReq x) (hCall x) (hTries x) (PGot k (setRid (answerFill a clean) rid))).
    apply (inv_hnd (setObj s1 k o') h x x' (rHeap (setObj s1 k o')) I2 X eq_refl eq_refl).
    + apply keeps_refl.
    + apply (i_buf I2).
    + intros _. destruct (i_req I2 _ _ X) as (o & A1 & A2 & A3); [rewrite P; reflexivity|]. exists o. split; [exact A1|]. split; [exact A2|exact Logic.I].
    + exists o'. split; [apply (upd_same _ Y)|]. split; [reflexivity|]. cbn. rewrite Ym. reflexivity.
    + exists a. reflexivity.
    + discriminate.
    + intros e He Ee. apply (ent_same (setObj s1 k o') h x x' _ e I2 X eq_refl eq_refl eq_refl eq_refl); [apply keeps_refl|exact He].
    + intros e He Ee. apply (i_waits I2 _ He).
  - (* REncAnswer *)
    destruct (nth_error (rHnd s) h) as [x|] eqn:X; [|discriminate H]. destruct (hPc x) as [| | |r m| | | |] eqn:P; try discriminate H.
    destruct (nth_error (rHeap s) r) as [y|] eqn:Y; [|discriminate H]. injection H as <-.
    pose proof (i_res I _ _ X) as R. unfold res_ok in R. rewrite P in R. destruct R as (y2 & Y2 & Yh & Ym). assert (y2 = y) by congruence. subst y2.
    pose proof (i_ans I _ _ X) as A. unfold good_answer in A. rewrite P in A.
    set (y' := mkObj (oMsg y) (Some (encode0 (oBuf y) (oMsg y))) (oCan y) (oHold y)).
    pose proof (keeps_set _ _ _ y' Y) as K. rewrite Yh in K.
    set (x' := mkHnd (hReq x) (hCall x) (hTries x) (PEnc r m)).
    apply (inv_hnd s h x x' (list_set (rHeap s) r y') I X eq_refl eq_refl).
    + apply (keeps_mine _ _ _ _ _ _ Y Yh).
    + apply (buf_set _ _ _ _ I Y). cbn [oBuf y']. apply encode0_border, (i_buf I _ _ Y).
    + intros _. destruct (i_req I _ _ X) as (o & A1 & A2 & A3); [rewrite P; reflexivity|]. exists o. split; [apply K; [exact A1|congruence]|].
      split; [exact A2|exact Logic.I].
    + exists y'. split; [apply (upd_same _ Y)|]. split; [exact Yh|]. split; [exact Ym|]. exists (oBuf y). split; [apply (i_buf I _ _ Y)|].
      cbn. rewrite Ym. reflexivity.
    + exact A.
    + discriminate.
    + intros e He Ee. apply (ent_same s h x x' _ e I X eq_refl eq_refl eq_refl eq_refl K He).
    + intros e He Ee. apply (wait_same s h _ e I K He).
  - (* RSend *)
    destruct (nth_error (rHnd s) h) as [x|] eqn:X; [|discriminate H]. destruct (hPc x) as [| | | |r m| | |] eqn:P; try discriminate H.
    destruct (nth_error (rHeap s) r) as [y|] eqn:Y; [|discriminate H]. injection H as <-.
    pose proof (i_res I _ _ X) as R. unfold res_ok in R. rewrite P in R. destruct R as (y2 & Y2 & Yh & Ye). assert (y2 = y) by congruence. subst y2.
    pose proof (i_ans I _ _ X) as A. unfold good_answer in A. rewrite P in A.
    set (y' := mkObj (oMsg y) (oBuf y) true (oHold y)).
    pose proof (keeps_set _ _ _ y' Y) as K. rewrite Yh in K.
    set (x' := mkHnd (hReq x) (hCall x) (hTries x) (PSent r)).
    apply inv_emit.
    + apply (inv_hnd s h x x' (list_set (rHeap s) r y') I X eq_refl eq_refl).
      * apply (keeps_mine _ _ _ _ _ _ Y Yh).
      * apply (buf_set _ _ _ _ I Y). apply (i_buf I _ _ Y).
      * intros _. destruct (i_req I _ _ X) as (o & A1 & A2 & A3); [rewrite P; reflexivity|]. exists o. split; [apply K; [exact A1|congruence]|].
        split; [exact A2|exact Logic.I].
      * exists y'. split; [apply (upd_same _ Y)|exact Yh].
      * exact Logic.I.
      * discriminate.
      * intros e He Ee. apply (ent_same s h x x' _ e I X eq_refl eq_refl eq_refl eq_refl K He).
      * intros e He Ee. apply (wait_same s h _ e I K He).
    + intro Sm. apply encoded_bytes; assumption.
    + exists x'. split; [apply (upd_same _ X)|exact A].
  - (* RFreeReq *)
    destruct (nth_error (rHnd s) h) as [x|] eqn:X; [|discriminate H]. destruct (hPc x) as [| | | | |r| |] eqn:P; try discriminate H. injection H as <-.
    pose proof (i_res I _ _ X) as R. unfold res_ok in R. rewrite P in R.
    destruct (i_req I _ _ X) as (y & Y & Yh & _); [rewrite P; reflexivity|].
    set (x' := mkHnd (hReq x) (hCall x) (hTries x) (PRel r)).
    assert (I1 : inv (goPc s h x (PRel r))).
    { apply (inv_hnd s h x x' (rHeap s) I X eq_refl eq_refl); [apply keeps_refl|apply (i_buf I)|discriminate|exact R|exact Logic.I|discriminate| |].
      - intros e He Ee. apply (ent_same s h x x' _ e I X eq_refl eq_refl eq_refl eq_refl); [apply keeps_refl|exact He].
      - intros e He Ee. apply (i_waits I _ He). }
    assert (G : goPc (release s (hReq x)) h x (PRel r) = release (goPc s h x (PRel r)) (hReq x)).
    { unfold release. cbn [goPc setHnd rHeap]. rewrite Y. destruct (oCan y); reflexivity. }
    rewrite G. destruct (oCan y) eqn:Yc.
    + apply (inv_release (goPc s h x (PRel r)) (hReq x) y I1 Y); [|apply (held_not_pooled _ _ _ I1 Y); congruence]. split.
      * intros h2 x2 X2 W E. destruct (i_req I1 _ _ X2 W) as (o & A1 & A2 & _). rewrite E in A1. cbn [goPc setHnd rHeap] in A1.
        assert (h2 = h) by congruence. subst h2. cbn [goPc setHnd rHnd] in X2. rewrite (upd_same _ X) in X2. injection X2 as <-. discriminate W.
      * intros h2 x2 X2 E. destruct (res_ref _ _ _ _ (i_res I1 _ _ X2) E) as (o & A1 & A2). cbn [goPc setHnd rHeap] in A1. congruence.
      * intros e He E. destruct (i_live I1 _ He) as (x2 & o & _ & _ & _ & _ & A1 & A2 & A3 & _). rewrite E in A1. cbn [goPc setHnd rHeap] in A1. congruence.
    + unfold release. cbn [goPc setHnd rHeap]. rewrite Y, Yc. exact I1.
  - (* RFreeRes *)
    destruct (nth_error (rHnd s) h) as [x|] eqn:X; [|discriminate H]. destruct (hPc x) as [| | | | | |r|] eqn:P; try discriminate H. injection H as <-.
    pose proof (i_res I _ _ X) as R. unfold res_ok in R. rewrite P in R. destruct R as (y & Y & Yh).
    set (x' := mkHnd (hReq x) (hCall x) (hTries x) PEnd).
    assert (I1 : inv (goPc s h x PEnd)).
    { apply (inv_hnd s h x x' (rHeap s) I X eq_refl eq_refl); [apply keeps_refl|apply (i_buf I)|discriminate|exact Logic.I|exact Logic.I|discriminate| |].
      - intros e He Ee. apply (ent_same s h x x' _ e I X eq_refl eq_refl eq_refl eq_refl); [apply keeps_refl|exact He].
      - intros e He Ee. apply (i_waits I _ He). }
    assert (G : goPc (release s r) h x PEnd = release (goPc s h x PEnd) r).
    { unfold release. cbn [goPc setHnd rHeap]. rewrite Y. destruct (oCan y); reflexivity. }
    rewrite G. apply (inv_release (goPc s h x PEnd) r y I1 Y); [|apply (held_not_pooled _ _ _ I1 Y); congruence]. split.
    + intros h2 x2 X2 W E. destruct (i_req I1 _ _ X2 W) as (o & A1 & A2 & _). rewrite E in A1. cbn [goPc setHnd rHeap] in A1. congruence.
    + intros h2 x2 X2 E. destruct (res_ref _ _ _ _ (i_res I1 _ _ X2) E) as (o & A1 & A2). cbn [goPc setHnd rHeap] in A1.
      assert (h2 = h) by congruence. subst h2. cbn [goPc setHnd rHnd] in X2. rewrite (upd_same _ X) in X2. injection X2 as <-. discriminate E.
    + intros e He E. destruct (i_live I1 _ He) as (x2 & o & _ & _ & _ & _ & A1 & A2 & A3 & _). rewrite E in A1. cbn [goPc setHnd rHeap] in A1. congruence.
Qed.

Definition grows (hs hs' : list hnd) : Prop := forall h x, nth_error hs h = Some x -> exists x', nth_error hs' h = Some x' /\ hTries x <= hTries x'.
Lemma grows_set hs h x x' : nth_error hs h = Some x -> hTries x <= hTries x' -> grows hs (list_set hs h x').
Proof.
  intros H L k y Y. rewrite (upd _ _ H). destruct (Nat.eqb_spec k h) as [->|N]; [|exists y; split; [exact Y|lia]].
  exists x'. split; [reflexivity|]. assert (y = x) by congruence. subst y. exact L.
Qed.
Lemma grows_refl hs : grows hs hs. Proof. intros h x H. exists x. split; [exact H|lia]. Qed.
Lemma release_hnd s k : rHnd (release s k) = rHnd s.
Proof. unfold release. destruct (nth_error (rHeap s) k) as [o|]; [|reflexivity]. destruct (oCan o); reflexivity. Qed.
Lemma acquire_hnd s p s1 k : acquire s p = Some (s1, k) -> rHnd s1 = rHnd s.
Proof. unfold acquire. destruct p as [j|]; [destruct (existsb _ _); [|discriminate]|]; intro H; injection H as <- _; reflexivity. Qed.
Lemma rstep_grows s o s' : rstep s o = Some s' -> grows (rHnd s) (rHnd s').
Proof.
  intro H. destruct o as [m pick|m pick|h g sid ch|h|h|h|ch|i|ch|h a pick|h|h|h|h]; cbn [rstep] in H;
    repeat match type of H with
           | match acquire s ?p with _ => _ end = _ => let E := fresh "E" in destruct (acquire s p) as [[s1 k]|] eqn:E; [|discriminate H]; pose proof (acquire_hnd _ _ _ _ E)
           | match ?e with _ => _ end = _ => let E := fresh "E" in destruct e eqn:E; try discriminate H
           end;
    injection H as <-; unfold goPc, setHnd, setObj, emit; cbn [rHnd]; rewrite ?release_hnd; cbn [setObj rHnd];
    try match goal with E : rHnd ?s1 = rHnd s |- _ => rewrite E end;
    try apply grows_refl; try (eapply grows_set; [eassumption|cbn; lia]).
  intros k0 y Y. exists y. split; [apply app_old; exact Y|lia].
Qed.
Lemma rruns_inv os : forall s s', rruns s os = Some s' -> single s' -> inv s -> inv s' /\ grows (rHnd s) (rHnd s').
Proof.
  assert (M : forall os s s', rruns s os = Some s' -> grows (rHnd s) (rHnd s')).
  { clear os. induction os as [|o os IH]; intros s s' H; cbn [rruns] in H; [injection H as <-; apply grows_refl|].
    destruct (rstep s o) as [s1|] eqn:E; [|discriminate H]. intros h x X. destruct (rstep_grows _ _ _ E _ _ X) as (x1 & X1 & L1).
    destruct (IH _ _ H _ _ X1) as (x2 & X2 & L2). exists x2. split; [exact X2|lia]. }
  induction os as [|o os IH]; intros s s' H Sg I; cbn [rruns] in H.
  - injection H as <-. split; [exact I|apply grows_refl].
  - split; [|apply (M (o :: os)); exact H]. destruct (rstep s o) as [s1|] eqn:E; [|discriminate H].
    apply (IH s1 s' H Sg). apply (rstep_inv _ _ _ E); [|exact I]. intros x Hx. apply In_nth_error in Hx. destruct Hx as (h & Hx).
    destruct (M _ _ _ H _ _ Hx) as (x' & X & L). pose proof (Sg x' (nth_error_In _ _ X)). lia.
Qed.
Lemma no_mixup n os s : rruns (rinit n) os = Some s -> single s -> forall w, In w (rOut s) -> right w /\ whose s w.
Proof. intros H Sg. apply (rruns_inv _ _ _ H Sg (inv_init n)). Qed.

(* entries of a decoded message with distinct keys are stored as they are *)
Lemma fill_id m : NoDup (map fst (mMeta m)) -> fill clean m = m.
Proof.
  intro H. unfold fill. destruct m as [h l b]. cbn [mMeta mHeader mBody clean] in *. f_equal.
  assert (G : forall (l acc : list (bs * bs)), NoDup (map fst (acc ++ l)) -> fold_left (fun a kv => aset bs_eqb a (fst kv) (snd kv)) l acc = acc ++ l).
  { clear. induction l as [|[k v] l IH]; intros acc H; cbn [fold_left fst snd]; [symmetry; apply app_nil_r|].
    assert (E : aset bs_eqb acc k v = acc ++ [(k, v)]).
    { rewrite map_app in H. cbn [map fst] in H. apply NoDup_remove_2 in H. assert (N : ~ In k (map fst acc)) by (intro X; apply H, in_or_app; left; exact X).
      clear -N. induction acc as [|[k' v'] acc IH]; [reflexivity|]. cbn [aset]. cbn [map fst] in N.
      destruct (bs_eqb k k') eqn:E; [apply bs_eqb_spec in E; subst; destruct N; left; reflexivity|].
      rewrite IH; [reflexivity|]. intro X. apply N. right. exact X. }
    rewrite E, IH, <- app_assoc; [reflexivity|]. rewrite <- app_assoc. exact H. }
  exact (G l [] H).
Qed.

Lemma forward_view m g sid : mBody (forward m g sid) = mBody m /\
  (forall k, aget bs_eqb (mMeta (forward m g sid)) k = if bs_eqb k (s2b "M_g") then Some g else aget bs_eqb (mMeta m) k) /\
  view (mHeader (forward m g sid)) =
    let v := view (mHeader m) in mkView (v_hb v) (v_gz v) (v_ow v) true (v_rq v) (v_ver v) (v_st v) (v_ser v) sid.
Proof.
  split; [reflexivity|]. split.
  - intro k. unfold forward, setRid. cbn [mMeta]. change MGroup with (s2b "M_g"). destruct (bs_eqb k (s2b "M_g")) eqn:E.
    + rewrite (aget_aset bs_eqb bs_eqb_spec), E. reflexivity.
    + rewrite (aget_aset bs_eqb bs_eqb_spec), E. reflexivity.
  - pose proof (hop_refines (mHeader m) (OpProxy true) Logic.I) as P. cbn [run_hop] in P. unfold forward, setRid.
    cbn [mHeader]. unfold view in *. cbn [spec_hop hMsgType hVerStatus hSerialize hReqID] in *.
    injection P as P1 P2 P3 P4 P5.
    unfold IsHeartbeat, IsGzip, IsOneWay, IsProxy, isRequest, GetVersion, GetStatus, GetSerialize in *. cbn [hMsgType hVerStatus hSerialize hReqID v_hb v_gz v_ow v_rq v_ver v_st v_ser] in *.
    f_equal; first [assumption|reflexivity].
Qed.
