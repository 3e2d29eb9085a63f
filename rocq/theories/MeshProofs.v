(* MeshProofs.v: proofs of C82. *)
From Verif Require Import Base UrlModel UrlSpec MeshModel MeshSpec.

Lemma sent_as_request m u : sent_as m u (meshRequest m u).
Proof.
  unfold sent_as, meshRequest, putParam, copyUrl, fresh, withParams, pset. cbn [cUrl uProtocol uHost uPort uPath uGroup uParams].
  repeat (split; [reflexivity|]). intro k. unfold pget at 1. rewrite (aget_aset bs_eqb bs_eqb_spec). destruct (bs_eqb k (s2b "proxyRegistry")); [reflexivity|].
  unfold pget. destruct (uParams u); reflexivity.
Qed.
Lemma request_identity m u : identity_of (meshRequest m u) = identity_of u.
Proof.
  destruct (sent_as_request m u) as (H1 & H2 & H3 & H4 & H5 & H6). unfold identity_of. rewrite H1, H2, H3, H4, H5.
  assert (E : str_or (meshRequest m u) (s2b "address") [] = str_or u (s2b "address") []).
  { unfold str_or. specialize (H6 (s2b "address")). replace (bs_eqb (s2b "address") (s2b "proxyRegistry")) with false in H6 by reflexivity.
    change (param (meshRequest m u) (s2b "address")) with (pget (uParams (meshRequest m u)) (s2b "address")). rewrite H6. reflexivity. }
  rewrite E. reflexivity.
Qed.
Lemma loop_spec k u net : forall ag log, let '(c, (ag', log')) := postLoop k u net (ag, log) in
  c = first_code net /\ log' = log ++ repeat (k, u) (tries net).
Proof.
  induction net as [|[d a] net IH]; intros ag log; cbn [postLoop first_code tries]; [split; [reflexivity|rewrite app_nil_r; reflexivity]|].
  cbn [fst snd]. destruct a as [| |c].
  - specialize (IH (if d then agentDoes k (identity_of u) ag else ag) (log ++ [(k, u)])). destruct (postLoop k u net _) as [c' [a' l']]. destruct IH as [-> ->].
    split; [reflexivity|]. rewrite <- app_assoc. reflexivity.
  - specialize (IH (if d then agentDoes k (identity_of u) ag else ag) (log ++ [(k, u)])). destruct (postLoop k u net _) as [c' [a' l']]. destruct IH as [-> ->].
    split; [reflexivity|]. rewrite <- app_assoc. reflexivity.
  - split; reflexivity.
Qed.
Lemma does_in k id l x : In x (agentDoes k id l) <->
  match k with KReg => x = id \/ In x l | KUnreg => x <> id /\ In x l | KSub => In x l end.
Proof.
  destruct k; cbn [agentDoes]; [| |reflexivity].
  - destruct (existsb (bs_eqb id) l) eqn:E.
    + apply existsb_exists in E as (y & Hy & E). apply bs_eqb_spec in E. subst y. split; [auto|]. intros [->|H]; assumption.
    + rewrite in_app_iff. cbn. split; [intros [H|[<-|[]]]|intros [->|H]]; auto.
  - rewrite filter_In, negb_true_iff, bs_eqb_neq. tauto.
Qed.
Lemma loop_agent k u net : k <> KUnreg -> forall ag log, let '(c, (ag', log')) := postLoop k u net (ag, log) in
  (forall x, In x ag -> In x ag') /\
  (k = KReg -> (forall d, In (d, ACode 200) net -> d = true) -> c = Some 200%Z -> In (identity_of u) ag').
Proof.
  intro Hk. assert (Mono : forall ag x, In x ag -> In x (agentDoes k (identity_of u) ag)).
  { intros ag x Hx. apply does_in. destruct k; [auto|contradiction|auto]. }
  assert (Mono' : forall (d : bool) ag x, In x ag -> In x (if d then agentDoes k (identity_of u) ag else ag)) by (intros [|] ag x Hx; auto).
  induction net as [|[d a] net IH]; intros ag log; cbn [postLoop]; [split; [auto|intros _ _ X; discriminate X]|]. cbn [fst snd].
  destruct a as [| |c].
  - specialize (IH (if d then agentDoes k (identity_of u) ag else ag) (log ++ [(k, u)])). destruct (postLoop k u net _) as [c' [a' l']]. destruct IH as [I1 I2].
    split; [auto|]. intros E T. apply I2; [exact E|]. intros d' H. apply T. right. exact H.
  - specialize (IH (if d then agentDoes k (identity_of u) ag else ag) (log ++ [(k, u)])). destruct (postLoop k u net _) as [c' [a' l']]. destruct IH as [I1 I2].
    split; [auto|]. intros E T. apply I2; [exact E|]. intros d' H. apply T. right. exact H.
  - split; [auto|]. intros E T X. injection X as ->. rewrite (T d (or_introl eq_refl)). apply does_in. rewrite E. auto.
Qed.

Lemma after_snoc m os o : mesh_after m (os ++ [o]) = mstep (mesh_after m os) o.
Proof. unfold mesh_after, mruns. rewrite fold_left_app. reflexivity. Qed.
Lemma loop_code k u net w : fst (postLoop k u net w) = first_code net.
Proof. destruct w as [ag log]. pose proof (loop_spec k u net ag log) as H. destruct (postLoop k u net (ag, log)) as [c [a l]]. exact (proj1 H). Qed.

Lemma code_200 (c : Z) {A} (x y : A) : match c with 200%Z => x | _ => y end = if (c =? 200)%Z then x else y.
Proof.
  destruct (Z.eqb_spec c 200) as [->|N]; [reflexivity|]. destruct c as [|p|p]; try reflexivity.
  repeat (destruct p as [p|p|]; try reflexivity). exfalso. apply N. reflexivity.
Qed.
Lemma listed_reg id cur u net : listed_after id cur (MRegister u net) =
  if bs_eqb (identity_of u) id then match cur with Some v => Some v | None => match first_code net with Some c => if (c =? 200)%Z then Some u else None | None => None end end else cur.
Proof. cbn [listed_after]. destruct (bs_eqb (identity_of u) id); [|reflexivity]. destruct cur; [reflexivity|]. destruct (first_code net) as [c|]; [apply code_200|reflexivity]. Qed.
Lemma listed_unreg id cur u d a : listed_after id cur (MUnregister u d a) =
  match a with ACode c => if (c =? 200)%Z then (if bs_eqb (identity_of u) id then None else cur) else cur | _ => cur end.
Proof. cbn [listed_after]. destruct a as [| |c]; try reflexivity. apply code_200. Qed.

Lemma listed_snoc id os o : listed id (os ++ [o]) = listed_after id (listed id os) o.
Proof. unfold listed. rewrite fold_left_app. reflexivity. Qed.
Definition static (m m' : mesh) : Prop := msUrl m' = msUrl m /\ msPort m' = msPort m /\ msProxy m' = msProxy m.
Lemma step_static w o : static (mwMesh w) (mwMesh (mstep w o)).
Proof.
  unfold static. destruct o as [u net|u d a|u net]; cbn [mstep].
  - destruct (msRegLock (mwMesh w)); [auto|]. destruct (aget bs_eqb (msReg (mwMesh w)) (identity_of u)); [auto|].
    destruct (postLoop KReg _ net _) as [c [ag log]]. cbn [mwMesh]. destruct c; auto.
  - destruct (msRegLock (mwMesh w)); [auto|]. destruct (aget bs_eqb (msReg (mwMesh w)) (identity_of u)); [|auto].
    cbn [mwMesh]. destruct a as [| |c]; auto. destruct (c =? 200)%Z; auto.
  - destruct (msSubLock (mwMesh w)); [auto|]. destruct (aget bs_eqb (msSub (mwMesh w)) (identity_of u)); [auto|].
    destruct (postLoop KSub _ net _) as [c [ag log]]. cbn [mwMesh]. destruct c; auto.
Qed.
Lemma after_static m os : static m (mwMesh (mesh_after m os)).
Proof.
  induction os as [|o os IH] using rev_ind; [unfold static; auto|]. rewrite after_snoc. unfold static in *.
  destruct (step_static (mesh_after m os) o) as (A & B & C). destruct IH as (A' & B' & C'). repeat split; congruence.
Qed.

Definition minv (m : mesh) (os : list mop) : Prop := let w := mesh_after m os in
  msRegLock (mwMesh w) = false /\ msSubLock (mwMesh w) = false /\ NoDup (akeys (msReg (mwMesh w))) /\
  (forall id u, aget bs_eqb (msReg (mwMesh w)) id = Some u -> identity_of u = id) /\
  (forall id, aget bs_eqb (msReg (mwMesh w)) id = listed id os).
Lemma minv_all m os : started m -> Forall returns os -> minv m os.
Proof.
  intros (S1 & S2 & S3 & S4). induction os as [|o os IH] using rev_ind; intro F.
  - unfold minv. cbn. rewrite S1, S3, S4. cbn. repeat split; auto; try constructor. intros id u X. discriminate X.
  - apply Forall_app in F as [F Fo]. specialize (IH F). inversion Fo as [|? ? Ro _]; subst. unfold minv in *. cbn zeta in *. rewrite after_snoc.
    set (w := mesh_after m os) in *. destruct IH as (L1 & L2 & N & I & E).
    enough (H : msRegLock (mwMesh (mstep w o)) = false /\ msSubLock (mwMesh (mstep w o)) = false /\ NoDup (akeys (msReg (mwMesh (mstep w o)))) /\
      (forall id u, aget bs_eqb (msReg (mwMesh (mstep w o))) id = Some u -> identity_of u = id) /\
      (forall id, aget bs_eqb (msReg (mwMesh (mstep w o))) id = listed_after id (listed id os) o)).
    { destruct H as (H1 & H2 & H3 & H4 & H5). repeat (split; [assumption|]). intro id. rewrite listed_snoc. apply H5. }
    destruct o as [u net|u d a|u net]; cbn [mstep].
    + rewrite L1. destruct (aget bs_eqb (msReg (mwMesh w)) (identity_of u)) as [v|] eqn:G.
      * split; [exact L1|]. split; [exact L2|]. split; [exact N|]. split; [exact I|]. intro id. rewrite listed_reg, E.
        destruct (bs_eqb (identity_of u) id) eqn:Q; [|reflexivity]. apply bs_eqb_spec in Q. subst id. rewrite <- E, G. reflexivity.
      * pose proof (loop_code KReg (meshRequest (mwMesh w) u) net (mwAgent w, mwLog w)) as C.
        destruct (postLoop KReg _ net _) as [c [ag log]]. cbn [fst] in C. subst c. cbn [returns] in Ro. cbn [mwMesh].
        destruct (first_code net) as [c|] eqn:FC; [|contradiction]. cbn [withReg msRegLock msSubLock msReg].
        split; [reflexivity|]. split; [exact L2|]. destruct (c =? 200)%Z eqn:E2.
        -- split; [apply NoDup_aset; [exact bs_eqb_spec|exact N]|]. split.
           ++ intros id v. rewrite (aget_aset bs_eqb bs_eqb_spec). destruct (bs_eqb id (identity_of u)) eqn:Q; [|apply I].
              intro X. injection X as <-. apply bs_eqb_spec in Q. auto.
           ++ intro id. rewrite listed_reg, FC, E2, (aget_aset bs_eqb bs_eqb_spec), (bs_eqb_sym id). destruct (bs_eqb (identity_of u) id) eqn:Q; [|apply E].
              apply bs_eqb_spec in Q. subst id. rewrite <- E, G. reflexivity.
        -- split; [exact N|]. split; [exact I|]. intro id. rewrite listed_reg, FC, E2. destruct (bs_eqb (identity_of u) id) eqn:Q; [|apply E].
           apply bs_eqb_spec in Q. subst id. rewrite <- E, G. reflexivity.
    + rewrite L1. destruct (aget bs_eqb (msReg (mwMesh w)) (identity_of u)) as [v|] eqn:G.
      * cbn [mwMesh]. destruct a as [| |c].
        -- split; [exact L1|]. split; [exact L2|]. split; [exact N|]. split; [exact I|]. intro id. rewrite listed_unreg. apply E.
        -- split; [exact L1|]. split; [exact L2|]. split; [exact N|]. split; [exact I|]. intro id. rewrite listed_unreg. apply E.
        -- destruct (c =? 200)%Z eqn:E2.
           ++ cbn [withReg msRegLock msSubLock msReg]. split; [reflexivity|]. split; [exact L2|]. split; [apply NoDup_adel; exact N|]. split.
              ** intros id x. rewrite (aget_adel bs_eqb bs_eqb_spec). destruct (bs_eqb id (identity_of u)); [intro X; discriminate X|apply I].
              ** intro id. rewrite listed_unreg, E2, (aget_adel bs_eqb bs_eqb_spec), (bs_eqb_sym id). destruct (bs_eqb (identity_of u) id); [reflexivity|apply E].
           ++ split; [exact L1|]. split; [exact L2|]. split; [exact N|]. split; [exact I|]. intro id. rewrite listed_unreg, E2. apply E.
      * split; [exact L1|]. split; [exact L2|]. split; [exact N|]. split; [exact I|]. intro id. rewrite listed_unreg.
        destruct a as [| |c]; try apply E. destruct (c =? 200)%Z; [|apply E]. destruct (bs_eqb (identity_of u) id) eqn:Q; [|apply E].
        apply bs_eqb_spec in Q. subst id. exact G.
    + rewrite L2. destruct (aget bs_eqb (msSub (mwMesh w)) (identity_of u)) as [v|] eqn:G; [auto 6|].
      pose proof (loop_code KSub (meshRequest (mwMesh w) u) net (mwAgent w, mwLog w)) as C.
      destruct (postLoop KSub _ net _) as [c [ag log]]. cbn [fst] in C. subst c. cbn [returns] in Ro. cbn [mwMesh].
      destruct (first_code net) as [c|]; [|contradiction]. cbn [withSub msRegLock msSubLock msReg]. auto 6.
Qed.

(* the requests of one call *)
Lemma register_posts m os u net : started m -> Forall returns os -> let w := mesh_after m os in let w' := mesh_after m (os ++ [MRegister u net]) in
  exists r, sent_as m u r /\ mwLog w' = mwLog w ++ (match listed (identity_of u) os with Some _ => [] | None => repeat (KReg, r) (tries net) end).
Proof.
  intros Hs F w w'. destruct (minv_all m os Hs F) as (L1 & L2 & N & I & E). fold w in L1, L2, N, I, E. subst w'. rewrite after_snoc. fold w. cbn [mstep].
  destruct (after_static m os) as (_ & _ & P). fold w in P. exists (meshRequest (mwMesh w) u).
  split; [pose proof (sent_as_request (mwMesh w) u) as Q; unfold sent_as in *; rewrite P in Q; exact Q|].
  rewrite L1, E. destruct (listed (identity_of u) os); [rewrite app_nil_r; reflexivity|].
  pose proof (loop_spec KReg (meshRequest (mwMesh w) u) net (mwAgent w) (mwLog w)) as H. destruct (postLoop KReg _ net _) as [c [ag log]]. destruct H as [_ ->]. reflexivity.
Qed.
Lemma unregister_posts m os u d a : started m -> Forall returns os -> let w := mesh_after m os in let w' := mesh_after m (os ++ [MUnregister u d a]) in
  exists r, sent_as m u r /\ mwLog w' = mwLog w ++ (match listed (identity_of u) os with Some _ => [(KUnreg, r)] | None => [] end).
Proof.
  intros Hs F w w'. destruct (minv_all m os Hs F) as (L1 & L2 & N & I & E). fold w in L1, L2, N, I, E. subst w'. rewrite after_snoc. fold w. cbn [mstep].
  destruct (after_static m os) as (_ & _ & P). fold w in P. exists (meshRequest (mwMesh w) u).
  split; [pose proof (sent_as_request (mwMesh w) u) as Q; unfold sent_as in *; rewrite P in Q; exact Q|].
  rewrite L1, E. destruct (listed (identity_of u) os); [reflexivity|rewrite app_nil_r; reflexivity].
Qed.

(* what is listed is at the agent *)
Lemma agent_agrees m os : started m -> Forall returns os -> Forall truthful os -> Forall unregister_answered os ->
  forall id u, listed id os = Some u -> In id (mwAgent (mesh_after m os)).
Proof.
  intros Hs. induction os as [|o os IH] using rev_ind; intros F T A id v; [intro X; discriminate X|].
  apply Forall_app in F as [F Fo]. apply Forall_app in T as [T To]. apply Forall_app in A as [A Ao]. specialize (IH F T A).
  inversion Fo as [|? ? Ro _]; subst. inversion To as [|? ? Tr _]; subst. inversion Ao as [|? ? An _]; subst. clear Fo To Ao.
  destruct (minv_all m os Hs F) as (L1 & L2 & N & I & E). rewrite after_snoc. set (w := mesh_after m os) in *.
  rewrite listed_snoc.
  destruct o as [u net|u d a|u net]; cbn [mstep].
  - rewrite listed_reg, L1. destruct (aget bs_eqb (msReg (mwMesh w)) (identity_of u)) as [x|] eqn:G.
    + intro H. destruct (bs_eqb (identity_of u) id) eqn:Q; [|eapply IH; exact H]. apply bs_eqb_spec in Q. subst id. eapply IH. rewrite <- E. exact G.
    + pose proof (loop_agent KReg (meshRequest (mwMesh w) u) net ltac:(discriminate) (mwAgent w) (mwLog w)) as LA.
      pose proof (loop_code KReg (meshRequest (mwMesh w) u) net (mwAgent w, mwLog w)) as C.
      destruct (postLoop KReg _ net _) as [c [ag log]]. cbn [fst] in C. subst c. cbn [mwAgent]. destruct LA as [LA1 LA2].
      destruct (bs_eqb (identity_of u) id) eqn:Q; [|intro H; apply LA1; eapply IH; exact H]. apply bs_eqb_spec in Q. subst id.
      rewrite <- E, G. destruct (first_code net) as [c|] eqn:FC; [|intro X; discriminate X]. destruct (Z.eqb_spec c 200) as [->|]; [|intro X; discriminate X].
      intros _. rewrite <- (request_identity (mwMesh w) u). apply LA2; [reflexivity| |reflexivity]. exact Tr.
  - rewrite listed_unreg, L1. destruct (aget bs_eqb (msReg (mwMesh w)) (identity_of u)) as [x|] eqn:G.
    + cbn [mwAgent]. rewrite request_identity. cbn [unregister_answered] in An. intro H. destruct d.
      * subst a. cbn in H. apply does_in. destruct (bs_eqb (identity_of u) id) eqn:Q; [discriminate H|]. split; [|eapply IH; exact H].
        intros ->. rewrite bs_eqb_refl in Q. discriminate Q.
      * assert (H' : listed id os = Some v).
        { destruct a as [| |c]; try exact H. destruct (c =? 200)%Z; [|exact H]. destruct (bs_eqb (identity_of u) id); [discriminate H|exact H]. }
        eapply IH. exact H'.
    + intro H. assert (H' : listed id os = Some v).
      { destruct a as [| |c]; try exact H. destruct (c =? 200)%Z; [|exact H]. destruct (bs_eqb (identity_of u) id); [discriminate H|exact H]. }
      eapply IH. exact H'.
  - cbn [listed_after]. rewrite L2. intro H. destruct (aget bs_eqb (msSub (mwMesh w)) (identity_of u)); [eapply IH; exact H|].
    pose proof (loop_agent KSub (meshRequest (mwMesh w) u) net ltac:(discriminate) (mwAgent w) (mwLog w)) as LA.
    destruct (postLoop KSub _ net _) as [c [ag log]]. cbn [mwAgent]. apply LA. eapply IH; exact H.
Qed.
Lemma locked_stays w o : msRegLock (mwMesh w) = true -> (forall u net, o <> MSubscribe u net) -> mstep w o = w.
Proof. intros L N. destruct o as [u net|u d a|u net]; cbn [mstep]; rewrite ?L; try reflexivity. exfalso. eapply N; reflexivity. Qed.
