(* MeshProps.v: C82, the mesh registry. *)
From Verif Require Import Base UrlModel UrlSpec MeshModel MeshSpec MeshProofs.

(* what is listed as registered after any calls that returned: a service is listed once, from the call that was answered 200 until an
   unregistration is answered 200, under the url of that first call *)
Theorem C82_listed m os : started m -> Forall returns os -> let m' := mwMesh (mesh_after m os) in
  (forall u, In u (meshServices m') <-> listed (identity_of u) os = Some u) /\ NoDup (map identity_of (meshServices m')).
Proof.
  intros Hs F m'. destruct (minv_all m os Hs F) as (_ & _ & N & I & E). fold m' in N, I, E. split.
  - intro u. unfold meshServices. rewrite <- E. split.
    + intro H. apply in_map_iff in H as ([id v] & Ev & H). cbn in Ev. subst v. pose proof H as H'. apply (In_aget bs_eqb bs_eqb_spec) in H; [|exact N].
      rewrite (I _ _ H). exact H.
    + intro H. apply (aget_In bs_eqb bs_eqb_spec) in H. apply in_map_iff. exists (identity_of u, u). auto.
  - unfold meshServices. replace (map identity_of (map snd (msReg m'))) with (akeys (msReg m')); [exact N|]. unfold akeys. rewrite map_map.
    apply map_ext_in. intros [id v] H. cbn [fst snd]. apply (In_aget bs_eqb bs_eqb_spec) in H; [|exact N]. symmetry. apply I. exact H.
Qed.
Print Assumptions C82_listed.
(* what the agent is told: a registration is repeated, always the same, until an answer can be read, and not made for a listed service;
   an unregistration is tried once, and only for a listed service.  The url is sent as given, with the agent's registry added *)
Theorem C82_told m os u net d a : started m -> Forall returns os -> let log := mwLog (mesh_after m os) in
  (exists r, sent_as m u r /\ mwLog (mesh_after m (os ++ [MRegister u net])) =
             log ++ (match listed (identity_of u) os with Some _ => [] | None => repeat (KReg, r) (tries net) end)) /\
  (exists r, sent_as m u r /\ mwLog (mesh_after m (os ++ [MUnregister u d a])) =
             log ++ (match listed (identity_of u) os with Some _ => [(KUnreg, r)] | None => [] end)).
Proof. intros Hs F log. split; [exact (register_posts m os u net Hs F)|exact (unregister_posts m os u d a Hs F)]. Qed.
Print Assumptions C82_told.
(* if the agent says 200 only about what it has done and no answer to an unregistration is lost, every listed service is registered at the agent *)
Theorem C82_agent_agrees m os u : started m -> Forall returns os -> Forall truthful os -> Forall unregister_answered os ->
  In u (meshServices (mwMesh (mesh_after m os))) -> In (identity_of u) (mwAgent (mesh_after m os)).
Proof.
  intros Hs F T A H. apply (proj1 (C82_listed m os Hs F)) in H. exact (agent_agrees m os Hs F T A _ _ H).
Qed.
Print Assumptions C82_agent_agrees.
(* a subscription is asked for until it has been accepted, and then no more; subscriptions and registrations do not get in each other's way *)
Lemma sub_inv m os : started m -> Forall returns os -> forall id, (exists v, aget bs_eqb (msSub (mwMesh (mesh_after m os))) id = Some v) <-> exists o, In o os /\ accepted id o.
Proof.
  intros Hs. induction os as [|o os IH] using rev_ind; intros F id.
  - destruct Hs as (_ & S2 & _). unfold mesh_after. cbn. rewrite S2. split; [intros (v & X); discriminate X|intros (o & [] & _)].
  - apply Forall_app in F as [F Fo]. specialize (IH F). inversion Fo as [|? ? Ro _]; subst. destruct (minv_all m os Hs F) as (L1 & L2 & _). rewrite after_snoc.
    set (w := mesh_after m os) in *.
    assert (K : msSub (mwMesh (mstep w o)) = msSub (mwMesh w) -> (forall id, accepted id o -> exists v, aget bs_eqb (msSub (mwMesh w)) id = Some v) ->
      ((exists v, aget bs_eqb (msSub (mwMesh (mstep w o))) id = Some v) <-> exists o0, In o0 (os ++ [o]) /\ accepted id o0)).
    { intros -> N. rewrite IH. split.
      - intros (x & X & Y). exists x. split; [apply in_or_app; auto|exact Y].
      - intros (x & X & Y). apply in_app_or in X as [X|[<-|[]]]; [eauto|]. apply IH. exact (N id Y). }
    destruct o as [u net|u d a|u net].
    + apply K; [|intros i (v & n & X & _); discriminate X]. cbn [mstep]. rewrite L1. destruct (aget bs_eqb (msReg (mwMesh w)) (identity_of u)); [reflexivity|].
      destruct (postLoop KReg _ net _) as [c [ag log]]. cbn [mwMesh]. destruct c; reflexivity.
    + apply K; [|intros i (v & n & X & _); discriminate X]. cbn [mstep]. rewrite L1. destruct (aget bs_eqb (msReg (mwMesh w)) (identity_of u)); [|reflexivity].
      cbn [mwMesh]. destruct a as [| |c]; try reflexivity. destruct (c =? 200)%Z; reflexivity.
    + destruct (aget bs_eqb (msSub (mwMesh w)) (identity_of u)) as [v|] eqn:G.
      * apply K; [cbn [mstep]; rewrite L2, G; reflexivity|]. intros i (v' & n & X & Y & _). injection X as <- <-. subst i. eauto.
      * pose proof (loop_code KSub (meshRequest (mwMesh w) u) net (mwAgent w, mwLog w)) as C. cbn [returns] in Ro.
        destruct (first_code net) as [c|] eqn:FC; [|contradiction].
        assert (E : msSub (mwMesh (mstep w (MSubscribe u net))) = if (c =? 200)%Z then aset bs_eqb (msSub (mwMesh w)) (identity_of u) u else msSub (mwMesh w)).
        { cbn [mstep]. rewrite L2, G. destruct (postLoop KSub _ net _) as [c' [ag log]]. cbn [fst] in C. subst c'. reflexivity. }
        destruct (Z.eqb_spec c 200) as [->|Nc].
        -- rewrite E, (aget_aset bs_eqb bs_eqb_spec). destruct (bs_eqb id (identity_of u)) eqn:Q.
           ++ apply bs_eqb_spec in Q. subst id. split; [|eauto]. intros _. exists (MSubscribe u net). split; [apply in_or_app; right; left; reflexivity|]. exists u, net. auto.
           ++ rewrite IH. apply bs_eqb_neq in Q. split.
              ** intros (x & X & Y). exists x. split; [apply in_or_app; auto|exact Y].
              ** intros (x & X & Y). apply in_app_or in X as [X|[<-|[]]]; [eauto|]. destruct Y as (u' & n' & X & Y & _). injection X as <- <-. congruence.
        -- apply K; [exact E|]. intros i (v' & n & X & Y & Z). injection X as <- <-. congruence.
Qed.
Theorem C82_subscribe m os u net : started m -> Forall returns os -> let log := mwLog (mesh_after m os) in
  ((exists o, In o os /\ accepted (identity_of u) o) -> mwLog (mesh_after m (os ++ [MSubscribe u net])) = log) /\
  ((forall o, In o os -> ~ accepted (identity_of u) o) ->
     exists r, sent_as m u r /\ mwLog (mesh_after m (os ++ [MSubscribe u net])) = log ++ repeat (KSub, r) (tries net)).
Proof.
  intros Hs F log. destruct (minv_all m os Hs F) as (_ & L2 & _). pose proof (sub_inv m os Hs F (identity_of u)) as I. rewrite after_snoc. subst log. set (w := mesh_after m os) in *.
  cbn [mstep]. rewrite L2. split.
  - intros H. apply I in H as (v & ->). reflexivity.
  - intros H. destruct (aget bs_eqb (msSub (mwMesh w)) (identity_of u)) as [v|]; [exfalso; destruct (proj1 I (ex_intro _ v eq_refl)) as (o & X & Y); exact (H o X Y)|].
    destruct (after_static m os) as (_ & _ & P). fold w in P. exists (meshRequest (mwMesh w) u).
    split; [pose proof (sent_as_request (mwMesh w) u) as Q; unfold sent_as in *; rewrite P in Q; exact Q|].
    pose proof (loop_spec KSub (meshRequest (mwMesh w) u) net (mwAgent w) (mwLog w)) as H1. destruct (postLoop KSub _ net _) as [c [ag log]]. destruct H1 as [_ ->]. reflexivity.
Qed.
Print Assumptions C82_subscribe.
(* discovery answers one url: the given one at the agent's host and mesh port *)
Theorem C82_discover m u : exists r, meshDiscover m u = [r] /\ uHost r = uHost (msUrl m) /\ uPort r = msPort m /\
  uProtocol r = uProtocol u /\ uPath r = uPath u /\ uGroup r = uGroup u /\ forall k, pget (uParams r) k = pget (uParams u) k.
Proof.
  eexists. split; [reflexivity|]. cbn. repeat (split; [reflexivity|]). intro k. destruct (uParams u); reflexivity.
Qed.
Print Assumptions C82_discover.
(* the host and the port of the agent default to localhost and 8002; the registry of the agent must be named; the mesh port is the
   last one read in three tries, zero if none was *)
Theorem C82_initialize u i1 i2 i3 : match meshInit u i1 i2 i3 with
  | None => str_or u (s2b "proxyRegistry") [] = []
  | Some m => started m /\ msProxy m = str_or u (s2b "proxyRegistry") [] /\ msProxy m <> [] /\
      uHost (msUrl m) = (if bs_eqb (uHost u) [] then s2b "localhost" else uHost u) /\ uPort (msUrl m) = (if (uPort u =? 0)%Z then 8002 else uPort u)%Z /\
      msPort m = match i3, i2, i1 with IPort p, _, _ => p | _, IPort p, _ => p | _, _, IPort p => p | _, _, _ => 0%Z end
  end.
Proof.
  unfold meshInit. set (u' := mkUrl _ _ _ _ _ _).
  assert (E : getParam u' (s2b "proxyRegistry") [] = str_or u (s2b "proxyRegistry") []).
  { unfold getParam, str_or, param, pgetD, pget, u'. cbn [uParams]. destruct (uParams u) as [[|q ps]|]; [reflexivity| |reflexivity]. destruct (aget bs_eqb (q :: ps) (s2b "proxyRegistry")) as [[|x v]|]; reflexivity. }
  rewrite E. destruct (str_or u (s2b "proxyRegistry") []) as [|b p]; [reflexivity|]. split; [unfold started; cbn; auto|]. cbn [msProxy msUrl msPort u' uHost uPort].
  split; [reflexivity|]. split; [intro X; discriminate X|]. split; [destruct (uHost u); reflexivity|]. split; [reflexivity|].
  cbn [fold_left]. destruct i1, i2, i3; reflexivity.
Qed.
Print Assumptions C82_initialize.
(* while a registration goes unanswered nothing can be registered or unregistered; no request is even sent *)
Theorem C82_unanswered_blocks m os u net os' : started m -> Forall returns os -> first_code net = None -> listed (identity_of u) os = None ->
  Forall (fun o => forall v n, o <> MSubscribe v n) os' ->
  mesh_after m (os ++ MRegister u net :: os') = mesh_after m (os ++ [MRegister u net]).
Proof.
  intros Hs F FC L N. replace (os ++ MRegister u net :: os') with ((os ++ [MRegister u net]) ++ os') by (rewrite <- app_assoc; reflexivity).
  unfold mesh_after, mruns. rewrite (fold_left_app _ (os ++ [MRegister u net])). fold (mruns (mkMworld m [] []) (os ++ [MRegister u net])).
  fold (mesh_after m (os ++ [MRegister u net])).
  assert (Lk : msRegLock (mwMesh (mesh_after m (os ++ [MRegister u net]))) = true).
  { rewrite after_snoc. destruct (minv_all m os Hs F) as (L1 & _ & _ & _ & E). cbn [mstep]. rewrite L1, E, L.
    pose proof (loop_code KReg (meshRequest (mwMesh (mesh_after m os)) u) net (mwAgent (mesh_after m os), mwLog (mesh_after m os))) as C.
    destruct (postLoop KReg _ net _) as [c [ag log]]. cbn [fst] in C. subst c. rewrite FC. reflexivity. }
  generalize dependent (mesh_after m (os ++ [MRegister u net])). intros w Lk.
  induction os' as [|o os' IH]; [reflexivity|]. inversion N; subst. cbn [fold_left]. rewrite locked_stays by assumption. apply IH. assumption.
Qed.
Print Assumptions C82_unanswered_blocks.

Definition svc (v : string) : url := mkUrl (s2b "motan2") (s2b "10.0.0.1") 8100 (s2b "Hello") (s2b "g") (Some [(s2b "version", s2b v)]).
Definition exMesh : mesh := match meshInit (mkUrl (s2b "mesh") [] 0 [] [] (Some [(s2b "proxyRegistry", s2b "zk")])) (IPort 9981) IFail INoPort with Some m => m | None => mkMesh (svc "") 0 [] [] [] true true end.
Definition exOps : list mop := [MRegister (svc "1") [(false, AFail); (true, AUnread); (true, ACode 200)]; MRegister (svc "2") [(true, ACode 200)];
                                MSubscribe (svc "1") [(true, ACode 500)]; MUnregister (svc "1") true (ACode 200); MRegister (svc "2") [(true, ACode 200)]].
Example C82_example : started exMesh /\ msPort exMesh = 9981%Z /\ Forall returns exOps /\ Forall truthful exOps /\ Forall unregister_answered exOps /\
  meshServices (mwMesh (mesh_after exMesh exOps)) = [svc "2"] /\ map fst (mwLog (mesh_after exMesh exOps)) = [KReg; KReg; KReg; KSub; KUnreg; KReg].
Proof.
  split; [repeat split|]. split; [reflexivity|]. split; [repeat constructor; cbn; discriminate|]. split.
  - repeat constructor; cbn; intros; try (repeat (destruct H as [H|H]; [congruence|])); congruence || contradiction.
  - split; [repeat constructor|]. vm_compute. split; reflexivity.
Qed.

(* "a service that is listed is registered at the agent" is false when the answer to an unregistration is lost: the service stays
   listed, and registering it again sends nothing *)
Theorem C82_lost_answer_refuted : exists m os u net, started m /\ Forall returns os /\ Forall truthful os /\
  In u (meshServices (mwMesh (mesh_after m os))) /\ mwAgent (mesh_after m os) = [] /\
  mesh_after m (os ++ [MRegister u net]) = mesh_after m os.
Proof.
  exists exMesh, [MRegister (svc "1") [(true, ACode 200)]; MUnregister (svc "1") true AUnread], (svc "1"), [(true, ACode 200)].
  split; [repeat split|]. split; [repeat constructor; cbn; discriminate|]. split; [repeat constructor; cbn; intros; try (destruct H as [H|[]]); congruence|].
  vm_compute. auto.
Qed.
Print Assumptions C82_lost_answer_refuted.
(* "the agent knows the parameters last registered" is false: registering a listed service with other parameters is not sent *)
Theorem C82_changed_parameters_refuted : exists m os u net, started m /\ Forall returns os /\
  ~ In u (meshServices (mwMesh (mesh_after m os))) /\ first_code net = Some 200%Z /\ mesh_after m (os ++ [MRegister u net]) = mesh_after m os.
Proof.
  exists exMesh, [MRegister (svc "1") [(true, ACode 200)]], (svc "2"), [(true, ACode 200)].
  split; [repeat split|]. split; [repeat constructor; cbn; discriminate|]. split; [intros [X|[]]; discriminate X|]. split; [reflexivity|]. vm_compute. reflexivity.
Qed.
Print Assumptions C82_changed_parameters_refuted.
(* "discovery names the agent's mesh port" is false when the agent could not be asked at the start: the port stays zero *)
Theorem C82_port_zero_refuted : exists u m v, meshInit u IFail IFail IFail = Some m /\ map uPort (meshDiscover m v) = [0%Z].
Proof.
  exists (mkUrl (s2b "mesh") [] 0 [] [] (Some [(s2b "proxyRegistry", s2b "zk")])).
  eexists. exists (svc "1"). split; reflexivity.
Qed.
Print Assumptions C82_port_zero_refuted.
