(* AgentProofs.v: proofs for C48, C71 and C72. *)
From Verif Require Import Base Strconv GoStrings2 UrlModel UrlSpec UrlProofs AgentModel AgentSpec.
Set Implicit Arguments.
Ltac Zify.zify_post_hook ::= idtac.

Lemma nth_lt {A} (l : list A) i x : nth_error l i = Some x -> i < length l.
Proof. intro H. apply nth_error_Some. congruence. Qed.
Lemma set_same {A} (l : list A) i x : i < length l -> nth_error (list_set l i x) i = Some x.
Proof. intro H. rewrite list_set_nth_error by exact H. rewrite Nat.eqb_refl. reflexivity. Qed.
Lemma set_other {A} (l : list A) i j x : i < length l -> j <> i -> nth_error (list_set l i x) j = nth_error l j.
Proof. intros H N. rewrite list_set_nth_error by exact H. apply Nat.eqb_neq in N. rewrite N. reflexivity. Qed.

(* ---- finding a cluster *)
Lemma find_split {A} (p : A -> bool) l x : find p l = Some x -> exists a b, l = a ++ x :: b /\ p x = true /\ Forall (fun y => p y = false) a.
Proof.
  induction l as [|y l IH]; intro H; [discriminate H|]. cbn [find] in H. destruct (p y) eqn:E.
  - injection H as ->. exists [], l. split; [reflexivity|]. split; [exact E|constructor].
  - destruct (IH H) as [a [b [-> [P F]]]]. exists (y :: a), b. split; [reflexivity|]. split; [exact P|constructor; assumption].
Qed.
Lemma find_none {A} (p : A -> bool) l : find p l = None -> forall y, In y l -> p y = false.
Proof. intros H y I. exact (find_none p l H y I). Qed.

Lemma found_serves m service a c : (forall k it, In it (candidates m k) -> uPath (iUrl it) = k) ->
  findCluster m service a = inl c -> service <> [] /\
  exists it, In it (candidates m service) /\ iCluster it = c /\ uPath (iUrl it) = service /\
    (length (candidates m service) <> 1 ->
       att a MGroup <> [] /\ request_matches (iUrl it) service (att a MGroup) (att a MProxyProtocol) (att a MVersion) /\
       exists b d, candidates m service = b ++ it :: d /\
         Forall (fun x => ~ request_matches (iUrl x) service (att a MGroup) (att a MProxyProtocol) (att a MVersion)) b).
Proof.
  intros P H. unfold findCluster in H. destruct (bs_eqb service []) eqn:E; [discriminate H|]. apply bs_eqb_neq in E. split; [exact E|].
  unfold candidates in *. specialize (P service). destruct (aget bs_eqb m service) as [l|]; [|discriminate H].
  assert (G : length l <> 1 -> (if bs_eqb (att a MGroup) [] then inr EmptyGroup else
       match find (fun it => isMatch (iUrl it) service (att a MGroup) (att a MProxyProtocol) (att a MVersion)) l with
       | Some it => inl (iCluster it) | None => inr NoMatch end) = inl c ->
      exists it, In it l /\ iCluster it = c /\ uPath (iUrl it) = service /\ (length l <> 1 ->
       att a MGroup <> [] /\ request_matches (iUrl it) service (att a MGroup) (att a MProxyProtocol) (att a MVersion) /\
       exists b d, l = b ++ it :: d /\
         Forall (fun x => ~ request_matches (iUrl x) service (att a MGroup) (att a MProxyProtocol) (att a MVersion)) b)).
  { intros L X. destruct (bs_eqb (att a MGroup) []) eqn:Eg; [discriminate X|]. apply bs_eqb_neq in Eg.
    destruct (find _ l) as [it|] eqn:F; [|discriminate X]. injection X as <-. destruct (find_split _ _ F) as [b [d [-> [Q R]]]].
    assert (I : In it (b ++ it :: d)) by (apply in_or_app; right; left; reflexivity).
    exists it. split; [exact I|]. split; [reflexivity|]. split; [exact (P it I)|]. intros _. split; [exact Eg|].
    apply isMatch_spec in Q. split; [exact Q|]. exists b, d. split; [reflexivity|]. eapply Forall_impl; [|exact R].
    intros y Y Z. apply isMatch_spec in Z. cbv beta in Y. congruence. }
  destruct l as [|it [|it2 l]].
  - apply G; [cbn; lia|exact H].
  - injection H as <-. exists it. split; [left; reflexivity|]. split; [reflexivity|]. split; [exact (P it (or_introl eq_refl))|].
    intro X. exfalso. apply X. reflexivity.
  - apply G; [cbn; lia|exact H].
Qed.
Lemma not_found m service a w : findCluster m service a = inr w ->
  service = [] \/ candidates m service = [] \/ att a MGroup = [] \/
  forall it, In it (candidates m service) -> ~ request_matches (iUrl it) service (att a MGroup) (att a MProxyProtocol) (att a MVersion).
Proof.
  unfold findCluster, candidates. intro H. destruct (bs_eqb service []) eqn:E; [left; apply bs_eqb_spec; exact E|]. right.
  destruct (aget bs_eqb m service) as [l|]; [|left; reflexivity]. right.
  assert (G : (if bs_eqb (att a MGroup) [] then inr EmptyGroup else
       match find (fun it => isMatch (iUrl it) service (att a MGroup) (att a MProxyProtocol) (att a MVersion)) l with
       | Some it => inl (iCluster it) | None => inr NoMatch end) = inr w -> att a MGroup = [] \/
     forall it, In it l -> ~ request_matches (iUrl it) service (att a MGroup) (att a MProxyProtocol) (att a MVersion)).
  { intro X. destruct (bs_eqb (att a MGroup) []) eqn:Eg; [left; apply bs_eqb_spec; exact Eg|]. right.
    destruct (find _ l) as [it|] eqn:F; [discriminate X|]. intros it I Y. apply isMatch_spec in Y.
    pose proof (find_none _ _ F it I) as Z. cbv beta in Z. congruence. }
  destruct l as [|it [|it2 l]]; [apply G; exact H|discriminate H|apply G; exact H].
Qed.

(* ---- filling in the application *)
Lemma fillApp_spec app u u' : fillApp app u = Some u' -> with_app app u u'.
Proof.
  unfold fillApp. destruct (uParams u) as [m|] eqn:E; [|discriminate]. intro H. injection H as <-.
  unfold pgetD, pget. change ApplicationKey with (s2b "application").
  destruct (aget bs_eqb m (s2b "application")) as [[|b v]|] eqn:A.
  - unfold with_app. cbn [withParams uProtocol uHost uPort uPath uGroup]. do 5 (split; [reflexivity|]). split.
    + intros k N. unfold param. cbn [withParams uParams pset]. rewrite E. rewrite (aget_aset bs_eqb bs_eqb_spec).
      apply bs_eqb_neq in N. rewrite N. reflexivity.
    + unfold param. cbn [withParams uParams pset]. rewrite E, A. rewrite (aget_aset bs_eqb bs_eqb_spec), bs_eqb_refl. reflexivity.
  - unfold with_app. do 5 (split; [reflexivity|]). split; [reflexivity|]. unfold param. rewrite E, A. reflexivity.
  - unfold with_app. cbn [withParams uProtocol uHost uPort uPath uGroup]. do 5 (split; [reflexivity|]). split.
    + intros k N. unfold param. cbn [withParams uParams pset]. rewrite E. rewrite (aget_aset bs_eqb bs_eqb_spec).
      apply bs_eqb_neq in N. rewrite N. reflexivity.
    + unfold param. cbn [withParams uParams pset]. rewrite E, A. rewrite (aget_aset bs_eqb bs_eqb_spec), bs_eqb_refl. reflexivity.
Qed.
Lemma fillApp_path app u u' : fillApp app u = Some u' -> uPath u' = uPath u.
Proof. intro H. apply fillApp_spec in H. unfold with_app in H. tauto. Qed.

(* ---- service maps *)
Lemma cand_add m service it k : candidates (addItem m service it) k = candidates m k ++ (if bs_eqb k service then [it] else []).
Proof.
  unfold candidates, addItem. rewrite (aget_aset bs_eqb bs_eqb_spec). destruct (bs_eqb k service) eqn:E; [|symmetry; apply app_nil_r].
  apply bs_eqb_spec in E. subst k. destruct (aget bs_eqb m service); reflexivity.
Qed.
Lemma keys_add m service it : NoDup (akeys m) -> NoDup (akeys (addItem m service it)).
Proof. intro N. unfold addItem. apply NoDup_aset; [exact bs_eqb_spec|exact N]. Qed.
Lemma in_concat m it : NoDup (akeys m) -> (In it (concat (map snd m)) <-> exists k, In it (candidates m k)).
Proof.
  intro N. rewrite in_concat. split.
  - intros [l [L I]]. apply in_map_iff in L as [[k l'] [E L]]. cbn [snd] in E. subst l'. exists k. unfold candidates.
    rewrite (In_aget bs_eqb bs_eqb_spec _ _ _ N L). exact I.
  - intros [k I]. unfold candidates in I. destruct (aget bs_eqb m k) as [l|] eqn:A; [|destruct I].
    exists l. split; [|exact I]. apply in_map_iff. exists (k, l). split; [reflexivity|]. exact (aget_In bs_eqb bs_eqb_spec _ _ _ A).
Qed.

Definition has (m : smap) (it : item) : Prop := exists k, In it (candidates m k).
Lemma has_add m service it x : has (addItem m service it) x <-> has m x \/ x = it.
Proof.
  unfold has. split.
  - intros [k H]. rewrite cand_add in H. apply in_app_or in H as [H|H]; [left; exists k; exact H|].
    destruct (bs_eqb k service); [destruct H as [<-|[]]; right; reflexivity|destruct H].
  - intros [[k H]| ->].
    + exists k. rewrite cand_add. apply in_or_app. left. exact H.
    + exists service. rewrite cand_add, bs_eqb_refl. apply in_or_app. right. left. reflexivity.
Qed.
Definition bmap (r : rphase) : smap := match r with RBuild _ _ _ sm => sm | _ => [] end.
Definition olds (r : rphase) : list item := match r with RSwapped old _ _ | RDestroy old _ => old | _ => [] end.
Definition kept (r : rphase) : list bs := match r with RBuild _ k _ _ | RSwapped _ k _ | RDestroy _ k => k | RIdle => [] end.
Definition known (s : ast) (it : item) : Prop := has (aSmap s) it \/ has (bmap (aReload s)) it \/ In it (olds (aReload s)).
Definition paths_ok (m : smap) : Prop := forall k it, In it (candidates m k) -> uPath (iUrl it) = k.
Record ainv (s : ast) : Prop := {
  av_path : paths_ok (aSmap s); av_bpath : paths_ok (bmap (aReload s));
  av_keys : NoDup (akeys (aSmap s)); av_bkeys : NoDup (akeys (bmap (aReload s)));
  av_ids : forall it, known s it -> iCluster it < aNext s;
  av_uniq : forall a b, known s a -> known s b -> iCluster a = iCluster b -> a = b;
  av_jobs : forall j u u' c, nth_error (aJobs s) j = Some (u, ICreated u' c) ->
     c < aNext s /\ ~ In c (aDead s) /\ (forall it, known s it -> iCluster it <> c);
  av_jobs2 : forall i j u v u' v' c, nth_error (aJobs s) i = Some (u, ICreated u' c) -> nth_error (aJobs s) j = Some (v, ICreated v' c) -> i = j;
  av_dead : forall d, In d (aDead s) -> d < aNext s /\ (forall it, has (aSmap s) it -> iCluster it <> d) /\ (forall it, has (bmap (aReload s)) it -> iCluster it <> d);
  av_keep : forall it, has (bmap (aReload s)) it -> has (aSmap s) it -> In (ext (iUrl it)) (kept (aReload s));
  av_old : forall it, In it (olds (aReload s)) -> ~ In (ext (iUrl it)) (kept (aReload s)) -> ~ has (aSmap s) it }.

Lemma cand_nil k : candidates [] k = [].
Proof. reflexivity. Qed.
Lemma has_nil it : ~ has [] it.
Proof. intros [k []]. Qed.
Lemma paths_nil : paths_ok [].
Proof. intros k it []. Qed.
Lemma paths_add m it : paths_ok m -> paths_ok (addItem m (uPath (iUrl it)) it).
Proof.
  intros P k x H. rewrite cand_add in H. apply in_app_or in H as [H|H]; [exact (P _ _ H)|].
  destruct (bs_eqb k (uPath (iUrl it))) eqn:E; [|destruct H]. destruct H as [<-|[]]. apply bs_eqb_spec in E. symmetry. exact E.
Qed.
Lemma ainv_init app : ainv (ainit app).
Proof.
  assert (K : forall it, ~ known (ainit app) it).
  { intros it [X|[X|X]]; [exact (has_nil X)|exact (has_nil X)|exact X]. }
  constructor; cbn [ainit aSmap aReload aNext aJobs aDead bmap olds kept].
  - exact paths_nil.
  - exact paths_nil.
  - constructor.
  - constructor.
  - intros it X. destruct (K _ X).
  - intros a b X. destruct (K _ X).
  - intros j u u' c X. destruct j; discriminate X.
  - intros i j u v u' v' c X. destruct i; discriminate X.
  - intros d [].
  - intros it X. destruct (has_nil X).
  - intros it [].
Qed.

Lemma jobs_set s j u p x : nth_error (aJobs s) j = Some (u, p) -> forall i v q,
  nth_error (list_set (aJobs s) j x) i = Some (v, q) -> (i = j /\ (v, q) = x) \/ (i <> j /\ nth_error (aJobs s) i = Some (v, q)).
Proof.
  intros H i v q X. destruct (Nat.eq_dec i j) as [->|D].
  - rewrite set_same in X by exact (@nth_lt _ _ _ _ H). injection X as E. left. split; [reflexivity|symmetry; exact E].
  - rewrite set_other in X; [|exact (@nth_lt _ _ _ _ H)|exact D]. right. split; assumption.
Qed.

(* a step that only drops jobs and known things *)
Lemma ainv_jobs s s' : ainv s -> aSmap s' = aSmap s -> aNext s' = aNext s -> aDead s' = aDead s -> aReload s' = aReload s ->
  (forall i u u' c, nth_error (aJobs s') i = Some (u, ICreated u' c) -> nth_error (aJobs s) i = Some (u, ICreated u' c)) -> ainv s'.
Proof.
  intros V E1 E2 E3 E4 J. destruct V as [V1 V2 V3 V4 V5 V6 V7 V8 V9 V10 V11].
  assert (K : forall it, known s' it <-> known s it) by (intro it; unfold known; rewrite E1, E4; tauto).
  constructor; rewrite ?E1, ?E2, ?E3, ?E4; try assumption.
  - intros it H. apply V5. apply K. exact H.
  - intros a b Ha Hb. apply V6; apply K; assumption.
  - intros j u u' c H. destruct (V7 _ _ _ _ (J _ _ _ _ H)) as [A [B C]]. split; [exact A|]. split; [exact B|]. intros it X. apply C. apply K. exact X.
  - intros i j u v u' v' c A B. exact (V8 _ _ _ _ _ _ _ (J _ _ _ _ A) (J _ _ _ _ B)).
Qed.

Lemma ainv_step s o s' : ainv s -> astep s o = Some s' -> ainv s'.
Proof.
  intros V H. destruct o as [u|j|refs|]; cbn [astep] in H.
  - injection H as <-. apply (@ainv_jobs s); try reflexivity; [exact V|]. intros i v u' c X. cbn [aJobs] in X.
    destruct (Nat.lt_ge_cases i (length (aJobs s))) as [L|L].
    + rewrite nth_error_app1 in X by exact L. exact X.
    + rewrite nth_error_app2 in X by exact L. destruct (i - length (aJobs s)) as [|n]; [discriminate X|destruct n; discriminate X].
  - destruct (nth_error (aJobs s) j) as [[u p]|] eqn:J; [|discriminate H]. destruct p as [|u' c|u' c|]; cbn [istep] in H.
    + destruct (fillApp (aApp s) u) as [u'|] eqn:F; injection H as <-.
      * destruct V as [V1 V2 V3 V4 V5 V6 V7 V8 V9 V10 V11].
        constructor; cbn [setJob aSmap aReload aNext aJobs aDead aCmap]; try assumption.
        -- intros it X. assert (Y : known s it) by exact X. apply V5 in Y. lia.
        -- intros i v w c X. destruct (@jobs_set s j u _ _ J _ _ _ X) as [[-> E]|[N X']].
           ++ injection E as -> -> ->. split; [lia|]. split; [intro D; apply V9 in D as [D _]; lia|].
              intros it K. assert (Y : known s it) by exact K. apply V5 in Y. lia.
           ++ destruct (V7 _ _ _ _ X') as [A [B C]]. split; [lia|]. split; [exact B|]. intros it K. apply C. exact K.
        -- intros i1 i2 v1 v2 w1 w2 c X1 X2. destruct (@jobs_set s j u _ _ J _ _ _ X1) as [[-> E1]|[N1 Y1]]; destruct (@jobs_set s j u _ _ J _ _ _ X2) as [[-> E2]|[N2 Y2]].
           ++ reflexivity.
           ++ injection E1 as -> -> ->. destruct (V7 _ _ _ _ Y2) as [A _]. lia.
           ++ injection E2 as -> -> ->. destruct (V7 _ _ _ _ Y1) as [A _]. lia.
           ++ exact (V8 _ _ _ _ _ _ _ Y1 Y2).
        -- intros d D. destruct (V9 d D) as [A [B C]]. split; [lia|]. split; assumption.
      * apply (@ainv_jobs s); try reflexivity; [exact V|]. intros i v w c X. cbn [setJob aJobs] in X.
        destruct (@jobs_set s j u _ _ J _ _ _ X) as [[-> E]|[N X']]; [discriminate E|exact X'].
    + injection H as <-. destruct V as [V1 V2 V3 V4 V5 V6 V7 V8 V9 V10 V11]. destruct (V7 _ _ _ _ J) as [J1 [J2 J3]].
      set (it := mkItem u' c).
      assert (K : forall x, known (setJob (mkAst (aApp s) (addItem (aSmap s) (uPath u') it) (aCmap s) (aNext s) (aDead s) (aReload s) (aJobs s)) j (u, IAppended u' c)) x
                  -> known s x \/ x = it).
      { intros x [X|X]; [|left; right; exact X]. cbn [setJob aSmap] in X. apply has_add in X as [X|X]; [left; left; exact X|right; exact X]. }
      constructor; cbn [setJob aSmap aReload aNext aJobs aDead aCmap]; try assumption.
      * apply (@paths_add _ it). exact V1.
      * apply keys_add. exact V3.
      * intros x X. destruct (K x X) as [Y| ->]; [exact (V5 _ Y)|exact J1].
      * intros a b A B E. destruct (K a A) as [A'| ->]; destruct (K b B) as [B'| ->].
        -- exact (V6 _ _ A' B' E).
        -- exfalso. exact (J3 _ A' E).
        -- exfalso. exact (J3 _ B' (eq_sym E)).
        -- reflexivity.
      * intros i v w d X. destruct (@jobs_set s j u _ _ J _ _ _ X) as [[-> E]|[N X']]; [discriminate E|].
        destruct (V7 _ _ _ _ X') as [A [B C]]. split; [exact A|]. split; [exact B|]. intros x Y. destruct (K x Y) as [Y'| ->]; [exact (C _ Y')|].
        cbn [it iCluster]. intro E. subst d. exact (N (V8 _ _ _ _ _ _ _ X' J)).
      * intros i1 i2 v1 v2 w1 w2 d X1 X2. destruct (@jobs_set s j u _ _ J _ _ _ X1) as [[-> E1]|[N1 Y1]]; [discriminate E1|].
        destruct (@jobs_set s j u _ _ J _ _ _ X2) as [[-> E2]|[N2 Y2]]; [discriminate E2|]. exact (V8 _ _ _ _ _ _ _ Y1 Y2).
      * intros d D. destruct (V9 d D) as [A [B C]]. split; [exact A|]. split; [|exact C]. intros x X. apply has_add in X as [X| ->]; [exact (B _ X)|].
        cbn [it iCluster]. intro E. subst d. exact (J2 D).
      * intros x B X. apply has_add in X as [X| ->]; [exact (V10 _ B X)|]. exfalso. apply (J3 it); [right; left; exact B|reflexivity].
      * intros x O N X. apply has_add in X as [X| ->]; [exact (V11 _ O N X)|]. apply (J3 it); [right; right; exact O|reflexivity].
    + destruct (aReload s) eqn:R; try discriminate H. injection H as <-. apply (@ainv_jobs s); try reflexivity; try exact V.
      * cbn [setJob aReload]. symmetry. exact R.
      * intros i v w d X. cbn [setJob aJobs] in X. destruct (@jobs_set s j u _ _ J _ _ _ X) as [[-> E]|[N X']]; [discriminate E|exact X'].
    + discriminate H.
  - destruct (aReload s) eqn:R; try discriminate H. injection H as <-. destruct V as [V1 V2 V3 V4 V5 V6 V7 V8 V9 V10 V11].
    assert (K : forall x, known (setReload s (RBuild refs [] [] [])) x -> known s x).
    { intros x [X|[X|X]]; [left; exact X|destruct (has_nil X)|destruct X]. }
    constructor; cbn [setReload aSmap aReload aNext aJobs aDead bmap olds kept]; try assumption.
    + exact paths_nil.
    + constructor.
    + intros x X. exact (V5 _ (K _ X)).
    + intros a b A B. exact (V6 _ _ (K _ A) (K _ B)).
    + intros i u u' c X. destruct (V7 _ _ _ _ X) as [A [B C]]. split; [exact A|]. split; [exact B|]. intros it Y. exact (C _ (K _ Y)).
    + intros d D. destruct (V9 d D) as [A [B C]]. split; [exact A|]. split; [exact B|]. intros x X. destruct (has_nil X).
    + intros x X. destruct (has_nil X).
    + intros x [].
  - unfold rstep in H. destruct (aReload s) as [|todo keep cm sm|old keep cm|old keep] eqn:R; [discriminate H| | |].
    + destruct todo as [|u todo].
      * injection H as <-. destruct V as [V1 V2 V3 V4 V5 V6 V7 V8 V9 V10 V11]. rewrite R in *. cbn [bmap olds kept] in *.
        assert (K : forall x, known (mkAst (aApp s) sm (aCmap s) (aNext s) (aDead s) (RSwapped (concat (map snd (aSmap s))) keep cm) (aJobs s)) x -> known s x).
        { intros x [X|[X|X]]; unfold known; rewrite R; cbn [bmap olds].
          - right. left. exact X.
          - destruct (has_nil X).
          - left. cbn [aReload olds] in X. apply (@in_concat _ _ V3) in X. exact X. }
        constructor; cbn [aSmap aReload aNext aJobs aDead bmap olds kept]; try assumption.
        -- exact paths_nil.
        -- constructor.
        -- intros x X. exact (V5 _ (K _ X)).
        -- intros a b A B. exact (V6 _ _ (K _ A) (K _ B)).
        -- intros i u u' c X. destruct (V7 _ _ _ _ X) as [A [B C]]. split; [exact A|]. split; [exact B|]. intros it Y. exact (C _ (K _ Y)).
        -- intros d D. destruct (V9 d D) as [A [B C]]. split; [exact A|]. split; [exact C|]. intros x X. destruct (has_nil X).
        -- intros x X. destruct (has_nil X).
        -- intros x O N X. apply (@in_concat _ _ V3) in O. exact (N (V10 _ X O)).
      * destruct (fillApp (aApp s) u) as [u'|] eqn:F.
        -- set (oldl := match aget bs_eqb (aSmap s) (uPath u') with Some l => l | None => [] end) in H.
           destruct (find _ oldl) as [it|] eqn:FD; injection H as <-; destruct V as [V1 V2 V3 V4 V5 V6 V7 V8 V9 V10 V11]; rewrite R in *; cbn [bmap olds kept] in *.
           ++ destruct (find_split _ _ FD) as [l1 [l2 [EL [Q _]]]]. apply bs_eqb_spec in Q.
              assert (C0 : In it (candidates (aSmap s) (uPath u'))).
              { unfold candidates. fold oldl. rewrite EL. apply in_or_app. right. left. reflexivity. }
              assert (HA : has (aSmap s) it) by (exists (uPath u'); exact C0).
              pose proof (V1 _ _ C0) as PI.
              assert (K : forall x, known (setReload s (RBuild todo (ext u' :: keep) (aset bs_eqb cm (clusterKey u') (iCluster it)) (addItem sm (uPath u') it))) x -> known s x).
              { intros x [X|[X|X]]; unfold known; rewrite R; cbn [bmap olds].
                - left. exact X.
                - cbn [setReload aReload bmap] in X. apply has_add in X as [X| ->]; [right; left; exact X|left; exact HA].
                - destruct X. }
              constructor; cbn [setReload aSmap aReload aNext aJobs aDead bmap olds kept]; try assumption.
              ** rewrite <- PI. apply paths_add. exact V2.
              ** apply keys_add. exact V4.
              ** intros x X. exact (V5 _ (K _ X)).
              ** intros a b A B. exact (V6 _ _ (K _ A) (K _ B)).
              ** intros i v w c X. destruct (V7 _ _ _ _ X) as [A [B C]]. split; [exact A|]. split; [exact B|]. intros y Y. exact (C _ (K _ Y)).
              ** intros d D. destruct (V9 d D) as [A [B C]]. split; [exact A|]. split; [exact B|]. intros x X. apply has_add in X as [X| ->]; [exact (C _ X)|exact (B _ HA)].
              ** intros x X Y. apply has_add in X as [X| ->]; [right; exact (V10 _ X Y)|left; exact Q].
              ** intros x [].
           ++ set (it := mkItem u' (aNext s)).
              assert (K : forall x, known (setReload (mkAst (aApp s) (aSmap s) (aCmap s) (S (aNext s)) (aDead s) (aReload s) (aJobs s))
                   (RBuild todo keep (aset bs_eqb cm (clusterKey u') (aNext s)) (addItem sm (uPath u') it))) x -> known s x \/ x = it).
              { intros x [X|[X|X]]; unfold known; rewrite R; cbn [bmap olds].
                - left. left. exact X.
                - cbn [setReload aReload bmap] in X. apply has_add in X as [X| ->]; [left; right; left; exact X|right; reflexivity].
                - destruct X. }
              constructor; cbn [setReload aSmap aReload aNext aJobs aDead bmap olds kept]; try assumption.
              ** apply (@paths_add _ it). exact V2.
              ** apply keys_add. exact V4.
              ** intros x X. destruct (K _ X) as [Y| ->]; [apply V5 in Y; lia|cbn; lia].
              ** intros a b A B E. destruct (K _ A) as [A'| ->]; destruct (K _ B) as [B'| ->].
                 --- exact (V6 _ _ A' B' E).
                 --- apply V5 in A'. cbn in E. lia.
                 --- apply V5 in B'. cbn in E. lia.
                 --- reflexivity.
              ** intros i v w c X. destruct (V7 _ _ _ _ X) as [A [B C]]. split; [lia|]. split; [exact B|]. intros y Y.
                 destruct (K _ Y) as [Y'| ->]; [exact (C _ Y')|cbn; lia].
              ** intros d D. destruct (V9 d D) as [A [B C]]. split; [lia|]. split; [exact B|]. intros x X. apply has_add in X as [X| ->]; [exact (C _ X)|cbn; lia].
              ** intros x X Y. apply has_add in X as [X| ->]; [exact (V10 _ X Y)|].
                 assert (Z : known s it) by (left; exact Y). apply V5 in Z. cbn in Z. lia.
        -- injection H as <-. destruct V as [V1 V2 V3 V4 V5 V6 V7 V8 V9 V10 V11]. rewrite R in *. cbn [bmap olds kept] in *.
           assert (K : forall x, known (setReload s RIdle) x -> known s x).
           { intros x [X|[X|X]]; [left; exact X|destruct (has_nil X)|destruct X]. }
           constructor; cbn [setReload aSmap aReload aNext aJobs aDead bmap olds kept]; try assumption.
           ++ exact paths_nil.
           ++ constructor.
           ++ intros x X. exact (V5 _ (K _ X)).
           ++ intros a b A B. exact (V6 _ _ (K _ A) (K _ B)).
           ++ intros i v w c X. destruct (V7 _ _ _ _ X) as [A [B C]]. split; [exact A|]. split; [exact B|]. intros it Y. exact (C _ (K _ Y)).
           ++ intros d D. destruct (V9 d D) as [A [B C]]. split; [exact A|]. split; [exact B|]. intros x X. destruct (has_nil X).
           ++ intros x X. destruct (has_nil X).
           ++ intros x [].
    + injection H as <-. destruct V as [V1 V2 V3 V4 V5 V6 V7 V8 V9 V10 V11]. rewrite R in *. cbn [bmap olds kept] in *.
      assert (K : forall x, known (mkAst (aApp s) (aSmap s) cm (aNext s) (aDead s) (RDestroy old keep) (aJobs s)) x -> known s x).
      { intros x X. unfold known in *. rewrite R. exact X. }
      constructor; cbn [aSmap aReload aNext aJobs aDead bmap olds kept]; try assumption.
      * intros x X. exact (V5 _ (K _ X)).
      * intros a b A B. exact (V6 _ _ (K _ A) (K _ B)).
      * intros i v w c X. destruct (V7 _ _ _ _ X) as [A [B C]]. split; [exact A|]. split; [exact B|]. intros it Y. exact (C _ (K _ Y)).
    + destruct old as [|it old]; injection H as <-; destruct V as [V1 V2 V3 V4 V5 V6 V7 V8 V9 V10 V11]; rewrite R in *; cbn [bmap olds kept] in *.
      * assert (K : forall x, known (setReload s RIdle) x -> known s x).
        { intros x [X|[X|X]]; [left; exact X|destruct (has_nil X)|destruct X]. }
        constructor; cbn [setReload aSmap aReload aNext aJobs aDead bmap olds kept]; try assumption.
        -- intros x X. exact (V5 _ (K _ X)).
        -- intros a b A B. exact (V6 _ _ (K _ A) (K _ B)).
        -- intros i v w c X. destruct (V7 _ _ _ _ X) as [A [B C]]. split; [exact A|]. split; [exact B|]. intros it Y. exact (C _ (K _ Y)).
        -- intros x X. destruct (has_nil X).
        -- intros x [].
      * assert (KI : known s it) by (right; right; rewrite R; left; reflexivity).
        set (dead := if existsb (bs_eqb (ext (iUrl it))) keep then aDead s else aDead s ++ [iCluster it]).
        assert (DD : forall d, In d dead -> In d (aDead s) \/ (d = iCluster it /\ ~ In (ext (iUrl it)) keep)).
        { intros d D. unfold dead in D. destruct (existsb (bs_eqb (ext (iUrl it))) keep) eqn:E; [left; exact D|].
          apply in_app_or in D as [D|[<-|[]]]; [left; exact D|]. right. split; [reflexivity|]. intro X. apply existsb_eqb_In' in X. congruence. }
        assert (K : forall x, known (mkAst (aApp s) (aSmap s) (aCmap s) (aNext s) dead (RDestroy old keep) (aJobs s)) x -> known s x).
        { intros x [X|[X|X]]; unfold known; rewrite R; cbn [bmap olds].
          - left. exact X.
          - destruct (has_nil X).
          - right. right. right. exact X. }
        constructor; cbn [aSmap aReload aNext aJobs aDead bmap olds kept]; try assumption.
        -- intros x X. exact (V5 _ (K _ X)).
        -- intros a b A B. exact (V6 _ _ (K _ A) (K _ B)).
        -- intros i v w c X. destruct (V7 _ _ _ _ X) as [A [B C]]. split; [exact A|]. split; [|intros y Y; exact (C _ (K _ Y))].
           intro D. destruct (DD _ D) as [D'|[-> _]]; [exact (B D')|exact (C _ KI eq_refl)].
        -- intros d D. destruct (DD _ D) as [D'|[-> N]].
           ++ destruct (V9 d D') as [A [B C]]. split; [exact A|]. split; assumption.
           ++ split; [exact (V5 _ KI)|]. split; [|intros x X; destruct (has_nil X)]. intros x X E.
              assert (Y : x = it) by (apply V6; [left; exact X|exact KI|exact E]). subst x. exact (V11 it (or_introl eq_refl) N X).
        -- intros x X N. exact (V11 x (or_intror X) N).
Qed.
Lemma ainv_runs os : forall s s', ainv s -> aruns s os = Some s' -> ainv s'.
Proof.
  induction os as [|o os IH]; intros s s' V H; cbn [aruns] in H; [injection H as <-; exact V|].
  destruct (astep s o) as [s1|] eqn:E; [|discriminate H]. exact (IH _ _ (@ainv_step _ _ _ V E) H).
Qed.
Lemma ainv_reach app os s : aruns (ainit app) os = Some s -> ainv s.
Proof. intro H. exact (@ainv_runs os _ _ (ainv_init app) H). Qed.

(* ---- an undisturbed reload *)
Lemma build_runs (s0 : ast) (s' : ast) : aReload s' = RIdle -> forall todo n s keep cm sm,
  aReload s = RBuild todo keep cm sm -> aApp s = aApp s0 -> aSmap s = aSmap s0 -> aDead s = aDead s0 -> aNext s0 <= aNext s ->
  Forall (fun u => uParams u <> None) todo ->
  aruns s (repeat AStep n) = Some s' ->
  exists todo' n' s1 keep' cm' sm', Forall2 (with_app (aApp s0)) todo todo' /\
    aReload s1 = RBuild [] keep' cm' sm' /\ aSmap s1 = aSmap s0 /\ aDead s1 = aDead s0 /\ aruns s1 (repeat AStep n') = Some s' /\
    (forall k, exists L, candidates sm' k = candidates sm k ++ L /\ Forall2 (serves_ref s0) (filter (fun u => bs_eqb (uPath u) k) todo') L) /\
    (forall e, In e keep' <-> In e keep \/ exists u, In u todo' /\ ext u = e /\ exists it, In it (candidates (aSmap s0) (uPath u)) /\ ext (iUrl it) = e).
Proof.
  intro ID. induction todo as [|u todo IH]; intros n s keep cm sm R EA ES ED EN FP H.
  - exists [], n, s, keep, cm, sm. split; [constructor|]. split; [exact R|]. split; [exact ES|]. split; [exact ED|]. split; [exact H|]. split.
    + intro k. exists []. split; [symmetry; apply app_nil_r|constructor].
    + intro e. split; [intro X; left; exact X|]. intros [X|[u [[] _]]]. exact X.
  - destruct n as [|n]; [cbn in H; injection H as <-; congruence|]. cbn [repeat aruns astep] in H. unfold rstep in H. rewrite R in H.
    inversion FP as [|? ? P0 FP']; subst.
    destruct (fillApp (aApp s) u) as [u'|] eqn:F; [|unfold fillApp in F; destruct (uParams u); [discriminate F|congruence]].
    rewrite EA in F. pose proof (fillApp_spec _ _ F) as W.
    set (oldl := match aget bs_eqb (aSmap s) (uPath u') with Some l => l | None => [] end) in H.
    assert (OL : oldl = candidates (aSmap s0) (uPath u')) by (unfold oldl, candidates; rewrite ES; reflexivity).
    destruct (find _ oldl) as [it|] eqn:FD.
    + destruct (find_split _ _ FD) as [l1 [l2 [EL [Q FA]]]]. apply bs_eqb_spec in Q. rewrite OL in EL.
      edestruct (IH n) as [todo' [n' [s1 [keep' [cm' [sm' [A1 [A2 [A3 [A4 [A5 [A6 A7]]]]]]]]]]]]; [ | | | | |exact FP'|exact H|];
        [reflexivity|exact EA|exact ES|exact ED|exact EN|].
      exists (u' :: todo'), n', s1, keep', cm', sm'. split; [constructor; assumption|]. split; [exact A2|]. split; [exact A3|]. split; [exact A4|]. split; [exact A5|]. split.
      * intro k. destruct (A6 k) as [L [B1 B2]]. rewrite cand_add in B1. cbn [filter].
        rewrite (bs_eqb_sym k (uPath u')) in B1. destruct (bs_eqb (uPath u') k) eqn:E.
        -- exists (it :: L). split; [rewrite B1, <- app_assoc; reflexivity|]. constructor; [|exact B2].
           unfold serves_ref. split; [symmetry; exact Q|]. left. exists l1, l2. split; [exact EL|].
           eapply Forall_impl; [|exact FA]. intros y Y. cbv beta in Y. apply bs_eqb_neq in Y. congruence.
        -- exists L. split; [rewrite B1, app_nil_r; reflexivity|exact B2].
      * intro e. rewrite A7. cbn [In]. split.
        -- intros [[X|X]|[v [V1 V2]]]; [|left; exact X|right; exists v; split; [right; exact V1|exact V2]].
           right. exists u'. split; [left; reflexivity|]. split; [exact X|]. exists it. split; [rewrite EL; apply in_or_app; right; left; reflexivity|]. rewrite <- Q. exact X.
        -- intros [X|[v [[<-|V1] V2]]]; [left; right; exact X| |right; exists v; split; assumption].
           left. left. exact (proj1 V2).
    + assert (NF : Forall (fun x => ext (iUrl x) <> ext u') (candidates (aSmap s0) (uPath u'))).
      { apply Forall_forall. intros x X. rewrite <- OL in X. pose proof (find_none _ _ FD x X) as Y. cbv beta in Y. apply bs_eqb_neq in Y. congruence. }
      edestruct (IH n) as [todo' [n' [s1 [keep' [cm' [sm' [A1 [A2 [A3 [A4 [A5 [A6 A7]]]]]]]]]]]]; [ | | | | |exact FP'|exact H|];
        [reflexivity|exact EA|exact ES|exact ED|cbn [setReload aNext]; lia|].
      exists (u' :: todo'), n', s1, keep', cm', sm'. split; [constructor; assumption|]. split; [exact A2|]. split; [exact A3|]. split; [exact A4|]. split; [exact A5|]. split.
      * intro k. destruct (A6 k) as [L [B1 B2]]. rewrite cand_add in B1. cbn [filter].
        rewrite (bs_eqb_sym k (uPath u')) in B1. destruct (bs_eqb (uPath u') k) eqn:E.
        -- eexists (_ :: L). split; [rewrite B1, <- app_assoc; reflexivity|]. constructor; [|exact B2].
           unfold serves_ref. split; [reflexivity|]. right. split; [reflexivity|]. split; [exact EN|exact NF].
        -- exists L. split; [rewrite B1, app_nil_r; reflexivity|exact B2].
      * intro e. rewrite A7. split.
        -- intros [X|[v [V1 V2]]]; [left; exact X|right; exists v; split; [right; exact V1|exact V2]].
        -- intros [X|[v [[<-|V1] V2]]]; [left; exact X| |right; exists v; split; assumption].
           destruct V2 as [V2 [x [X Y]]]. rewrite Forall_forall in NF. exfalso. apply (NF _ X). congruence.
Qed.
Lemma destroy_runs s' : aReload s' = RIdle -> forall old n s keep, aReload s = RDestroy old keep -> aruns s (repeat AStep n) = Some s' ->
  aSmap s' = aSmap s /\ forall d, In d (aDead s') <-> In d (aDead s) \/ exists it, In it old /\ iCluster it = d /\ ~ In (ext (iUrl it)) keep.
Proof.
  intro ID. induction old as [|it old IH]; intros n s keep R H; (destruct n as [|n]; [cbn in H; injection H as <-; congruence|]);
    cbn [repeat aruns astep] in H; unfold rstep in H; rewrite R in H.
  - destruct n as [|n].
    + cbn in H. injection H as <-. split; [reflexivity|]. intro d. split; [intro X; left; exact X|]. intros [X|[it [[] _]]]. exact X.
    + cbn in H. discriminate H.
  - edestruct IH as [A B]; [|exact H|]; [reflexivity|]. split; [exact A|]. intro d. rewrite B. cbn [aDead].
    destruct (existsb (bs_eqb (ext (iUrl it))) keep) eqn:E.
    + apply existsb_eqb_In' in E. split.
      * intros [X|[x [X Y]]]; [left; exact X|right; exists x; split; [right; exact X|exact Y]].
      * intros [X|[x [[<-|X] [Y Z]]]]; [left; exact X|contradiction|right; exists x; split; [exact X|split; assumption]].
    + assert (NE : ~ In (ext (iUrl it)) keep) by (intro X; apply existsb_eqb_In' in X; congruence). split.
      * intros [X|[x [X Y]]]; [|right; exists x; split; [right; exact X|exact Y]].
        apply in_app_or in X as [X|[<-|[]]]; [left; exact X|]. right. exists it. split; [left; reflexivity|]. split; [reflexivity|exact NE].
      * intros [X|[x [[<-|X] [Y Z]]]]; [left; apply in_or_app; left; exact X| |right; exists x; split; [exact X|split; assumption]].
        left. apply in_or_app. right. left. exact Y.
Qed.
Lemma reload_exact app os s refs n s' : aruns (ainit app) os = Some s -> aReload s = RIdle -> Forall (fun u => uParams u <> None) refs ->
  aruns s (AReload refs :: repeat AStep n) = Some s' -> aReload s' = RIdle ->
  exists refs', Forall2 (with_app (aApp s)) refs refs' /\
    (forall service, Forall2 (serves_ref s) (filter (fun u => bs_eqb (uPath u) service) refs') (candidates (aSmap s') service)) /\
    (text_tells_path (refs' ++ map iUrl (concat (map snd (aSmap s)))) ->
     forall d, In d (aDead s') <-> In d (aDead s) \/
       exists it, in_use s it /\ iCluster it = d /\ ~ exists u, In u refs' /\ ext u = ext (iUrl it)).
Proof.
  intros H0 R FP H ID. pose proof (@ainv_reach app os s H0) as V.
  cbn [aruns astep] in H. rewrite R in H.
  edestruct (@build_runs s s' ID refs n) as [refs' [n' [s1 [keep' [cm' [sm' [A1 [A2 [A3 [A4 [A5 [A6 A7]]]]]]]]]]]]; [ | | | | |exact FP|exact H|];
    [reflexivity|reflexivity|reflexivity|reflexivity|apply Nat.le_refl|].
  exists refs'. split; [exact A1|].
  destruct n' as [|n']; [cbn in A5; injection A5 as <-; congruence|]. cbn [repeat aruns astep] in A5. unfold rstep in A5. rewrite A2 in A5.
  destruct n' as [|n']; [cbn in A5; injection A5 as <-; discriminate ID|]. cbn [repeat aruns astep] in A5. unfold rstep in A5. cbn [aReload] in A5.
  edestruct (@destroy_runs s' ID) as [B1 B2]; [|exact A5|]; [reflexivity|]. cbn [aSmap aDead] in B1, B2. rewrite A4 in B2.
  split.
  - intro service. rewrite B1. destruct (A6 service) as [L [C1 C2]]. rewrite C1. exact C2.
  - intros TP d. rewrite B2. rewrite A3.
    assert (KK : forall it, In it (concat (map snd (aSmap s))) -> (In (ext (iUrl it)) keep' <-> exists u, In u refs' /\ ext u = ext (iUrl it))).
    { intros it X. rewrite A7. split.
      - intros [[]|[u [U1 [U2 _]]]]. exists u. split; assumption.
      - intros [u [U1 U2]]. right. exists u. split; [exact U1|]. split; [exact U2|]. exists it. split; [|reflexivity].
        pose proof X as X'. apply (@in_concat _ _ (av_keys V)) in X' as [k X'].
        assert (E : uPath u = uPath (iUrl it)).
        { apply TP; [apply in_or_app; left; exact U1|apply in_or_app; right; apply in_map; exact X|exact U2]. }
        rewrite E. rewrite (av_path V _ _ X'). exact X'. }
    split.
    + intros [X|[it [X [Y Z]]]]; [left; exact X|]. right. exists it. split; [apply (@in_concat _ _ (av_keys V)) in X; exact X|]. split; [exact Y|].
      intro W. apply Z. apply KK; assumption.
    + intros [X|[it [X [Y Z]]]]; [left; exact X|]. right. exists it. apply (@in_concat _ _ (av_keys V)) in X. split; [exact X|]. split; [exact Y|].
      intro W. apply Z. apply KK; assumption.
Qed.
Lemma clean_tells l : Forall clean l -> text_tells_path l.
Proof.
  intros F u v U W E. rewrite Forall_forall in F. pose proof (@ext_info_inj u v (F _ U) (F _ W) E) as S. unfold same_url in S. tauto.
Qed.

(* ---- filling in what a request lacks *)
Lemma att_set a k v k' : att (setAtt a k v) k' = if bs_eqb k' k then v else att a k'.
Proof. unfold att, setAtt. rewrite (aget_aset bs_eqb bs_eqb_spec). destruct (bs_eqb k' k); reflexivity. Qed.
Lemma fill_keeps v1 u a k : att a k <> [] -> att (fillDefault v1 u a) k = att a k.
Proof.
  intro N. unfold fillDefault.
  assert (S : forall b k0 v, att b k0 = [] -> att b k <> [] -> att (setAtt b k0 v) k = att b k).
  { intros b k0 v Z NN. rewrite att_set. destruct (bs_eqb k k0) eqn:E; [|reflexivity]. apply bs_eqb_spec in E. subst k0. contradiction. }
  destruct v1.
  - unfold fillGroup; set (a1 := fillAppV1 u a).
    assert (A1 : att a1 k = att a k).
    { unfold a1, fillAppV1, fillSource. rewrite ?getParam_str_or. destruct (att a ApplicationKey) eqn:E; [|reflexivity]. destruct (str_or u ApplicationKey []); [reflexivity|]. apply S; assumption. }
    destruct (att a1 V1GroupKey) eqn:E; [|exact A1]. rewrite S; [exact A1|exact E|rewrite A1; exact N].
  - unfold fillGroup; set (a1 := fillSource u a).
    assert (A1 : att a1 k = att a k).
    { unfold a1, fillAppV1, fillSource. rewrite ?getParam_str_or. destruct (att a MSource) eqn:E; [|reflexivity].
      destruct (att a ApplicationKey); [destruct (str_or u ApplicationKey []); [reflexivity|]|]; apply S; assumption. }
    destruct (att a1 MGroup) eqn:E; [|exact A1]. rewrite S; [exact A1|exact E|rewrite A1; exact N].
Qed.
Lemma fill_others (v1 : bool) u a k : ~ In k (if v1 then [s2b "application"; s2b "group"] else [s2b "M_s"; s2b "M_g"]) -> att (fillDefault v1 u a) k = att a k.
Proof.
  intro N. unfold fillDefault.
  assert (S : forall b k0 v, k <> k0 -> att (setAtt b k0 v) k = att b k).
  { intros b k0 v NN. rewrite att_set. apply bs_eqb_neq in NN. rewrite NN. reflexivity. }
  destruct v1.
  - assert (N1 : k <> ApplicationKey) by (intros ->; apply N; left; reflexivity). assert (N2 : k <> V1GroupKey) by (intros ->; apply N; right; left; reflexivity).
    unfold fillGroup; set (a1 := fillAppV1 u a).
    assert (A1 : att a1 k = att a k).
    { unfold a1, fillAppV1, fillSource. rewrite ?getParam_str_or. destruct (att a ApplicationKey); [|reflexivity]. destruct (str_or u ApplicationKey []); [reflexivity|]. apply S; assumption. }
    destruct (att a1 V1GroupKey); [|exact A1]. rewrite S by assumption. exact A1.
  - assert (N1 : k <> MSource) by (intros ->; apply N; left; reflexivity). assert (N2 : k <> MGroup) by (intros ->; apply N; right; left; reflexivity).
    unfold fillGroup; set (a1 := fillSource u a).
    assert (A1 : att a1 k = att a k).
    { unfold a1, fillAppV1, fillSource. rewrite ?getParam_str_or. destruct (att a MSource); [|reflexivity].
      destruct (att a ApplicationKey); [destruct (str_or u ApplicationKey []); [reflexivity|]|]; apply S; assumption. }
    destruct (att a1 MGroup); [|exact A1]. rewrite S by assumption. exact A1.
Qed.
Lemma fill_values (v1 : bool) u a :
  if v1 then att (fillDefault v1 u a) (s2b "group") = or_else (att a (s2b "group")) (uGroup u) /\
             att (fillDefault v1 u a) (s2b "application") = or_else (att a (s2b "application")) (str_or u (s2b "application") [])
  else att (fillDefault v1 u a) (s2b "M_g") = or_else (att a (s2b "M_g")) (uGroup u) /\
       att (fillDefault v1 u a) (s2b "M_s") = or_else (att a (s2b "M_s")) (or_else (att a (s2b "application")) (str_or u (s2b "application") [])).
Proof.
  destruct v1.
  - change (s2b "group") with V1GroupKey. change (s2b "application") with ApplicationKey. unfold fillDefault.
    unfold fillGroup; set (a1 := fillAppV1 u a).
    assert (G : att a1 V1GroupKey = att a V1GroupKey).
    { unfold a1, fillAppV1, fillSource. rewrite ?getParam_str_or. destruct (att a ApplicationKey); [|reflexivity]. destruct (str_or u ApplicationKey []); [reflexivity|]. rewrite att_set. reflexivity. }
    assert (A : att a1 ApplicationKey = or_else (att a ApplicationKey) (str_or u ApplicationKey [])).
    { unfold a1, fillAppV1, fillSource. rewrite ?getParam_str_or. destruct (att a ApplicationKey) eqn:E; [|exact E]. cbn [or_else]. destruct (str_or u ApplicationKey []); [exact E|]. rewrite att_set. reflexivity. }
    rewrite G. destruct (att a V1GroupKey) eqn:E; (split; [rewrite ?att_set; first [reflexivity|exact G]|rewrite ?att_set; exact A]).
  - change (s2b "M_g") with MGroup. change (s2b "M_s") with MSource. change (s2b "application") with ApplicationKey. unfold fillDefault.
    unfold fillGroup; set (a1 := fillSource u a).
    assert (G : att a1 MGroup = att a MGroup).
    { unfold a1, fillAppV1, fillSource. rewrite ?getParam_str_or. destruct (att a MSource); [|reflexivity]. destruct (att a ApplicationKey); [destruct (str_or u ApplicationKey []); [reflexivity|]|]; rewrite att_set; reflexivity. }
    assert (A : att a1 MSource = or_else (att a MSource) (or_else (att a ApplicationKey) (str_or u ApplicationKey []))).
    { unfold a1, fillAppV1, fillSource. rewrite ?getParam_str_or. destruct (att a MSource) eqn:E; [|exact E]. cbn [or_else]. destruct (att a ApplicationKey) eqn:E2; cbn [or_else].
      - destruct (str_or u ApplicationKey []); [exact E|]. rewrite att_set. reflexivity.
      - rewrite att_set. reflexivity. }
    rewrite G. destruct (att a MGroup) eqn:E; (split; [rewrite ?att_set; first [reflexivity|exact G]|rewrite ?att_set; exact A]).
Qed.
