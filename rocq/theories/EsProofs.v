(* EsProofs.v: proofs for EsProps.v. *)
From Coq Require Import Lia ZifyBool.
From Verif Require Import Base Strconv GoStrings GoStrings2 UrlModel UrlSpec UrlProofs RateProofs EpModel EpSpec EpProofs EpProofs2 PoolModel EsModel EsSpec.
Ltac Zify.zify_post_hook ::= idtac.

Lemma millis u k d : getTimeDuration u k milli (d * milli) = millis_or u k d.
Proof.
  unfold getTimeDuration, millis_or, int_param, param, pget, milli. destruct (uParams u) as [m|]; [|reflexivity].
  destruct (aget bs_eqb m k) as [t|]; [|reflexivity]. destruct (parseInt64 t) as [z [| |]]; try reflexivity.
  change (- 2 ^ 31)%Z with (-2147483648)%Z. change (2 ^ 31)%Z with 2147483648%Z.
  destruct (Z.leb_spec (-2147483648) z), (Z.leb_spec z 2147483647), (Z.ltb_spec z 2147483648); cbn [andb]; try lia; [|reflexivity..].
  apply wrapI64_id. lia.
Qed.
Lemma truths u k d : getBoolValue u k d = truth_or u k d.
Proof.
  unfold getBoolValue, truth_or, parseBool, param, pget. destruct (uParams u) as [m|]; [|reflexivity].
  destruct (aget bs_eqb m k) as [t|]; [|reflexivity].
  destruct (existsb (bs_eqb t) (map s2b ["1"; "t"; "T"; "true"; "TRUE"; "True"]%string)); [reflexivity|].
  destruct (existsb (bs_eqb t) (map s2b ["0"; "f"; "F"; "false"; "FALSE"; "False"]%string)); reflexivity.
Qed.
Lemma ints u k d : fst (getIntValue (fresh u) k d) = int_or u k d.
Proof.
  unfold getIntValue, getInt, parseParam, int_or, int_param, param, pget. cbn [cInt fresh aget cUrl].
  destruct (uParams u) as [m|]; [|reflexivity]. destruct (aget bs_eqb m k) as [t|]; [|reflexivity]. destruct (parseInt64 t) as [z [| |]]; reflexivity.
Qed.
Lemma address_fresh u : fst (getAddressStr (fresh u)) = address_of u.
Proof. unfold getAddressStr, address_of. cbn [cAddress fresh cUrl]. destruct (hasPrefix (uHost u) (s2b "unix://")); reflexivity. Qed.

(* ---- connecting ---- *)
Lemma n_connect_fill n conns b : (exists c, fillPool n conns b = (c, true)) <-> n_connect n conns.
Proof.
  revert conns b. induction n as [|n IH]; intros conns b; cbn [fillPool].
  - split; [intros _; exists conns; reflexivity|intros _; eexists; reflexivity].
  - destruct conns as [|[|] r].
    + split; [intros [c E]; discriminate E|intros [rest E]; discriminate E].
    + rewrite (IH r (S b)). unfold n_connect. cbn [repeat]. split; intros [rest E]; exists rest; [rewrite E; reflexivity|injection E; auto].
    + split; [intros [c E]; discriminate E|intros [rest E]; discriminate E].
Qed.
Lemma newPool_iff cap lz conns : (0 < cap)%Z ->
  (fst (newPool cap lz conns) <> None <-> (lz = true \/ n_connect (Z.to_nat cap) conns)).
Proof.
  intro P. unfold newPool. destruct (Z.leb_spec cap 0); [lia|]. destruct lz; [cbn [fst]; split; [intros _; left; reflexivity|intros _; discriminate]|].
  pose proof (n_connect_fill (Z.to_nat cap) conns 0) as F. destruct (fillPool (Z.to_nat cap) conns 0) as [b [|]]; cbn [fst].
  - split; [intros _; right; apply F; eexists; reflexivity|intros _; discriminate].
  - split; [intro X; congruence|]. intros [X|X]; [discriminate X|]. apply F in X. destruct X as [c E]. discriminate E.
Qed.

(* ---- steps of the machine with periods ---- *)
Inductive wcase (st : settings) (s : ep) (tr : bool) : wop -> ep -> bool -> Prop :=
| wcBase o p s' : estep (sThreshold st) s o = Some s' -> o <> OConn -> (o = OInitToken -> tr = true) ->
    (forall j, o = OKeep j -> nth_error (eKeep s') j = Some KLoop -> (0 < sKeepalive st)%Z) -> p = WBase o -> wcase st s tr p s' tr
| wcConn conns s' : eInit s = IConn -> fst (newPool (sConns st) (sLazy st) conns) <> None -> estep (sThreshold st) s OConn = Some s' ->
    wcase st s tr (WTry conns) s' true
| wcFail conns : eInit s = IConn -> fst (newPool (sConns st) (sLazy st) conns) = None -> (tr = true \/ 0 < sRetry st)%Z ->
    wcase st s tr (WTry conns) s true
| wcDead conns : eInit s = IConn -> fst (newPool (sConns st) (sLazy st) conns) = None -> tr = false -> (sRetry st <= 0)%Z ->
    wcase st s tr (WTry conns) (setI s (eChans s) IEnd) true
| wcTick j s' : estep (sThreshold st) s (OKeep j) = Some s' -> nth_error (eKeep s') j = Some KLoop -> (sKeepalive st <= 0)%Z ->
    wcase st s tr (WBase (OKeep j)) (setKeep s' j KExit) tr.
Lemma wcases st s tr o s' tr' : wstep st (s, tr) o = Some (s', tr') -> wcase st s tr o s' tr'.
Proof.
  destruct o as [conns|o]; cbn [wstep].
  - destruct (eInit s) eqn:E; try discriminate. destruct (fst (newPool (sConns st) (sLazy st) conns)) eqn:P.
    + destruct (estep (sThreshold st) s OConn) as [s1|] eqn:X; [|discriminate]. intro H. injection H as <- <-. apply wcConn; [assumption|congruence|assumption].
    + unfold tickerPanics. destruct tr; cbn [negb andb]; [intro H; injection H as <- <-; apply wcFail; auto|].
      destruct (Z.leb_spec (sRetry st) 0); intro H'; injection H' as <- <-; [apply wcDead; auto|apply wcFail; auto].
  - destruct o; try discriminate;
      try (match goal with |- context [estep ?t s ?o] => destruct (estep t s o) as [s1|] eqn:X end; [|discriminate]; intro H; injection H as <- <-;
           eapply wcBase; [exact X|discriminate|discriminate|discriminate|reflexivity]).
    + destruct (estep (sThreshold st) s (OKeep j)) as [s1|] eqn:X; [|discriminate]. unfold tickerPanics.
      destruct (nth_error (eKeep s1) j) as [[]|] eqn:N;
        try (intro H; injection H as <- <-; eapply wcBase; [exact X|discriminate|discriminate| |reflexivity]; intros j' J; injection J as <-; rewrite N; discriminate).
      destruct (Z.leb_spec (sKeepalive st) 0); intro H'; injection H' as <- <-.
      * eapply wcTick; eassumption.
      * eapply wcBase; [exact X|discriminate|discriminate| |reflexivity]. intros; assumption.
    + destruct tr; [|discriminate]. match goal with |- context [estep ?t s ?o] => destruct (estep t s o) as [s1|] eqn:X end; [|discriminate].
      intro H; injection H as <- <-. eapply wcBase; [exact X|discriminate|reflexivity|discriminate|reflexivity].
Qed.
Lemma wruns_ind_gen (P : ep -> bool -> Prop) st :
  (forall s tr o s' tr', P s tr -> wcase st s tr o s' tr' -> P s' tr') ->
  forall os s tr s' tr', P s tr -> wruns st (s, tr) os = Some (s', tr') -> P s' tr'.
Proof.
  intros Hs os. induction os as [|o r IH]; intros s tr s' tr' P0 R; [injection R as <- <-; exact P0|].
  cbn [wruns] in R. destruct (wstep st (s, tr) o) as [[s1 t1]|] eqn:E; [|discriminate R]. eapply IH; [|exact R]. eapply Hs; [exact P0|apply wcases; exact E].
Qed.
Lemma eruns_app thr ops1 : forall s ops2, eruns thr s (ops1 ++ ops2) = match eruns thr s ops1 with Some s' => eruns thr s' ops2 | None => None end.
Proof. induction ops1 as [|o r IH]; intros s ops2; [reflexivity|]. cbn [app eruns]. destruct (estep thr s o); [apply IH|reflexivity]. Qed.
Lemma refines st : (0 < sRetry st)%Z -> (0 < sKeepalive st)%Z -> forall os s tr, wruns st wep0 os = Some (s, tr) ->
  exists ops, eruns (sThreshold st) ep0 ops = Some s.
Proof.
  intros R K os s tr H. unfold wep0 in H.
  apply (wruns_ind_gen (fun s _ => exists ops, eruns (sThreshold st) ep0 ops = Some s) st) in H; [exact H| |exists []; reflexivity].
  intros s1 t1 o s2 t2 [ops E] C. destruct C as [o p s2 X _ _ _ _|conns s2 _ _ X|conns|conns|j s2].
  - exists (ops ++ [o]). rewrite eruns_app, E. cbn [eruns]. rewrite X. reflexivity.
  - exists (ops ++ [OConn]). rewrite eruns_app, E. cbn [eruns]. rewrite X. reflexivity.
  - exists ops. exact E.
  - lia.
  - lia.
Qed.

(* ---- without a keepalive ticker ---- *)
Definition noBeats (s : ep) : Prop := forall k, In k (eKeep s) -> k = KStart \/ k = KExit \/ k = KEnd.
Lemma In_list_set {A} (l : list A) i x y : In y (list_set l i x) -> y = x \/ In y l.
Proof. revert i. induction l as [|z l IH]; intros [|i] H; cbn in *; [destruct H|destruct H| |]; destruct H as [H|H]; subst; auto. destruct (IH _ H); auto. Qed.
Lemma list_set_twice {A} (l : list A) i x y : list_set (list_set l i x) i y = list_set l i y.
Proof. revert i. induction l as [|z l IH]; intros [|i]; cbn; [reflexivity..|]. rewrite IH. reflexivity. Qed.
Ltac ekeep := unfold setKeep, setHand, setA, setC, setP, setR, setD, setT, setI, setH, setK in *; cbn [eAvail eCount eProfile eRunning eDestroyed eTok eChans eInit eHand eKeep] in *.
Ltac estepcases H := repeat match type of H with
  | context [if ?b then _ else _] => let E := fresh "B" in destruct b eqn:E
  | context [match nth_error ?l ?i with _ => _ end] => let E := fresh "N" in destruct (nth_error l i) as [[]|] eqn:E
  | context [match eTok ?s with _ => _ end] => let E := fresh "T" in destruct (eTok s) eqn:E
  | context [match eInit ?s with _ => _ end] => let E := fresh "J" in destruct (eInit s) eqn:E
  end; try discriminate H; injection H as <-.
Lemma noBeats_step st s tr o s' tr' : (sKeepalive st <= 0)%Z -> noBeats s -> wcase st s tr o s' tr' -> noBeats s' /\
  (eInit s = IEnd -> eAvail s = false -> eInit s' = IEnd /\ eAvail s' = false).
Proof.
  intros K N C. destruct C as [o p s2 X X1 X2 X3 _|conns s2 I0 _ X|conns I0|conns I0|j s2 X X1 _].
  - assert (NB : forall j k, nth_error (eKeep s) j = Some k -> k = KStart \/ k = KExit \/ k = KEnd) by (intros j k E; apply N; eapply nth_error_In; exact E).
    destruct o; cbn [estep] in X; try congruence; estepcases X; ekeep;
      try (match goal with E : nth_error (eKeep s) _ = Some KLoop |- _ => exfalso; destruct (NB _ _ E) as [Q|[Q|Q]]; discriminate Q end);
      try (match goal with E : nth_error (eKeep s) _ = Some KUp |- _ => exfalso; destruct (NB _ _ E) as [Q|[Q|Q]]; discriminate Q end);
      try (match goal with E : nth_error (eKeep s) _ = Some KReset |- _ => exfalso; destruct (NB _ _ E) as [Q|[Q|Q]]; discriminate Q end);
      try (split; [intros k Hk; ekeep; first [apply N; exact Hk | apply In_list_set in Hk as [->|Hk]; [auto|apply N; exact Hk]
                                             |apply in_app_or in Hk as [Hk|[<-|[]]]; [apply N; exact Hk|auto]]|intros; split; congruence || assumption]).
    + exfalso. assert (L : j < length (eKeep s)) by (apply nth_error_Some; congruence).
      specialize (X3 j eq_refl). rewrite list_set_nth_error, Nat.eqb_refl in X3 by exact L. specialize (X3 eq_refl). lia.
  - cbn [estep] in X. rewrite I0 in X. injection X as <-. ekeep. split; [exact N|intro Q; congruence].
  - split; [exact N|auto].
  - ekeep. split; [exact N|auto].
  - cbn [estep] in X. estepcases X; ekeep.
    + exfalso. assert (L : j < length (eKeep s)) by (apply nth_error_Some; congruence).
      rewrite list_set_nth_error, Nat.eqb_refl in X1 by exact L. discriminate X1.
    + split; [|auto]. intros k Hk. ekeep. rewrite list_set_twice in Hk. apply In_list_set in Hk as [->|Hk]; [auto|apply N; exact Hk].
Qed.
Lemma noBeats_runs st os s tr s' tr' : (sKeepalive st <= 0)%Z -> noBeats s -> wruns st (s, tr) os = Some (s', tr') -> noBeats s' /\
  (eInit s = IEnd -> eAvail s = false -> eInit s' = IEnd /\ eAvail s' = false).
Proof.
  intros K N R. apply (wruns_ind_gen (fun x _ => noBeats x /\ (eInit s = IEnd -> eAvail s = false -> eInit x = IEnd /\ eAvail x = false)) st) in R; [exact R| |auto].
  intros s1 t1 o s2 t2 [N1 A1] C. destruct (noBeats_step _ _ _ _ _ _ K N1 C) as [N2 A2]. split; [exact N2|]. intros I0 A0. destruct (A1 I0 A0). apply A2; assumption.
Qed.
Lemma stays_down st ops1 ops2 s tr s' tr' : (sKeepalive st <= 0)%Z -> wruns st wep0 ops1 = Some (s, tr) -> eInit s = IEnd -> eAvail s = false ->
  wruns st (s, tr) ops2 = Some (s', tr') -> eAvail s' = false.
Proof.
  intros K R I0 A R2. unfold wep0 in R. assert (N0 : noBeats ep0) by (intros k []). destruct (noBeats_runs _ _ _ _ _ _ K N0 R) as [N _].
  apply (noBeats_runs _ _ _ _ _ _ K N R2); assumption.
Qed.

(* ---- without a retry ticker ---- *)
Definition uncon (s : ep) : Prop :=
  (eInit s = IConn -> eChans s = false) /\ (eInit s = ISet -> eChans s = true) /\
  (eChans s = false -> eAvail s = false /\ forall k, In k (eKeep s) -> k <> KUp /\ k <> KReset).
Lemma uncon_step st s tr o s' tr' : uncon s -> wcase st s tr o s' tr' -> uncon s' /\ (eInit s = IEnd -> eChans s = false -> eInit s' = IEnd /\ eChans s' = false).
Proof.
  intros (U1 & U2 & U3) C. destruct C as [o p s2 X X1 X2 X3 _|conns s2 I0 _ X|conns I0|conns I0|j s2 X X1 _].
  - assert (NB : eChans s = false -> forall j k, nth_error (eKeep s) j = Some k -> k <> KUp /\ k <> KReset)
      by (intros Q j k E; apply (proj2 (U3 Q)); eapply nth_error_In; exact E).
    assert (NI : forall l : list kpc, (eChans s = false -> forall k, In k l -> k <> KUp /\ k <> KReset) -> eChans s = false -> eAvail s = false /\ forall k, In k l -> k <> KUp /\ k <> KReset)
      by (intros l HL Q; split; [exact (proj1 (U3 Q))|exact (HL Q)]).
    destruct o; cbn [estep] in X; try congruence; estepcases X; unfold uncon; ekeep;
      try (split; [split; [assumption|split; [assumption|]]|intros; split; assumption]; first [exact U3 | apply NI; intros Q k Hk; first [apply (proj2 (U3 Q)); exact Hk
         | apply In_list_set in Hk as [->|Hk]; [split; discriminate|apply (proj2 (U3 Q)); exact Hk]
         | apply in_app_or in Hk as [Hk|[<-|[]]]; [apply (proj2 (U3 Q)); exact Hk|split; discriminate]]]).
    all: try (split; [split; [assumption|split; [assumption|]]|intros; split; assumption]; intro Q; split; [reflexivity|]; intros k Hk;
      first [apply (proj2 (U3 Q)); exact Hk | apply In_list_set in Hk as [->|Hk]; [split; discriminate|apply (proj2 (U3 Q)); exact Hk]]).
    + split; [split; [assumption|split; [assumption|]]|auto]. intro Q. exfalso. destruct (NB Q _ _ N) as [Q1 _]. congruence.
    + split; [split; [assumption|split; [assumption|]]|auto]. intro Q. exfalso. rewrite Q in *. discriminate.
    + split; [split; [discriminate|split; [discriminate|]]|intro Q; discriminate Q]. intro Q. rewrite (U2 eq_refl) in Q. discriminate Q.
    + split; [split; [discriminate|split; [discriminate|exact U3]]|intro Q; discriminate Q].
  - cbn [estep] in X. rewrite I0 in X. injection X as <-. unfold uncon. ekeep. split; [repeat split; discriminate|intro Q; congruence].
  - split; [repeat split; try assumption; apply U3; assumption|auto].
  - unfold uncon. ekeep. split; [split; [discriminate|split; [discriminate|exact U3]]|auto].
  - cbn [estep] in X. estepcases X; unfold uncon; ekeep; (split; [split; [assumption|split; [assumption|]]|auto]); intro Q; (split; [exact (proj1 (U3 Q))|]);
      intros k Hk; rewrite list_set_twice in Hk; apply In_list_set in Hk as [->|Hk]; try (split; discriminate); apply (proj2 (U3 Q)); exact Hk.
Qed.
Lemma uncon_runs st os s tr s' tr' : uncon s -> wruns st (s, tr) os = Some (s', tr') ->
  uncon s' /\ (eInit s = IEnd -> eChans s = false -> eInit s' = IEnd /\ eChans s' = false).
Proof.
  intros N R. apply (wruns_ind_gen (fun x _ => uncon x /\ (eInit s = IEnd -> eChans s = false -> eInit x = IEnd /\ eChans x = false)) st) in R; [exact R| |auto].
  intros s1 t1 o s2 t2 [N1 A1] C. destruct (uncon_step _ _ _ _ _ _ N1 C) as [N2 A2]. split; [exact N2|]. intros I0 A0. destruct (A1 I0 A0). apply A2; assumption.
Qed.
Lemma uncon0 : uncon ep0.
Proof. unfold uncon, ep0. cbn. repeat split; try discriminate; try reflexivity; destruct H0. Qed.
Lemma never_up st ops1 conns ops2 s s' tr' : (sRetry st <= 0)%Z -> sLazy st = false -> (0 < sConns st)%Z ->
  wruns st wep0 ops1 = Some (s, false) -> ~ n_connect (Z.to_nat (sConns st)) conns ->
  wruns st (s, false) (WTry conns :: ops2) = Some (s', tr') -> eAvail s' = false /\ eChans s' = false.
Proof.
  intros Rt L P R NC R2. unfold wep0 in R. destruct (uncon_runs _ _ _ _ _ _ uncon0 R) as [U _].
  assert (X : fst (newPool (sConns st) (sLazy st) conns) = None).
  { destruct (fst (newPool (sConns st) (sLazy st) conns)) eqn:E; [|reflexivity]. exfalso. apply NC.
    destruct (proj1 (newPool_iff (sConns st) (sLazy st) conns P)) as [Q|Q]; [congruence|congruence|exact Q]. }
  cbn [wruns wstep] in R2. destruct (eInit s) eqn:I0; try discriminate R2. rewrite X in R2. unfold tickerPanics in R2.
  destruct (Z.leb_spec (sRetry st) 0); [|lia]. cbn [negb andb] in R2. destruct U as (U1 & U2 & U3).
  assert (U' : uncon (setI s (eChans s) IEnd)) by (unfold uncon; ekeep; repeat split; try discriminate; apply U3; assumption).
  destruct (uncon_runs _ _ _ _ _ _ U' R2) as [(_ & _ & V3) V]. destruct V as [_ V]; [reflexivity|ekeep; apply U1; exact I0|]. split; [apply V3; exact V|exact V].
Qed.
(* ---- with one ---- *)
Lemma tries st s tr conns : (0 < sRetry st)%Z -> (0 < sConns st)%Z -> eInit s = IConn ->
  (sLazy st = true \/ n_connect (Z.to_nat (sConns st)) conns ->
     exists s', wruns st (s, tr) [WTry conns; WBase OInit] = Some (s', true) /\ eAvail s' = true /\ eChans s' = true) /\
  (sLazy st = false -> ~ n_connect (Z.to_nat (sConns st)) conns -> wstep st (s, tr) (WTry conns) = Some (s, true)).
Proof.
  intros R P I0. pose proof (newPool_iff (sConns st) (sLazy st) conns P) as F. split.
  - intro H. apply F in H. cbn [wruns wstep]. rewrite I0. destruct (fst (newPool (sConns st) (sLazy st) conns)); [|congruence].
    cbn [estep]. rewrite I0. ekeep. eexists. split; [reflexivity|]. split; reflexivity.
  - intros L NC. cbn [wstep]. rewrite I0. destruct (fst (newPool (sConns st) (sLazy st) conns)).
    + exfalso. destruct (proj1 F) as [Q|Q]; [discriminate|congruence|exact (NC Q)].
    + unfold tickerPanics. destruct (Z.leb_spec (sRetry st) 0); [lia|]. rewrite Bool.andb_false_r. reflexivity.
Qed.

(* ---- the address ---- *)
Lemma tcp_address h z : hasPrefix (h ++ s2b ":" ++ fmtZ z) (s2b "unix://") = hasPrefix h (s2b "unix://").
Proof.
  destruct (hasPrefix h (s2b "unix://")) eqn:E.
  - apply hasPrefix_spec in E as [t ->]. apply hasPrefix_spec. exists (t ++ s2b ":" ++ fmtZ z). rewrite <- app_assoc. reflexivity.
  - destruct (hasPrefix (h ++ s2b ":" ++ fmtZ z) (s2b "unix://")) eqn:F; [|reflexivity]. exfalso.
    apply hasPrefix_spec in F as [t F]. change (s2b "unix://") with [x75; x6e; x69; x78; x3a; x2f; x2f] in *. change (s2b ":") with [x3a] in F. cbn [app] in F.
    pose proof (fmtZ_free z x2f eq_refl) as NF.
    destruct h as [|h0 h]; cbn [app] in F; [discriminate F|]. injection F as -> F.
    destruct h as [|h1 h]; cbn [app] in F; [discriminate F|]. injection F as -> F.
    destruct h as [|h2 h]; cbn [app] in F; [discriminate F|]. injection F as -> F.
    destruct h as [|h3 h]; cbn [app] in F; [discriminate F|]. injection F as -> F.
    destruct h as [|h4 h]; cbn [app] in F; [injection F as F; apply NF; rewrite F; left; reflexivity|]. injection F as -> F.
    destruct h as [|h5 h]; cbn [app] in F; [discriminate F|]. injection F as -> F.
    destruct h as [|h6 h]; cbn [app] in F; [discriminate F|]. injection F as -> F. destruct h; vm_compute in E; discriminate E.
Qed.
Lemma dials u st :
  (forall p, uHost u = s2b "unix://" ++ p -> dialArgs u st = (s2b "unix", p, sDial st)) /\
  ((forall p, uHost u <> s2b "unix://" ++ p) -> dialArgs u st = (s2b "tcp", uHost u ++ s2b ":" ++ fmtZ (uPort u), sDial st)).
Proof.
  unfold dialArgs. rewrite address_fresh. unfold address_of. split.
  - intros p E. assert (P : hasPrefix (uHost u) (s2b "unix://") = true) by (apply hasPrefix_spec; exists p; exact E).
    rewrite P, P, E. reflexivity.
  - intro E. assert (P : hasPrefix (uHost u) (s2b "unix://") = false).
    { destruct (hasPrefix (uHost u) (s2b "unix://")) eqn:F; [|reflexivity]. apply hasPrefix_spec in F as [p F]. destruct (E p F). }
    rewrite P, tcp_address, P. reflexivity.
Qed.
