(* WebProofs.v: proofs for C76. *)
From Verif Require Import Base GoStrings GoStrings2 WebModel WebSpec.
Ltac Zify.zify_post_hook ::= idtac.

Lemma firstByte_none c s : firstByte c s = None <-> ~ In c s.
Proof.
  induction s as [|d s IH]; cbn; [tauto|]. destruct (byte_eqb d c) eqn:E.
  - apply byte_eqb_spec in E. subst. split; [discriminate|]. intro H. destruct H. left. reflexivity.
  - apply byte_eqb_neq in E. destruct (firstByte c s); split; intro H; try discriminate H.
    + exfalso. assert (X : Some n = None) by (apply IH; intro Y; apply H; right; exact Y). discriminate X.
    + intros [Y|Y]; [contradiction|]. apply IH in Y; [exact Y|reflexivity].
    + reflexivity.
Qed.
Lemma hasByte_spec c s : hasByte c s = true <-> In c s.
Proof.
  unfold hasByte. destruct (firstByte c s) eqn:E; split; try reflexivity; try discriminate.
  - intros _. destruct (in_dec Byte.byte_eq_dec c s); [assumption|]. exfalso. apply firstByte_none in n0. congruence.
  - intro H. apply firstByte_none in E. contradiction.
Qed.
Lemma hasByte_no c s : ~ In c s -> hasByte c s = false.
Proof. intro H. destruct (hasByte c s) eqn:E; [apply hasByte_spec in E; contradiction|reflexivity]. Qed.
Lemma lastByte_none c s : ~ In c s -> lastByte c s = None.
Proof.
  induction s as [|d s IH]; intro H; cbn; [reflexivity|]. rewrite IH by (intro X; apply H; right; exact X).
  destruct (byte_eqb d c) eqn:E; [|reflexivity]. apply byte_eqb_spec in E. destruct H. left. exact E.
Qed.
Lemma lastByte_at c a b : ~ In c b -> lastByte c (a ++ c :: b) = Some (length a).
Proof.
  intro H. induction a as [|d a IH]; cbn [app lastByte length].
  - rewrite lastByte_none by exact H. rewrite byte_eqb_refl. reflexivity.
  - rewrite IH. reflexivity.
Qed.
Lemma firstByte_at c a b : ~ In c a -> firstByte c (a ++ c :: b) = Some (length a).
Proof.
  intro H. induction a as [|d a IH]; cbn [app firstByte length].
  - rewrite byte_eqb_refl. reflexivity.
  - destruct (byte_eqb d c) eqn:E; [apply byte_eqb_spec in E; destruct H; left; exact E|]. rewrite IH; [reflexivity|].
    intro X. apply H. right. exact X.
Qed.
Lemma split_plain n p : plain n -> plain p -> splitHostPort (n ++ [x3a] ++ p) = Some n.
Proof.
  intros (N1 & N2 & N3) (P1 & P2 & P3). unfold splitHostPort. cbn [app]. unfold colon. rewrite lastByte_at by exact P1.
  assert (E : firstn (length n) (n ++ x3a :: p) = n) by apply firstn_app_exact. 
  assert (B : hasByte x5b (n ++ x3a :: p) = false) by (apply hasByte_no; rewrite in_app_iff; cbn; intros [X|[X|X]]; [tauto|discriminate X|tauto]).
  assert (D : hasByte x5d (n ++ x3a :: p) = false) by (apply hasByte_no; rewrite in_app_iff; cbn; intros [X|[X|X]]; [tauto|discriminate X|tauto]).
  destruct (n ++ x3a :: p) as [|c r] eqn:S; [destruct n; discriminate S|].
  destruct (byte_eqb c x5b) eqn:C.
  - exfalso. apply byte_eqb_spec in C. subst c. destruct n as [|y n]; [discriminate S|]. injection S as -> _. apply N2. left. reflexivity.
  - rewrite E, (hasByte_no _ _ N1), B, D. reflexivity.
Qed.
Lemma split_brackets n p : ~ In x5b n -> ~ In x5d n -> plain p -> splitHostPort ([x5b] ++ n ++ [x5d; x3a] ++ p) = Some n.
Proof.
  intros N2 N3 (P1 & P2 & P3). unfold splitHostPort.
  assert (L : lastByte colon ([x5b] ++ n ++ [x5d; x3a] ++ p) = Some (S (S (length n)))).
  { replace ([x5b] ++ n ++ [x5d; x3a] ++ p) with ((x5b :: n ++ [x5d]) ++ x3a :: p) by (cbn; rewrite <- app_assoc; reflexivity).
    unfold colon. rewrite lastByte_at by exact P1. f_equal. cbn. rewrite app_length. cbn. lia. }
  rewrite L. cbn [app]. rewrite byte_eqb_refl.
  assert (F : firstByte x5d (x5b :: n ++ x5d :: x3a :: p) = Some (S (length n))).
  { change (x5b :: n ++ x5d :: x3a :: p) with ((x5b :: n) ++ x5d :: x3a :: p). rewrite firstByte_at; [reflexivity|].
    intros [X|X]; [discriminate X|tauto]. }
  rewrite F.
  assert (Len : length (x5b :: n ++ x5d :: x3a :: p) = S (S (S (length n + length p)))) by (cbn; rewrite app_length; cbn; lia).
  rewrite Len. replace (S (S (length n)) =? S (S (S (length n + length p)))) with false by (symmetry; apply Nat.eqb_neq; lia).
  rewrite Nat.eqb_refl.
  assert (H1 : hasByte x5b (skipn 1 (x5b :: n ++ x5d :: x3a :: p)) = false).
  { apply hasByte_no. cbn [skipn]. rewrite in_app_iff. cbn. intros [X|[X|[X|X]]]; [tauto|discriminate X|discriminate X|tauto]. }
  assert (K : skipn (S (S (length n))) (x5b :: n ++ x5d :: x3a :: p) = x3a :: p).
  { replace (x5b :: n ++ x5d :: x3a :: p) with ((x5b :: n ++ [x5d]) ++ x3a :: p) by (cbn; rewrite <- app_assoc; reflexivity).
    replace (S (S (length n))) with (length (x5b :: n ++ [x5d])) by (cbn; rewrite app_length; cbn; lia). apply skipn_app_exact. }
  assert (H2 : hasByte x5d (skipn (S (S (length n))) (x5b :: n ++ x5d :: x3a :: p)) = false).
  { rewrite K. apply hasByte_no. cbn. intros [X|X]; [discriminate X|tauto]. }
  rewrite H1, H2. cbn [orb skipn]. f_equal. replace (S (length n) - 1) with (length n) by lia. apply firstn_app_exact.
Qed.
Lemma plain80 : plain (s2b "80").
Proof. repeat split; cbn; intros [X|[X|X]]; try discriminate X; exact X. Qed.
Lemma split_names h n : names h n -> splitHostPort (withPort h) = Some n.
Proof.
  unfold withPort. intros [(P & [->|(p & Pp & ->)])|(A & B & p & Pp & ->)].
  - rewrite hasByte_no by apply P. change (s2b ":80") with ([x3a] ++ s2b "80"). apply split_plain; [exact P|apply plain80].
  - assert (E : hasByte colon (n ++ [x3a] ++ p) = true) by (apply hasByte_spec; rewrite in_app_iff; right; left; reflexivity).
    rewrite E. apply split_plain; assumption.
  - assert (E : hasByte colon ([x5b] ++ n ++ [x5d; x3a] ++ p) = true) by (apply hasByte_spec; rewrite !in_app_iff; cbn; tauto).
    rewrite E. apply split_brackets; assumption.
Qed.
Lemma withPort_address h : address h (withPort h).
Proof.
  unfold withPort, address. destruct (hasByte colon h) eqn:E.
  - left. split; [apply hasByte_spec in E; exact E|reflexivity].
  - right. split; [|reflexivity]. intro X. apply (hasByte_spec colon) in X. congruence.
Qed.
Lemma address_fun h a : address h a -> a = withPort h.
Proof. intro H. pose proof (withPort_address h) as W. unfold address in *. destruct H as [(A & ->)|(A & ->)], W as [(B & ->)|(B & ->)]; tauto. Qed.
Lemma deny_spec cfg a : existsb (bs_eqb a) (pxDeny cfg) = true <-> In a (pxDeny cfg).
Proof.
  rewrite existsb_exists. split.
  - intros (x & A & B). apply bs_eqb_spec in B. subst. exact A.
  - intro H. exists a. split; [exact H|apply bs_eqb_refl].
Qed.
Lemma ordinary_start cfg r : ordinary r -> proxyHandle cfg r = 
    let hp := withPort (wHost r) in
    let host := match splitHostPort hp with Some h => h | None => [] end in
    let '(domain, cl, hp', hdr) :=
      match aget bs_eqb (pxDomains cfg) host with
      | Some f => (host, Some f, hp, wHost r)
      | None =>
          if bs_eqb (pxDefault cfg) [] then (host, None, hp, wHost r)
          else (pxDefault cfg, aget bs_eqb (pxDomains cfg) (pxDefault cfg), pxDefault cfg ++ s2b ":80", pxDefault cfg)
      end in
    match cl with
    | Some f => match f (wPath r) with Some svc => ACall domain svc hdr | None => cannot cfg (wPath r) hp' hdr end
    | None => cannot cfg (wPath r) hp' hdr
    end.
Proof.
  intros (A & B & _). unfold proxyHandle. apply bs_eqb_neq in A. rewrite A, B. reflexivity.
Qed.
Lemma served cfg r n f svc : ordinary r -> names (wHost r) n -> domain cfg n = Some f -> f (wPath r) = Some svc ->
  proxyHandle cfg r = ACall n svc (wHost r).
Proof.
  intros O N D F. rewrite (ordinary_start _ _ O). cbv zeta. rewrite (split_names _ _ N). unfold domain in D. rewrite D. cbv beta iota. rewrite F. reflexivity.
Qed.
Lemma cannot_spec cfg path a host p : path = x2f :: p -> 
  (In a (pxDeny cfg) /\ cannot cfg path a host = AReject) \/ (~ In a (pxDeny cfg) /\ cannot cfg path a host = AForward host).
Proof.
  intros ->. unfold cannot. rewrite byte_eqb_refl. cbn [andb]. destruct (existsb (bs_eqb a) (pxDeny cfg)) eqn:E.
  - left. split; [apply deny_spec, E|reflexivity].
  - right. split; [|reflexivity]. intro X. apply deny_spec in X. congruence.
Qed.
Lemma not_served cfg r n a : ordinary r -> names (wHost r) n -> unserved cfg n (wPath r) -> address (wHost r) a ->
  (In a (pxDeny cfg) -> proxyHandle cfg r = AReject) /\ (~ In a (pxDeny cfg) -> proxyHandle cfg r = AForward (wHost r)).
Proof.
  intros O N U A. rewrite (ordinary_start _ _ O). cbv zeta. rewrite (split_names _ _ N). rewrite (address_fun _ _ A).
  destruct O as (_ & _ & p & P). pose proof (cannot_spec cfg (wPath r) (withPort (wHost r)) (wHost r) p P) as C.
  destruct U as [(D & E)|(f & D & F)]; unfold domain in D; rewrite D.
  - rewrite E. cbn [bs_eqb]. replace (bs_eqb [] []) with true by reflexivity. cbv beta iota. tauto.
  - cbv beta iota. rewrite F. tauto.
Qed.
Lemma default_domain cfg r n : ordinary r -> names (wHost r) n -> domain cfg n = None -> pxDefault cfg <> [] -> plain (pxDefault cfg) ->
  proxyHandle cfg r = proxyHandle cfg (mkWreq (wPath r) (pxDefault cfg) false).
Proof.
  intros O N D E P. rewrite (ordinary_start _ _ O), ordinary_start by (destruct O as (A & _ & B); repeat split; assumption).
  cbv zeta. rewrite (split_names _ _ N). unfold domain in D. rewrite D. apply bs_eqb_neq in E. rewrite E. cbn [wHost wPath].
  rewrite (split_names (pxDefault cfg) (pxDefault cfg)) by (left; split; [exact P|left; reflexivity]).
  unfold withPort. rewrite hasByte_no by apply P.
  destruct (aget bs_eqb (pxDomains cfg) (pxDefault cfg)) eqn:F; reflexivity.
Qed.
Lemma never_own cfg r h a : (exists p, wPath r = x2f :: p) -> (pxDefault cfg = [] \/ plain (pxDefault cfg)) -> proxyHandle cfg r = AForward h -> address h a -> ~ In a (pxDeny cfg).
Proof.
  intros (p & P) PD H A. apply address_fun in A. subst a. unfold proxyHandle in H.
  destruct (bs_eqb (wPath r) (s2b "/proxy_to_rpc")); [discriminate H|]. destruct (wConnect r); [discriminate H|]. cbv zeta in H.
  set (host := match splitHostPort (withPort (wHost r)) with Some x => x | None => [] end) in *.
  assert (C : forall x y, cannot cfg (wPath r) x y = AForward h -> y = h /\ ~ In x (pxDeny cfg)).
  { intros x y X. destruct (cannot_spec cfg (wPath r) x y p P) as [(C1 & C2)|(C1 & C2)]; rewrite C2 in X; [discriminate X|].
    injection X as ->. tauto. }
  destruct (aget bs_eqb (pxDomains cfg) host) as [f|].
  - destruct (f (wPath r)); [discriminate H|]. destruct (C _ _ H) as (<- & K). exact K.
  - destruct (bs_eqb (pxDefault cfg) []) eqn:E.
    + destruct (C _ _ H) as (<- & K). exact K.
    + apply bs_eqb_neq in E. destruct PD as [PD|PD]; [contradiction|].
      assert (W : withPort (pxDefault cfg) = pxDefault cfg ++ s2b ":80") by (unfold withPort; rewrite hasByte_no by apply PD; reflexivity).
      destruct (aget bs_eqb (pxDomains cfg) (pxDefault cfg)) as [f|].
      * destruct (f (wPath r)); [discriminate H|]. destruct (C _ _ H) as (<- & K). rewrite W. exact K.
      * destruct (C _ _ H) as (<- & K). rewrite W. exact K.
Qed.
Lemma always_answered c : answered (rpcProxyResult c) <> WPanic /\ answered (formResult c) <> WPanic.
Proof.
  split.
  - unfold answered. destruct (rpcProxyResult c); discriminate.
  - unfold answered. destruct (formResult c); discriminate.
Qed.
(* headers that do not use the four names leave them *)
Lemma form_atts headers : forall a k, (forall v, ~ In (k, v) headers) ->
  aget bs_eqb (fold_left (fun a kv => if bs_eqb (snd kv) [] then a else setA a (fst kv) (snd kv)) headers a) k = aget bs_eqb a k.
Proof.
  induction headers as [|[k' v'] l IH]; intros a k H; [reflexivity|]. cbn [fold_left fst snd]. rewrite IH by (intros v X; apply (H v); right; exact X).
  destruct (bs_eqb v' []); [reflexivity|]. unfold setA. rewrite (aget_aset bs_eqb bs_eqb_spec). destruct (bs_eqb k k') eqn:E; [|reflexivity].
  apply bs_eqb_spec in E. subst. exfalso. apply (H v'). left. reflexivity.
Qed.
Lemma form_request form headers : form (s2b "service") <> [] -> form (s2b "method") <> [] -> form (s2b "arg_type") = s2b "string" ->
  (forall k v, In k [MGroup; MPath; MMethod; MProxyProtocol] -> ~ In (k, v) headers) ->
  exists q, formRpc form headers = inr q /\ rqService q = form (s2b "service") /\ rqMethod q = form (s2b "method") /\ rqArg q = form (s2b "arg") /\
    aget bs_eqb (rqAtt q) MGroup = Some (form (s2b "group")) /\ aget bs_eqb (rqAtt q) MPath = Some (form (s2b "service")) /\
    aget bs_eqb (rqAtt q) MMethod = Some (form (s2b "method")) /\ aget bs_eqb (rqAtt q) MProxyProtocol = Some (s2b "motan2").
Proof.
  intros A B C D. unfold formRpc. cbv zeta. apply bs_eqb_neq in A. apply bs_eqb_neq in B. rewrite A, B, C, bs_eqb_refl. cbn [orb negb].
  eexists. split; [reflexivity|]. cbn [rqService rqMethod rqArg rqAtt]. repeat (split; [reflexivity|]).
  split; [|split; [|split]]; (rewrite form_atts; [reflexivity|intros v; apply D; cbn; tauto]).
Qed.
Lemma form_headers headers : forall a k v, NoDup (map fst headers) -> In (k, v) headers -> v <> [] ->
  aget bs_eqb (fold_left (fun a kv => if bs_eqb (snd kv) [] then a else setA a (fst kv) (snd kv)) headers a) k = Some v.
Proof.
  induction headers as [|[k' v'] l IH]; intros a k v N H V; [destruct H|]. cbn [fold_left fst snd map] in *. apply NoDup_cons_iff in N. destruct N as (N1 & N2).
  destruct H as [H|H].
  - injection H as -> ->. apply bs_eqb_neq in V. rewrite V. rewrite form_atts.
    + unfold setA. rewrite (aget_aset bs_eqb bs_eqb_spec), bs_eqb_refl. reflexivity.
    + intros x X. apply N1. apply in_map_iff. exists (k, x). split; [reflexivity|exact X].
  - apply IH; assumption.
Qed.
