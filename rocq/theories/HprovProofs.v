(* HprovProofs.v: lemmas for C86. *)
From Verif Require Import Base GoStrings GoStrings2 Strconv UrlModel UrlProofs HttpModel HttpSpec HttpProofs HprovModel HprovSpec.
From Coq Require Import Permutation.
Ltac Zify.zify_post_hook ::= idtac.

(* ------------------------------------------------------------ counting "%s" *)

Definition atHole (s : bs) : bool := hasPrefix s (s2b "%s").
Fixpoint holes (s : bs) : nat := match s with [] => 0 | _ :: r => (if atHole s then 1 else 0) + holes r end.

Lemma split_holes : forall n s, length s <= n -> length (splitFrom (s2b "%s") 0 s) = S (holes s).
Proof.
  induction n as [|n IH]; intros s L.
  - destruct s; [reflexivity|cbn in L; lia].
  - destruct s as [|x r]; [reflexivity|]. cbn [length] in L. cbn [splitFrom holes]. unfold atHole.
    destruct (hasPrefix (x :: r) (s2b "%s")) eqn:E.
    + apply hasPrefix_spec in E as (t & E). cbn in E. injection E as -> ->. cbn [length] in *.
      change (length (s2b "%s") - 1) with 1. cbn [splitFrom]. rewrite IH by lia.
      cbn [holes]. unfold atHole. cbn. reflexivity.
    + pose proof (IH r ltac:(lia)) as I. destruct (splitFrom (s2b "%s") 0 r) as [|p t]; cbn [length] in *; lia.
Qed.
Lemma count_holes s : countStr s (s2b "%s") = holes s.
Proof. unfold countStr, splitStr. rewrite (split_holes (length s)) by lia. lia. Qed.
Lemma hasPrefix_app_l s p t : hasPrefix s p = true -> hasPrefix (s ++ t) p = true.
Proof. intro H. apply hasPrefix_spec in H as (r & ->). rewrite <- app_assoc. apply hasPrefix_spec. eexists. reflexivity. Qed.
Lemma holes_app a b : holes a + holes b <= holes (a ++ b).
Proof.
  induction a as [|x a IH]; [cbn; lia|]. change ((x :: a) ++ b) with (x :: (a ++ b)). cbn [holes]. unfold atHole in *.
  destruct (hasPrefix (x :: a) (s2b "%s")) eqn:E; [|lia].
  rewrite (hasPrefix_app_l (x :: a) _ b E : hasPrefix (x :: a ++ b) (s2b "%s") = true). lia.
Qed.
Lemma holes_none s : ~ In x25 s -> holes s = 0.
Proof.
  induction s as [|x r IH]; [reflexivity|]. intro H. cbn [holes]. unfold atHole. destruct (hasPrefix (x :: r) (s2b "%s")) eqn:E.
  - apply hasPrefix_spec in E as (t & E). cbn in E. injection E as -> _. exfalso. apply H. left. reflexivity.
  - rewrite IH; [reflexivity|]. intro K. apply H. right. exact K.
Qed.
Lemma holes_contains s : contains s (s2b "%s") = false -> holes s = 0.
Proof.
  intro H. rewrite <- count_holes. unfold countStr. rewrite splitStr_none; [reflexivity|discriminate|exact H].
Qed.
Lemma holes_one a b : ~ In x25 a -> ~ In x25 b -> holes (a ++ s2b "%s" ++ b) = 1.
Proof.
  intros Ha Hb. induction a as [|x r IH].
  - cbn. rewrite holes_none by exact Hb. destruct b; reflexivity.
  - change ((x :: r) ++ s2b "%s" ++ b) with (x :: (r ++ s2b "%s" ++ b)). cbn [holes]. unfold atHole.
    destruct (hasPrefix (x :: r ++ s2b "%s" ++ b) (s2b "%s")) eqn:E.
    + apply hasPrefix_spec in E as (t & E). cbn in E. injection E as -> _. exfalso. apply Ha. left. reflexivity.
    + rewrite IH; [reflexivity|]. intro K. apply Ha. right. exact K.
Qed.
Lemma two_holes_iff s : 2 <= holes s <-> two_holes s.
Proof.
  split.
  - intro H. rewrite <- count_holes in H. unfold countStr in H. pose proof (joinStr_split (s2b "%s") s ltac:(discriminate)) as J.
    destruct (splitStr (s2b "%s") s) as [|a [|b [|c l]]]; cbn [length] in H; try lia.
    exists a, b, (joinStr (s2b "%s") (c :: l)). rewrite <- J. reflexivity.
  - intros (a & b & c & ->). pose proof (holes_app a (s2b "%s" ++ b ++ s2b "%s" ++ c)).
    pose proof (holes_app (s2b "%s") (b ++ s2b "%s" ++ c)). pose proof (holes_app b (s2b "%s" ++ c)). pose proof (holes_app (s2b "%s") c).
    change (holes (s2b "%s")) with 1 in *. lia.
Qed.

(* ------------------------------------------------------------ the configuration *)

Definition inner (m : list (bs * strmap)) (e : bs * strmap) := fold_left (fun m x => aset bs_eqb m x (snd e)) (trimSplit (fst e) (s2b ",")) m.
Lemma inner_get sc ks : forall m k, aget bs_eqb (fold_left (fun (m : list (bs * strmap)) x => aset bs_eqb m x sc) ks m) k =
  if existsb (bs_eqb k) ks then Some sc else aget bs_eqb m k.
Proof.
  induction ks as [|x ks IH]; intros m k; [reflexivity|]. cbn [fold_left existsb]. rewrite IH.
  rewrite (aget_aset bs_eqb bs_eqb_spec). destruct (bs_eqb k x); cbn [orb]; destruct (existsb (bs_eqb k) ks); reflexivity.
Qed.
Lemma existsb_In k ks : existsb (bs_eqb k) ks = true <-> In k ks.
Proof.
  rewrite existsb_exists. split; [intros (x & H & E); apply bs_eqb_spec in E as ->; exact H|intro H; exists k; split; [exact H|apply bs_eqb_spec; reflexivity]].
Qed.
Lemma loadConf_some info : forall m k,
  (forall n1 c1 n2 c2, In (n1, c1) info -> In (n2, c2) info -> listed n1 k -> listed n2 k -> c1 = c2) ->
  forall names sc, In (names, sc) info -> listed names k -> aget bs_eqb (fold_left inner info m) k = Some sc.
Proof.
  assert (G : forall info m k sc, (aget bs_eqb m k = Some sc \/ exists names, In (names, sc) info /\ listed names k) ->
    (forall n c, In (n, c) info -> listed n k -> c = sc) -> aget bs_eqb (fold_left inner info m) k = Some sc).
  { clear. induction info as [|[n c] info IH]; intros m k sc H U.
    - destruct H as [H|(n & [] & _)]. exact H.
    - cbn [fold_left]. apply IH.
      + unfold inner at 1. cbn [fst snd]. rewrite inner_get. destruct (existsb (bs_eqb k) (trimSplit n (s2b ","))) eqn:E.
        * left. f_equal. apply (U n); [left; reflexivity|]. apply existsb_In. exact E.
        * destruct H as [H|(n' & [X|H] & L)]; [left; exact H| |right; eauto].
          injection X as <- <-. unfold listed in L. apply existsb_In in L. congruence.
      + intros n' c' Hi. apply (U n' c'). right. exact Hi. }
  intros m k U names sc Hi L. apply G; [right; eauto|]. intros n c Hn Ln. eapply U; eassumption.
Qed.
Lemma loadConf_none info : forall m k, aget bs_eqb m k = None -> (forall n c, In (n, c) info -> ~ listed n k) -> aget bs_eqb (fold_left inner info m) k = None.
Proof.
  induction info as [|[n c] info IH]; intros m k H U; [exact H|]. cbn [fold_left]. apply IH.
  - unfold inner. cbn [fst snd]. rewrite inner_get. destruct (existsb (bs_eqb k) (trimSplit n (s2b ","))) eqn:E; [|exact H].
    exfalso. apply (U n c); [left; reflexivity|]. apply existsb_In. exact E.
  - intros n' c' Hi. apply (U n' c'). right. exact Hi.
Qed.
Lemma loadSrv_get sec : NoDup (map fst sec) -> forall m id, aget bs_eqb (fold_left (fun (m : srvMap) e => aset bs_eqb m (fst e) (loadConf (snd e))) sec m) id =
  match aget bs_eqb sec id with Some info => Some (loadConf info) | None => aget bs_eqb m id end.
Proof.
  induction sec as [|[i info] sec IH]; intros N m id; [reflexivity|]. cbn [map fst] in N. inversion N as [|? ? N1 N2]; subst. cbn [fold_left fst snd aget].
  rewrite IH by exact N2. rewrite (aget_aset bs_eqb bs_eqb_spec). destruct (bs_eqb id i) eqn:E.
  - apply bs_eqb_spec in E as ->. destruct (aget bs_eqb sec i) eqn:A; [|reflexivity].
    apply (aget_In bs_eqb bs_eqb_spec) in A. exfalso. apply N1. apply (in_map fst) in A. exact A.
  - reflexivity.
Qed.
Lemma settings_ok sec u method sc : clear_section sec -> settings_of sec u method sc -> confOf (loadSrv sec) u method = sc.
Proof.
  intros [N U] H. unfold confOf, loadSrv. fold (conf_id u). rewrite (loadSrv_get sec N). destruct H as [[H ->]|(info & Hi & H)].
  - rewrite (proj2 (aget_None bs_eqb bs_eqb_spec sec (conf_id u)) H). reflexivity.
  - rewrite (In_aget bs_eqb bs_eqb_spec sec (conf_id u) info N Hi). cbv zeta in H.
    assert (S1 : forall k c names, In (names, c) info -> listed names k -> aget bs_eqb (loadConf info) k = Some c).
    { intros k c names Hn L. unfold loadConf. eapply (loadConf_some info); [|exact Hn|exact L]. intros n1 c1 n2 c2 I1 I2. apply (U _ _ Hi n1 c1 n2 c2 k I1 I2). }
    assert (S0 : forall k, (forall c, ~ exists names, In (names, c) info /\ listed names k) -> aget bs_eqb (loadConf info) k = None).
    { intros k Hn. unfold loadConf. apply (loadConf_none info); [reflexivity|]. intros n c I L. apply (Hn c). eauto. }
    destruct H as [(names & Hn & L)|(No & [(names & Hn & L)|(No2 & ->)])].
    + rewrite (S1 _ _ _ Hn L). reflexivity.
    + rewrite (S0 _ No). rewrite (S1 _ _ _ Hn L). reflexivity.
    + rewrite (S0 _ No), (S0 _ No2). reflexivity.
Qed.

(* ------------------------------------------------------------ url and method *)

Lemma buildReqURL_ok spf u sec sc mix mt q : clear_section sec -> settings_of sec u (q_method q) sc -> simple_format (url_format u sc) ->
  exists addr, buildReqURL spf (p_srv (newHprov u sec mix mt)) u (p_defMethod (newHprov u sec mix mt)) q = inl (addr, http_method u sc q) /\
    stands_for (url_format u sc) (q_method q) addr.
Proof.
  intros C S F. unfold buildReqURL. cbn [newHprov p_srv p_defMethod]. rewrite (settings_ok sec u (q_method q) sc C S).
  assert (Em : http_method u sc q = match aget bs_eqb (q_att q) (s2b "HTTP_Method") with Some m => m | None =>
     match aget bs_eqb sc (s2b "HTTP_REQUEST_METHOD") with Some m => m | None => match pget (uParams u) (s2b "HTTP_REQUEST_METHOD") with Some m => m | None => s2b "GET" end end end).
  { unfold http_method. cbn [first_of]. destruct (aget bs_eqb (q_att q) _); [reflexivity|]. destruct (aget bs_eqb sc _); [reflexivity|]. destruct (pget _ _); reflexivity. }
  assert (Ef : match aget bs_eqb sc (s2b "URL_FORMAT") with Some f => f | None => pgetD (uParams u) (s2b "URL_FORMAT") end = url_format u sc).
  { unfold url_format, pgetD. cbn [first_of]. destruct (aget bs_eqb sc _); [reflexivity|]. destruct (pget _ _); reflexivity. }
  cbv zeta. rewrite Ef, <- Em. rewrite count_holes. destruct F as [F|(a & b & F & Ha & Hb)].
  - rewrite (holes_contains _ F). exists (url_format u sc). split; [reflexivity|]. left. auto.
  - rewrite F. rewrite (holes_one a b Ha Hb). exists (a ++ q_method q ++ b). split.
    + cbn [Nat.ltb Nat.leb]. unfold sprintf1. change (s2b "%s" ++ b) with (x25 :: x73 :: b). rewrite splitOn_app by exact Ha.
      rewrite splitOn_none; [reflexivity|]. intros [K|K]; [discriminate K|contradiction].
    + right. exists a, b. auto.
Qed.
Lemma buildReqURL_two spf u sec sc mix mt q : clear_section sec -> settings_of sec u (q_method q) sc -> two_holes (url_format u sc) ->
  buildReqURL spf (p_srv (newHprov u sec mix mt)) u (p_defMethod (newHprov u sec mix mt)) q = inr (s2b "Get err URL_FORMAT: " ++ url_format u sc).
Proof.
  intros C S F. unfold buildReqURL. cbn [newHprov p_srv p_defMethod]. rewrite (settings_ok sec u (q_method q) sc C S).
  assert (Ef : match aget bs_eqb sc (s2b "URL_FORMAT") with Some f => f | None => pgetD (uParams u) (s2b "URL_FORMAT") end = url_format u sc).
  { unfold url_format, pgetD. cbn [first_of]. destruct (aget bs_eqb sc _); [reflexivity|]. destruct (pget _ _); reflexivity. }
  cbv zeta. rewrite Ef. rewrite count_holes. apply two_holes_iff in F. replace (1 <? holes (url_format u sc)) with true; [reflexivity|].
  symmetry. apply Nat.ltb_lt. lia.
Qed.

(* ------------------------------------------------------------ arguments *)

Lemma mixArgs_get mix att : forall m k, aget bs_eqb (mixArgs mix att m) k =
  match aget bs_eqb m k with Some v => Some v | None => if existsb (bs_eqb k) mix then aget bs_eqb att k else None end.
Proof.
  induction mix as [|x mix IH]; intros m k; [cbn; destruct (aget bs_eqb m k); reflexivity|].
  unfold mixArgs in *. cbn [fold_left existsb]. rewrite IH. destruct (aget bs_eqb m x) eqn:Ex.
  - destruct (bs_eqb k x) eqn:E; cbn [orb]; [|reflexivity]. apply bs_eqb_spec in E as ->. rewrite Ex. reflexivity.
  - destruct (aget bs_eqb att x) eqn:Ea.
    + rewrite (aget_aset bs_eqb bs_eqb_spec). destruct (bs_eqb k x) eqn:E; cbn [orb]; [|reflexivity].
      apply bs_eqb_spec in E as ->. rewrite Ex, Ea. reflexivity.
    + destruct (bs_eqb k x) eqn:E; cbn [orb]; [|reflexivity]. apply bs_eqb_spec in E as ->. rewrite Ex.
      rewrite Ea. destruct (existsb (bs_eqb x) mix); reflexivity.
Qed.
Lemma mixArgs_nodup mix att : forall m : strmap, NoDup (akeys m) -> NoDup (akeys (mixArgs mix att m)).
Proof.
  induction mix as [|x mix IH]; intros m N; [exact N|]. unfold mixArgs in *. cbn [fold_left]. apply IH.
  destruct (aget bs_eqb m x); [exact N|]. destruct (aget bs_eqb att x); [|exact N]. apply NoDup_aset; [exact bs_eqb_spec|exact N].
Qed.
Lemma mixArgs_carries m mix att ord : NoDup (map fst m) -> any_order ord -> carries m mix att (ord (mixArgs mix att m)).
Proof.
  intros N O. assert (N' : NoDup (akeys (mixArgs mix att m))) by (apply mixArgs_nodup; exact N). split.
  - apply (Permutation_NoDup (l := map fst (mixArgs mix att m))); [|exact N']. apply Permutation_sym, Permutation_map, O.
  - intros k v. assert (P : In (k, v) (ord (mixArgs mix att m)) <-> In (k, v) (mixArgs mix att m)).
    { split; apply Permutation_in; [apply O|apply Permutation_sym, O]. }
    rewrite P. assert (Q : In (k, v) (mixArgs mix att m) <-> aget bs_eqb (mixArgs mix att m) k = Some v).
    { split; [apply (In_aget bs_eqb bs_eqb_spec); exact N'|apply (aget_In bs_eqb bs_eqb_spec)]. }
    rewrite Q, mixArgs_get. destruct (aget bs_eqb m k) as [w|] eqn:E.
    + split; [intros [= ->]; left; reflexivity|]. intros [H|(H & _)]; [exact H|discriminate H].
    + destruct (existsb (bs_eqb k) mix) eqn:X.
      * apply existsb_In in X. split; [intro H; right; auto|]. intros [H|(_ & _ & H)]; [discriminate H|exact H].
      * split; [discriminate|]. intros [H|(_ & H & _)]; [discriminate H|]. apply existsb_In in H. congruence.
Qed.

Lemma escape_digits s : Forall isDigit s -> queryEscape s = s.
Proof.
  induction 1 as [|c s D _ IH]; [reflexivity|]. unfold queryEscape in *. cbn [flat_map]. rewrite IH.
  assert (E : escapeByte c = [c]); [|rewrite E; reflexivity].
  destruct D as (d & D). unfold digitOf in D. destruct (N.leb 48 (b2n c) && N.leb (b2n c) 57)%N eqn:X; [|discriminate D].
  unfold escapeByte, unreserved. cbv zeta. rewrite X. reflexivity.
Qed.
Lemma query_body q l : s2b "requestIdFromClient" ++ s2b "=" ++ fmtN (q_id q) ++ formBody l = tl (formBody (id_pair q :: l)).
Proof.
  unfold formBody at 2. cbn [flat_map id_pair fst snd]. fold (formBody l). rewrite (escape_digits (fmtN (q_id q))) by apply fmtN_spec.
  rewrite <- !app_assoc. cbn [tl app s2b]. reflexivity.
Qed.
Lemma plain_id q : plain_arg (fst (id_pair q)).
Proof. cbn [id_pair fst]. unfold plain_arg, plain_name. repeat split; intro K; vm_compute in K; intuition discriminate. Qed.
Lemma query_parse q l : Forall (fun kv => plain_name (fst kv)) l ->
  parse_form (s2b "requestIdFromClient" ++ s2b "=" ++ fmtN (q_id q) ++ formBody l) = Some (id_pair q :: l).
Proof.
  intro H. rewrite query_body. destruct (form_roundtrip (id_pair q) l) as (body & -> & P).
  - constructor; [apply plain_id|exact H].
  - exact P.
Qed.

(* bytes of an escaped string *)
Lemma escapeByte_bytes c x : In x (escapeByte c) -> unreserved x = true \/ x = x2b \/ x = x25.
Proof.
  intro H. assert (A : forallb (fun c => forallb (fun x => unreserved x || byte_eqb x x2b || byte_eqb x x25) (escapeByte c)) (map n2b (map N.of_nat (seq 0 256))) = true)
    by (vm_compute; reflexivity).
  pose proof (all_bytes _ A c) as B. cbv beta in B. rewrite forallb_forall in B. specialize (B x H).
  apply orb_true_iff in B as [B|B]; [apply orb_true_iff in B as [B|B]; [left; exact B|]|]; apply byte_eqb_spec in B; auto.
Qed.
Lemma escape_bytes s x : In x (queryEscape s) -> x <> x23 /\ x <> x3b /\ x <> x26 /\ x <> x3d /\ x <> x3f.
Proof.
  intro H. unfold queryEscape in H. apply in_flat_map in H as (c & _ & H). apply escapeByte_bytes in H as [H|[ ->| ->]]; [|repeat split; discriminate|repeat split; discriminate].
  repeat split; intros ->; discriminate H.
Qed.
Lemma formBody_bytes l : Forall (fun kv => plain_arg (fst kv)) l -> ~ In x23 (formBody l) /\ ~ In x3b (formBody l).
Proof.
  intro H. split; intro K; unfold formBody in K; apply in_flat_map in K as ((k, v) & Hi & K); rewrite Forall_forall in H; specialize (H _ Hi); cbn [fst snd] in *;
    destruct H as (_ & P & Q); apply in_app_or in K as [[K|[]]|K]; try discriminate K;
    apply in_app_or in K as [K|K]; try contradiction; apply in_app_or in K as [[K|[]]|K]; try discriminate K;
    apply escape_bytes in K; intuition congruence.
Qed.
Lemma query_bytes q l : Forall (fun kv => plain_arg (fst kv)) l ->
  let qs := s2b "requestIdFromClient" ++ s2b "=" ++ fmtN (q_id q) ++ formBody l in ~ In x23 qs /\ ~ In x3b qs.
Proof.
  intros H qs. unfold qs. rewrite query_body. destruct (formBody_bytes (id_pair q :: l)) as [A B].
  - constructor; [apply plain_id|exact H].
  - split; intro K; [apply A|apply B]; destruct (formBody (id_pair q :: l)); [destruct K|right; exact K|destruct K|right; exact K].
Qed.
Lemma cut_none c s : ~ In c s -> cut c s = (s, []).
Proof.
  induction s as [|x r IH]; [reflexivity|]. intro H. cbn [cut]. destruct (byte_eqb x c) eqn:E.
  - apply byte_eqb_spec in E as ->. exfalso. apply H. left. reflexivity.
  - rewrite IH; [reflexivity|]. intro K. apply H. right. exact K.
Qed.
Lemma url_query_ok addr qs : ~ In x3f addr -> ~ In x23 addr -> ~ In x23 qs -> url_query (addr ++ s2b "?" ++ qs) = qs.
Proof.
  intros A B C. unfold url_query. rewrite (cut_none x23).
  - cbn [fst]. change (s2b "?" ++ qs) with (x3f :: qs). rewrite cut_app by exact A. reflexivity.
  - intro K. apply in_app_or in K as [K|[K|K]]; [contradiction|discriminate K|contradiction].
Qed.

(* posting *)
Lemma map_semicolon s : ~ In x3b s -> map (fun c => if byte_eqb c x3b then x26 else c) s = s.
Proof.
  induction s as [|x r IH]; [reflexivity|]. intro H. cbn [map]. rewrite IH by (intro K; apply H; right; exact K).
  destruct (byte_eqb x x3b) eqn:E; [|reflexivity]. apply byte_eqb_spec in E as ->. exfalso. apply H. left. reflexivity.
Qed.
Lemma parse_pieces : forall ps l, all_some (map (fun p => let '(k, v) := cut x3d p in
     match unescape k, unescape v with Some a, Some b => Some (a, b) | _, _ => None end) ps) = Some l -> ~ In [] ps ->
  flat_map (fun p => if bs_empty p then [] else let '(k, v) := cut x3d p in
     match unescape k, unescape v with Some a, Some b => [(a, b)] | _, _ => [] end) ps = l.
Proof.
  induction ps as [|p ps IH]; intros l H N; [cbn in *; congruence|]. cbn [map flat_map all_some] in *.
  destruct p as [|c p]; [exfalso; apply N; left; reflexivity|]. cbn [bs_empty].
  destruct (cut x3d (c :: p)) as [k v]. destruct (unescape k) as [a|]; [|discriminate H]. destruct (unescape v) as [b|]; [|discriminate H].
  destruct (all_some _) as [t|] eqn:E; [|discriminate H]. injection H as <-. cbn [app]. f_equal. apply IH; [reflexivity|].
  intro K. apply N. right. exact K.
Qed.
Lemma parseQuery_form s l : parse_form s = Some l -> ~ In x3b s -> ~ In [] (splitOn x26 s) -> parseQuery s = l.
Proof. intros H N E. unfold parseQuery. rewrite map_semicolon by exact N. apply parse_pieces; assumption. Qed.
Lemma query_pieces q l : Forall (fun kv => plain_name (fst kv)) l ->
  ~ In [] (splitOn x26 (s2b "requestIdFromClient" ++ s2b "=" ++ fmtN (q_id q) ++ formBody l)).
Proof.
  intro H. rewrite query_body, formBody_parts. cbn [flat_map app tl].
  replace (flat_map (fun kv => x26 :: formPart kv) l) with (flat_map (fun p => x26 :: p) (map formPart l)).
  - rewrite split_parts.
    + rewrite <- map_cons. intro K. apply in_map_iff in K as (x & K & _). unfold formPart in K. apply app_eq_nil in K as [_ K]. discriminate K.
    + rewrite <- map_cons. rewrite Forall_forall. intros p Hp. apply in_map_iff in Hp as (x & <- & Hx).
      assert (Px : plain_name (fst x)).
      { destruct Hx as [<-|Hx]; [apply plain_id|]. rewrite Forall_forall in H. apply H. exact Hx. }
      destruct Px as (K1 & _). unfold formPart. intro K. apply in_app_or in K as [K|[K|K]]; [contradiction|discriminate K|].
      exact (proj1 (queryEscape_clean (snd x)) K).
  - clear. induction l as [|x m IH]; [reflexivity|]. cbn [map flat_map]. rewrite IH. reflexivity.
Qed.
Lemma insertKV_perm x l : Permutation (insertKV x l) (x :: l).
Proof.
  induction l as [|y r IH]; [reflexivity|]. cbn [insertKV]. destruct (bs_leb (fst x) (fst y)); [reflexivity|].
  rewrite IH. apply perm_swap.
Qed.
Lemma sortKV_perm l : Permutation (sortKV l) l.
Proof. induction l as [|x l IH]; [reflexivity|]. cbn [sortKV fold_right]. fold (sortKV l). rewrite insertKV_perm, IH. reflexivity. Qed.
Lemma encode_parse l : l <> [] -> parse_form (encodeForm l) = Some (sortKV l).
Proof.
  intro H. unfold parse_form, encodeForm. rewrite splitOn_join.
  - rewrite map_map. generalize (sortKV l). clear. intro z. induction z as [|[k v] z IH]; [reflexivity|]. cbn [map fst snd].
    rewrite cut_app by (apply queryEscape_clean). rewrite !unescape_escape. cbn [all_some]. rewrite IH. reflexivity.
  - intro E. apply map_eq_nil in E. apply H. apply Permutation_nil. rewrite <- E. apply sortKV_perm.
  - rewrite Forall_forall. intros p Hp. apply in_map_iff in Hp as ([k v] & <- & _). cbn [fst snd]. intro K.
    apply in_app_or in K as [K|[K|K]]; [|discriminate K|]; apply escape_bytes in K; intuition congruence.
Qed.

(* ------------------------------------------------------------ header names *)

Lemma lower_facts c : upper (lower c) = upper c /\ lower (lower c) = lower c /\ lower (upper c) = lower c /\
  byte_eqb (lower c) x2d = byte_eqb c x2d /\ isTokenByte (lower c) = isTokenByte c.
Proof.
  assert (A : forallb (fun c => byte_eqb (upper (lower c)) (upper c) && byte_eqb (lower (lower c)) (lower c) && byte_eqb (lower (upper c)) (lower c)
     && Bool.eqb (byte_eqb (lower c) x2d) (byte_eqb c x2d) && Bool.eqb (isTokenByte (lower c)) (isTokenByte c)) (map n2b (map N.of_nat (seq 0 256))) = true)
    by (vm_compute; reflexivity).
  pose proof (all_bytes _ A c) as B. cbv beta in B. repeat (apply andb_true_iff in B as [B ?]).
  repeat match goal with H : byte_eqb _ _ = true |- _ => apply byte_eqb_spec in H | H : Bool.eqb _ _ = true |- _ => apply Bool.eqb_prop in H end. auto.
Qed.
Lemma title_lower s : forall up, title up (map lower s) = title up s.
Proof.
  induction s as [|c s IH]; intro up; [reflexivity|]. cbn [map title]. destruct (lower_facts c) as (A & B & _ & D & _). rewrite A, B, D, IH. reflexivity.
Qed.
Lemma lower_title s : forall up, map lower (title up s) = map lower s.
Proof.
  induction s as [|c s IH]; intro up; [reflexivity|]. cbn [map title]. destruct (lower_facts c) as (_ & B & C & _). rewrite IH. destruct up; [rewrite C|rewrite B]; reflexivity.
Qed.
Lemma token_lower s : forallb isTokenByte (map lower s) = forallb isTokenByte s.
Proof. induction s as [|c s IH]; [reflexivity|]. cbn [map forallb]. destruct (lower_facts c) as (_ & _ & _ & _ & E). rewrite E, IH. reflexivity. Qed.
Lemma xff_same k : bs_eqb (title true k) XFF = true <-> same_header k XFF.
Proof.
  rewrite bs_eqb_spec. unfold same_header. split; intro H.
  - rewrite <- (lower_title k true), H. reflexivity.
  - rewrite <- title_lower, H, title_lower. reflexivity.
Qed.
Lemma xff_canon k : bs_eqb (canonKey k) (canonKey XFF) = true <-> same_header k XFF.
Proof.
  change (canonKey XFF) with XFF. unfold canonKey. destruct (forallb isTokenByte k) eqn:E; [apply xff_same|].
  rewrite bs_eqb_spec. split; [intros ->; discriminate E|]. intro H. exfalso. rewrite <- token_lower, H in E. discriminate E.
Qed.
Lemma headerName_plain k : contains k (s2b "M_") = false -> headerName k = k.
Proof. intro H. unfold headerName, replaceAll. rewrite splitStr_none; [reflexivity|discriminate|exact H]. Qed.
Lemma headerName_inner r : contains r (s2b "M_") = false -> headerName (s2b "M_" ++ r) = s2b "MOTAN-" ++ r.
Proof. intro H. unfold headerName. rewrite replaceAll_hit by discriminate. f_equal. exact (headerName_plain r H). Qed.
Lemma headerName_sent k n : sent_as k n -> headerName k = n.
Proof. intros [[H ->]|(r & -> & H & ->)]; [apply headerName_plain|apply headerName_inner]; exact H. Qed.
Lemma clientIp_addr q : clientIp (q_att q) = client_addr q.
Proof.
  unfold clientIp, client_addr, pgetD. cbn [first_of pget]. destruct (aget bs_eqb (q_att q) (s2b "remoteIP")); [reflexivity|].
  destruct (aget bs_eqb (q_att q) (s2b "host")); reflexivity.
Qed.
Definition renamed (q : mreq) : strmap := map (fun kv => (headerName (fst kv), snd kv)) (q_att q).

(* ------------------------------------------------------------ calls *)

Section W.
Context (spf : bs -> bs -> bs) (ord : strmap -> strmap) (newReq : bs -> bs -> option bs) (world : sent -> wres)
        (hasXff : bs -> bool) (rawHeader : Z -> strmap -> bs) (queryOf : sent -> bs) (qget : bs -> bs -> bs).
Notation hcallM := (httpCall spf ord newReq world hasXff rawHeader queryOf qget).
Notation xcallM := (httpxCall spf ord world).
Notation fmtM := (doFormat spf ord newReq world).

Lemma direct_call u sec mix mt q : direct u q -> hcallM (newHprov u sec mix mt) q = fmtM (newHprov u sec mix mt) q (clientIp (q_att q)).
Proof.
  intros [D1 D2]. unfold httpCall. cbn [newHprov p_proxy]. rewrite D1. cbn [bs_empty]. unfold boolOr.
  destruct (parseBool (pgetD (Some (q_att q)) (s2b "HTTP_PROXY"))) as [[]|]; [congruence|reflexivity|reflexivity].
Qed.

Definition http_hs (q : mreq) (ip : bs) : strmap :=
  let hs := (s2b "Content-Type", s2b "application/x-www-form-urlencoded") :: renamed q in
  if bs_empty (headerGet hs XFF) then hs ++ [(XFF, ip)] else hs.
Definition httpx_hs (q : mreq) (m : bs) : strmap :=
  let hs := (if bs_eqb m (s2b "POST") then [(s2b "Content-Type", s2b "application/x-www-form-urlencoded")] else [])
            ++ filter (fun h => negb (bs_eqb (fst h) (s2b "host"))) (renamed q) in
  if existsb (fun h => bs_eqb (title true (fst h)) XFF) hs then hs else hs ++ [(XFF, clientIp (q_att q))].

Lemma sends_http u sec sc mix mt q args qs : clear_section sec -> settings_of sec u (q_method q) sc -> simple_format (url_format u sc) -> direct u q ->
  q_args q = DOk args -> buildQueryStr ord q args mix = Some qs -> (forall m a, newReq m a = None) ->
  exists addr, stands_for (url_format u sc) (q_method q) addr /\
    fst (hcallM (newHprov u sec mix mt) q) =
      [SFormat (http_method u sc q) (fst (place (http_method u sc q) addr qs)) (http_hs q (clientIp (q_att q))) (snd (place (http_method u sc q) addr qs))].
Proof.
  intros C S F D A B N. rewrite (direct_call u sec mix mt q D). unfold doFormat. rewrite A.
  destruct (buildReqURL_ok spf u sec sc mix mt q C S F) as (addr & E & St).
  exists addr. split; [exact St|]. cbn [newHprov p_srv p_url p_defMethod p_mix] in *. rewrite E, B.
  destruct (place (http_method u sc q) addr qs) as [a b]. cbn [fst snd]. rewrite N. reflexivity.
Qed.
Lemma sends_httpx u sec sc mix mt q args qs : clear_section sec -> settings_of sec u (q_method q) sc -> simple_format (url_format u sc) ->
  q_args q = DOk args -> buildQueryStr ord q args mix = Some qs ->
  exists addr, stands_for (url_format u sc) (q_method q) addr /\
    fst (xcallM (newHprov u sec mix mt) q) =
      [SFormat (http_method u sc q) (fst (place (http_method u sc q) addr qs)) (httpx_hs q (http_method u sc q)) (snd (place (http_method u sc q) addr qs))].
Proof.
  intros C S F A B. unfold httpxCall. rewrite A.
  destruct (buildReqURL_ok spf u sec sc mix mt q C S F) as (addr & E & St).
  exists addr. split; [exact St|]. cbn [newHprov p_srv p_url p_defMethod p_mix] in *. rewrite E, B.
  destruct (place (http_method u sc q) addr qs) as [a b]. reflexivity.
Qed.

Lemma place_get addr qs : place (s2b "GET") addr qs = (addr ++ s2b "?" ++ qs, None).
Proof. reflexivity. Qed.
Lemma place_post addr qs : place (s2b "POST") addr qs = (addr, Some (encodeForm (parseQuery qs))).
Proof. reflexivity. Qed.
Lemma place_other m addr qs : m <> s2b "GET" -> m <> s2b "POST" -> place m addr qs = (addr, None).
Proof. intros A B. unfold place. apply bs_eqb_neq in A. apply bs_eqb_neq in B. rewrite A, B. reflexivity. Qed.

(* the arguments as the receiver reads them *)
Lemma args_get q m mix rest addr : any_order ord -> NoDup (map fst m) -> (forall k, In k (map fst m) \/ In k mix -> plain_arg k) ->
  ~ In x3f addr -> ~ In x23 addr ->
  exists qs l, buildQueryStr ord q (ArgMap m :: rest) mix = Some qs /\ carries m mix (q_att q) l /\
    parse_form (url_query (addr ++ s2b "?" ++ qs)) = Some (id_pair q :: l) /\
    Permutation (sortKV (id_pair q :: l)) (id_pair q :: l) /\ parse_form (encodeForm (parseQuery qs)) = Some (sortKV (id_pair q :: l)).
Proof.
  intros O N P A1 A2. set (l := ord (mixArgs mix (q_att q) m)).
  assert (Ca : carries m mix (q_att q) l) by (apply mixArgs_carries; assumption).
  assert (Pl : Forall (fun kv => plain_arg (fst kv)) l).
  { rewrite Forall_forall. intros [k v] Hi. cbn [fst]. apply P. apply Ca in Hi as [Hi|(_ & Hi & _)]; [left|right; exact Hi].
    apply (aget_In bs_eqb bs_eqb_spec) in Hi. apply (in_map fst) in Hi. exact Hi. }
  assert (Pn : Forall (fun kv => plain_name (fst kv)) l).
  { rewrite Forall_forall in *. intros x Hx. apply Pl. exact Hx. }
  exists (s2b "requestIdFromClient" ++ s2b "=" ++ fmtN (q_id q) ++ formBody l), l.
  split; [|split; [exact Ca|split; [|split; [apply sortKV_perm|]]]].
  - cbn [buildQueryStr]. fold l. rewrite <- !app_assoc. reflexivity.
  - rewrite url_query_ok; [|exact A1|exact A2|apply query_bytes; exact Pl]. apply query_parse. exact Pn.
  - rewrite (parseQuery_form _ (id_pair q :: l)); [|apply query_parse; exact Pn|apply query_bytes; exact Pl|apply query_pieces; exact Pn].
    apply encode_parse. discriminate.
Qed.

(* at most one request *)
Lemma once_http p q : length (fst (hcallM p q)) <= 1.
Proof.
  unfold httpCall. destruct (boolOr _ false).
  - unfold doTransparent. destruct (q_pair q) as [e|[hb b]]; [cbn; lia|]. destruct (rewritePath _ _ _ _); cbn; lia.
  - destruct (bs_empty (p_proxy p)).
    + unfold doFormat. destruct (q_args q); [cbn; lia|]. destruct (buildReqURL _ _ _ _ _) as [[? ?]|]; [|cbn; lia].
      destruct (buildQueryStr _ _ _ _); [|cbn; lia]. destruct (place _ _ _) as [? ?]. destruct (newReq _ _); cbn; lia.
    + unfold doProxy. destruct (q_args q); [cbn; lia|]. destruct (toHttp _ _ _); [|cbn; lia|cbn; lia]. destruct (rewritePath _ _ _ _); cbn; lia.
Qed.
Lemma once_httpx p q : length (fst (xcallM p q)) <= 1.
Proof.
  clear newReq hasXff rawHeader queryOf qget.
  unfold httpxCall. destruct (q_args q); [cbn; lia|]. destruct (buildReqURL _ _ _ _ _) as [[? ?]|]; [|cbn; lia].
  destruct (buildQueryStr _ _ _ _); [|cbn; lia]. destruct (place _ _ _) as [? ?]. cbn. lia.
Qed.

Lemma exc_on u sec mix mt st : p_exc (newHprov u sec mix mt) && (400 <=? st)%Z = true <-> status_fails u st.
Proof.
  cbn [newHprov p_exc]. unfold status_fails, boolOr. rewrite andb_true_iff, Z.leb_le.
  destruct (parseBool (getParam u (s2b "enableHttpException") (s2b "false"))) as [[]|]; intuition congruence.
Qed.

(* what the call answers once a request was sent *)
Lemma answer_http u sec mix mt q s r : let p := newHprov u sec mix mt in hcallM p q = ([s], Some r) ->
  a_id r = q_id q /\
  match world s with
  | WErr e => a_exc r = Some (503%Z, e, BizException) /\ a_val r = HvNone
  | WResp st h b err =>
      match s, err with
      | SFormat _ _ _ _, Some e => a_exc r = Some (st, e, 503%Z) /\ a_val r = HvNone
      | _, _ => (status_fails u st /\ a_exc r = Some (st, b, BizException) /\ a_val r = HvNone) \/
                (~ status_fails u st /\ a_exc r = None /\
                 a_val r = (match s with SFormat _ _ _ _ => HvStr b | SProxy _ _ _ _ _ => HvBytes b | STransparent _ _ _ _ _ _ => HvPair (rawHeader st h) b end) /\
                 a_att r = upstream st (match s with SFormat _ _ _ _ => setAll h (setAll (q_att q) []) | SProxy _ _ _ _ _ => setAll h [] | STransparent _ _ _ _ _ _ => [] end))
      end
  end.
Proof.
  intros p H. unfold httpCall in H. destruct (boolOr _ false).
  - unfold doTransparent in H. destruct (q_pair q) as [e|[hb b]]; [discriminate H|]. destruct (rewritePath _ _ _ _); [|discriminate H].
    cbv zeta in H. injection H as <- <-. destruct (world _) as [e|st h b' err]; [cbn; auto|].
    match goal with |- context [if ?c then fails _ _ _ else _] => destruct c eqn:E end.
    + split; [reflexivity|]. left. split; [apply (exc_on u sec mix mt); exact E|]. auto.
    + split; [reflexivity|]. right. split; [intro K; apply (exc_on u sec mix mt) in K; cbn [newHprov p_exc] in K; congruence|]. auto.
  - destruct (bs_empty (p_proxy p)).
    + unfold doFormat in H. destruct (q_args q); [discriminate H|]. destruct (buildReqURL _ _ _ _ _) as [[? ?]|]; [|discriminate H].
      destruct (buildQueryStr _ _ _ _); [|discriminate H]. destruct (place _ _ _) as [? ?]. destruct (newReq _ _); [discriminate H|].
      cbv zeta in H. injection H as <- <-. destruct (world _) as [e|st h b' [e|]]; [cbn; auto|cbn; auto|].
      match goal with |- context [if ?c then fails _ _ _ else _] => destruct c eqn:E end.
      * split; [reflexivity|]. left. split; [apply (exc_on u sec mix mt); exact E|]. auto.
      * split; [reflexivity|]. right. split; [intro K; apply (exc_on u sec mix mt) in K; cbn [newHprov p_exc] in K; congruence|]. auto.
    + unfold doProxy in H. destruct (q_args q); [discriminate H|]. destruct (toHttp _ _ _); [|discriminate H|discriminate H].
      destruct (rewritePath _ _ _ _); [|discriminate H].
      cbv zeta in H. injection H as <- <-. destruct (world _) as [e|st h b' err]; [cbn; auto|].
      match goal with |- context [if ?c then fails _ _ _ else _] => destruct c eqn:E end.
      * split; [reflexivity|]. left. split; [apply (exc_on u sec mix mt); exact E|]. auto.
      * split; [reflexivity|]. right. split; [intro K; apply (exc_on u sec mix mt) in K; cbn [newHprov p_exc] in K; congruence|]. auto.
Qed.
Lemma answer_httpx p q s r : xcallM p q = ([s], Some r) ->
  a_id r = q_id q /\
  match world s with
  | WErr e => a_exc r = Some (503%Z, e, 503%Z) /\ a_val r = HvNone
  | WResp st h b err => a_exc r = None /\ a_val r = HvStr b /\ a_att r = setAll h (setAll (q_att q) [])
  end.
Proof.
  intro H. unfold httpxCall in H. destruct (q_args q); [discriminate H|]. destruct (buildReqURL _ _ _ _ _) as [[? ?]|]; [|discriminate H].
  destruct (buildQueryStr _ _ _ _); [|discriminate H]. destruct (place _ _ _) as [? ?]. cbv zeta in H. injection H as <- <-.
  destruct (world _) as [e|st h b' err]; cbn; auto.
Qed.
(* nothing sent *)
Lemma nothing_http p q r : hcallM p q = ([], Some r) -> a_id r = q_id q /\ a_val r = HvNone /\
  exists code msg, a_exc r = Some (code, msg, BizException) /\ (code = 400 \/ code = 404 \/ code = 503)%Z.
Proof.
  intro H. unfold httpCall in H. destruct (boolOr _ false).
  - unfold doTransparent in H. destruct (q_pair q) as [e|[hb b]]; [injection H as <-; cbn; eauto 8|]. destruct (rewritePath _ _ _ _); [discriminate H|].
    injection H as <-. cbn. eauto 8.
  - destruct (bs_empty (p_proxy p)).
    + unfold doFormat in H. destruct (q_args q); [injection H as <-; cbn; eauto 8|]. destruct (buildReqURL _ _ _ _ _) as [[? ?]|]; [|injection H as <-; cbn; eauto 8].
      destruct (buildQueryStr _ _ _ _); [|discriminate H]. destruct (place _ _ _) as [? ?]. destruct (newReq _ _); [injection H as <-; cbn; eauto 8|discriminate H].
    + unfold doProxy in H. destruct (q_args q); [injection H as <-; cbn; eauto 8|]. destruct (toHttp _ _ _); [|injection H as <-; cbn; eauto 8|injection H as <-; cbn; eauto 8].
      destruct (rewritePath _ _ _ _); [discriminate H|]. injection H as <-. cbn. eauto 8.
Qed.

(* which kind of request *)
Lemma kind_http u sec mix mt q s : In s (fst (hcallM (newHprov u sec mix mt) q)) ->
  match s with
  | STransparent hb calls sch path fw body => parseBool (pgetD (Some (q_att q)) (s2b "HTTP_PROXY")) = Some true /\ q_pair q = DOk (hb, body)
  | SProxy r sch path host fw => parseBool (pgetD (Some (q_att q)) (s2b "HTTP_PROXY")) <> Some true /\ getParam u (s2b "proxyAddress") [] <> []
  | SFormat _ _ _ _ => direct u q
  end.
Proof.
  intro H. unfold httpCall in H. unfold boolOr in H. destruct (parseBool (pgetD (Some (q_att q)) (s2b "HTTP_PROXY"))) as [b|] eqn:PB.
  - destruct b.
    + unfold doTransparent in H. destruct (q_pair q) as [e|[hb b]]; [destruct H|]. destruct (rewritePath _ _ _ _); [|destruct H].
      destruct H as [<-|[]]. auto.
    + cbn [newHprov p_proxy] in H. destruct (getParam u (s2b "proxyAddress") []) eqn:G; cbn [bs_empty] in H.
      * unfold doFormat in H. destruct (q_args q); [destruct H|]. destruct (buildReqURL _ _ _ _ _) as [[? ?]|]; [|destruct H].
        destruct (buildQueryStr _ _ _ _); [|destruct H]. destruct (place _ _ _) as [? ?]. destruct (newReq _ _); [destruct H|].
        destruct H as [<-|[]]. split; [exact G|]. rewrite PB. discriminate.
      * unfold doProxy in H. destruct (q_args q); [destruct H|]. destruct (toHttp _ _ _); [|destruct H|destruct H].
        destruct (rewritePath _ _ _ _); [|destruct H]. destruct H as [<-|[]]. split; discriminate.
  - cbn [newHprov p_proxy] in H. destruct (getParam u (s2b "proxyAddress") []) eqn:G; cbn [bs_empty] in H.
    + unfold doFormat in H. destruct (q_args q); [destruct H|]. destruct (buildReqURL _ _ _ _ _) as [[? ?]|]; [|destruct H].
      destruct (buildQueryStr _ _ _ _); [|destruct H]. destruct (place _ _ _) as [? ?]. destruct (newReq _ _); [destruct H|].
      destruct H as [<-|[]]. split; [exact G|]. rewrite PB. discriminate.
    + unfold doProxy in H. destruct (q_args q); [destruct H|]. destruct (toHttp _ _ _); [|destruct H|destruct H].
      destruct (rewritePath _ _ _ _); [|destruct H]. destruct H as [<-|[]]. split; discriminate.
Qed.
End W.

(* attachments of the answer *)
Lemma setAll_get l : NoDup (map fst l) -> forall m k, aget bs_eqb (setAll l m) k = match aget bs_eqb l k with Some v => Some v | None => aget bs_eqb m k end.
Proof.
  induction l as [|[a v] l IH]; intros N m k; [reflexivity|]. cbn [map fst] in N. inversion N as [|? ? N1 N2]; subst.
  unfold setAll in *. cbn [fold_left fst snd aget]. rewrite IH by exact N2. rewrite (aget_aset bs_eqb bs_eqb_spec).
  destruct (bs_eqb k a) eqn:E; [|reflexivity]. apply bs_eqb_spec in E as ->.
  destruct (aget bs_eqb l a) eqn:A; [|reflexivity]. apply (aget_In bs_eqb bs_eqb_spec) in A. exfalso. apply N1. apply (in_map fst) in A. exact A.
Qed.
Lemma upstream_get st m k : aget bs_eqb (upstream st m) k = if bs_eqb k (s2b "upstreamCode") then Some (fmtZ st) else aget bs_eqb m k.
Proof. unfold upstream. apply (aget_aset bs_eqb bs_eqb_spec). Qed.
