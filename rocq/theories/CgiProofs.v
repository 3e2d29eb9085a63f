(* CgiProofs.v *)
From Verif Require Import Base GoStrings GoStrings2 Strconv UrlModel HttpModel HttpSpec HttpProofs HprovModel HprovSpec HprovProofs MetricModel MetricProofs CgiModel CgiSpec.
From Coq Require Import Lia Permutation.
Ltac Zify.zify_post_hook ::= idtac.

(* ------------------------------------------------------------ reading the answer *)
Lemma indexOf_pass c w x t : ~ In c x -> indexOf (x ++ t) (c :: w) = option_map (plus (length x)) (indexOf t (c :: w)).
Proof.
  induction x as [|y x IH]; intros H.
  - cbn [app length]. destruct (indexOf t (c :: w)); reflexivity.
  - cbn [app indexOf hasPrefix]. assert (E : byte_eqb y c = false) by (apply byte_eqb_neq; intros ->; apply H; left; reflexivity).
    assert (P : hasPrefix (y :: x ++ t) (c :: w) = false). { cbn. first [rewrite E; reflexivity | (rewrite byte_eqb_sym; rewrite E; reflexivity)]. }
    cbn [hasPrefix] in P. rewrite P. rewrite IH by (intros I1; apply H; right; exact I1).
    destruct (indexOf t (c :: w)); reflexivity.
Qed.
Lemma indexOf_here p t : indexOf (p ++ t) p = Some 0.
Proof. assert (P : hasPrefix (p ++ t) p = true) by (apply hasPrefix_spec; exists t; reflexivity). destruct (p ++ t); cbn [indexOf]; rewrite P; reflexivity. Qed.
Lemma index_end x t : ~ In x0d x -> indexOf (x ++ CRLF ++ CRLF ++ t) (CRLF ++ CRLF) = Some (length x).
Proof.
  intros H. change (CRLF ++ CRLF) with (x0d :: [x0a; x0d; x0a]). rewrite indexOf_pass by exact H.
  assert (E : indexOf (CRLF ++ CRLF ++ t) (x0d :: [x0a; x0d; x0a]) = Some 0) by exact (indexOf_here (CRLF ++ CRLF) t). rewrite E. cbn [option_map]. rewrite Nat.add_0_r. reflexivity.
Qed.
Lemma index_next x y t : ~ In x0d x -> y <> [] -> ~ In x0d y ->
  indexOf (x ++ CRLF ++ y ++ t) (CRLF ++ CRLF) = option_map (plus (length x + 2)) (indexOf (y ++ t) (CRLF ++ CRLF)).
Proof.
  intros H N NY. destruct y as [|c y]; [congruence|]. change (CRLF ++ CRLF) with (x0d :: [x0a; x0d; x0a]). rewrite indexOf_pass by exact H.
  assert (E : byte_eqb c x0d = false) by (apply byte_eqb_neq; intros ->; apply NY; left; reflexivity).
  assert (P : hasPrefix (x0d :: x0a :: c :: y ++ t) [x0d; x0a; x0d; x0a] = false).
  { cbn. first [rewrite E; reflexivity | (rewrite byte_eqb_sym; rewrite E; reflexivity)]. }
  assert (Q : indexOf (CRLF ++ (c :: y) ++ t) [x0d; x0a; x0d; x0a] = option_map (fun n => S (S n)) (indexOf ((c :: y) ++ t) [x0d; x0a; x0d; x0a])).
  { change (CRLF ++ (c :: y) ++ t) with (x0d :: x0a :: c :: y ++ t). change ((c :: y) ++ t) with (c :: y ++ t). remember (c :: y ++ t) as z eqn:EZ.
    remember [x0d; x0a; x0d; x0a] as w eqn:EW. cbn [indexOf]. rewrite P.
    assert (P2 : hasPrefix (x0a :: z) w = false) by (subst w; reflexivity). rewrite P2. destruct (indexOf z w); reflexivity. }
  rewrite Q. destruct (indexOf ((c :: y) ++ t) [x0d; x0a; x0d; x0a]) as [n|]; [|reflexivity]. cbn [option_map]. f_equal. lia.
Qed.
(* lines as they are found *)
Definition goodLine (l : bs) : Prop := l <> [] /\ ~ In x0d l.
Lemma ends_join ls : ls <> [] -> concat (map (fun l => l ++ lineEnd) ls) = joinStr CRLF ls ++ CRLF.
Proof.
  induction ls as [|l ls IH]; [congruence|]. intros _. destruct ls as [|m ls]; [cbn; rewrite app_nil_r; reflexivity|].
  change (concat (map (fun l0 => l0 ++ lineEnd) (l :: m :: ls))) with ((l ++ lineEnd) ++ concat (map (fun l0 => l0 ++ lineEnd) (m :: ls))).
  rewrite IH by discriminate. change (joinStr CRLF (l :: m :: ls)) with (l ++ CRLF ++ joinStr CRLF (m :: ls)). rewrite <- !app_assoc. reflexivity.
Qed.
Lemma index_join ls t : ls <> [] -> Forall goodLine ls -> indexOf (joinStr CRLF ls ++ CRLF ++ CRLF ++ t) (CRLF ++ CRLF) = Some (length (joinStr CRLF ls)).
Proof.
  induction ls as [|l ls IH]; [congruence|]. intros _ F. inversion F as [|? ? [N1 N2] F']; subst. destruct ls as [|m ls]; [apply index_end, N2|].
  change (joinStr CRLF (l :: m :: ls)) with (l ++ CRLF ++ joinStr CRLF (m :: ls)). rewrite <- !app_assoc.
  specialize (IH ltac:(discriminate) F'). inversion F' as [|? ? [M1 M2] _]; subst.
  assert (E : exists r, joinStr CRLF (m :: ls) = m ++ r). { destruct ls as [|p ls]; [exists []; rewrite app_nil_r; reflexivity|eexists; reflexivity]. }
  destruct E as [r E]. rewrite E in *. rewrite <- !app_assoc in *. rewrite index_next by assumption. rewrite IH. cbn [option_map]. rewrite !app_length. cbn [length CRLF]. f_equal. lia.
Qed.
Lemma split_join ls : ls <> [] -> Forall goodLine ls -> splitStr CRLF (joinStr CRLF ls) = ls.
Proof.
  induction ls as [|l ls IH]; [congruence|]. intros _ F. inversion F as [|? ? [N1 N2] F']; subst. destruct ls as [|m ls].
  - cbn [joinStr]. apply splitStr_none; [discriminate|]. destruct (contains l CRLF) eqn:E; [|reflexivity]. apply contains_spec in E as (a & b & ->). exfalso. apply N2. apply in_or_app. right. left. reflexivity.
  - rewrite splitStr_eq by discriminate. change (joinStr CRLF (l :: m :: ls)) with (l ++ CRLF ++ joinStr CRLF (m :: ls)).
    assert (E : indexOf (l ++ CRLF ++ joinStr CRLF (m :: ls)) CRLF = Some (length l)).
    { pose proof (indexOf_pass x0d [x0a] l (CRLF ++ joinStr CRLF (m :: ls)) N2) as X. change (x0d :: [x0a]) with CRLF in X. rewrite X, indexOf_here. cbn [option_map]. rewrite Nat.add_0_r. reflexivity. }
    rewrite E.
    rewrite firstn_app_exact. rewrite <- skipn_skipn', !skipn_app_exact. f_equal. apply IH; [discriminate|exact F'].
Qed.
Lemma trim_space_front v : trimSpace v = v -> trimSpace (x20 :: v) = v.
Proof. intros H. rewrite <- H at 2. unfold trimSpace. reflexivity. Qed.
Lemma fmtZ_no c z : ~ isDigit c -> c <> x2d -> ~ In c (fmtZ z).
Proof.
  intros ND NM. assert (C : forall n, ~ In c (fmtN n)).
  { intros n Hin. destruct (fmtN_spec n) as (_ & F & _). rewrite Forall_forall in F. apply F in Hin. contradiction. }
  unfold fmtZ. destruct (z <? 0)%Z; [|apply C]. intros [E|Hin]; [congruence|exact (C _ Hin)].
Qed.
Lemma sp_not_digit : ~ isDigit x20. Proof. intros [d H]. discriminate H. Qed.
Lemma cr_not_digit : ~ isDigit x0d. Proof. intros [d H]. discriminate H. Qed.
Lemma lines_good st hs : reasonOk st -> Forall fitsLine hs -> Forall goodLine (statusLine st ++ map headerLine hs).
Proof.
  intros R F. apply Forall_app. split.
  - destruct st as [[n r]|]; [|constructor]. destruct R as [_ R]. constructor; [|constructor]. split; [discriminate|].
    intros I1. apply in_app_or in I1 as [I1|I1]; [vm_compute in I1; intuition discriminate|]. apply in_app_or in I1 as [I1|I1]; [exact (fmtZ_no _ _ cr_not_digit ltac:(discriminate) I1)|].
    apply in_app_or in I1 as [I1|I1]; [vm_compute in I1; intuition discriminate|contradiction].
  - apply Forall_map. eapply Forall_impl; [|exact F]. intros [k v] (A & B & _ & D & _). cbn [fst snd] in *. split.
    + unfold headerLine. cbn [fst snd]. destruct k; discriminate.
    + unfold headerLine. cbn [fst snd]. intros I1. apply in_app_or in I1 as [I1|I1]; [contradiction|]. apply in_app_or in I1 as [I1|I1]; [vm_compute in I1; intuition discriminate|contradiction].
Qed.
Lemma cut_header h : fitsLine h -> cutAt x3a (headerLine h) = Some (fst h, x20 :: snd h).
Proof. intros (A & _). apply cutAt_spec. split; [reflexivity|exact A]. Qed.
Lemma headers_fold hs : Forall fitsLine hs -> forall m k,
  aget bs_eqb (fold_left (fun m line => match cutAt x3a line with
                           | None => m
                           | Some (k, v) => if bs_eqb k (s2b "Status") then m else aset bs_eqb m k (trimSpace v)
                           end) (map headerLine hs) m) k = match lastOf hs k with Some v => Some v | None => aget bs_eqb m k end.
Proof.
  induction hs as [|h hs IH]; intros F m k; [reflexivity|]. inversion F as [|? ? Fh F']; subst. cbn [map fold_left]. rewrite (cut_header _ Fh).
  destruct Fh as (_ & _ & NS & _ & TR). replace (bs_eqb (fst h) (s2b "Status")) with false by (symmetry; apply bs_eqb_neq; exact NS).
  rewrite IH by exact F'. destruct h as [a v]. cbn [fst snd lastOf] in *. destruct (lastOf hs k); [reflexivity|]. rewrite (aget_aset bs_eqb bs_eqb_spec), (trim_space_front _ TR). destruct (bs_eqb k a); reflexivity.
Qed.
Lemma headers_get st hs k : Forall fitsLine hs -> aget bs_eqb (cgiHeaders (statusLine st ++ map headerLine hs)) k = lastOf hs k.
Proof.
  intros F. unfold cgiHeaders. rewrite fold_left_app.
  assert (E : fold_left (fun m line => match cutAt x3a line with
                           | None => m
                           | Some (k, v) => if bs_eqb k (s2b "Status") then m else aset bs_eqb m k (trimSpace v)
                           end) (statusLine st) ([] : strmap) = []).
  { destruct st as [[n r]|]; [|reflexivity]. cbn [statusLine fold_left]. replace (cutAt x3a _) with (Some (s2b "Status", x20 :: fmtZ n ++ s2b " " ++ r)); [reflexivity|].
    symmetry. apply cutAt_spec. split; [reflexivity|]. intros I1. vm_compute in I1. intuition discriminate. }
  rewrite E, headers_fold by exact F. destruct (lastOf hs k); reflexivity.
Qed.
Lemma status_line n r : (-9223372036854775808 <= n <= 9223372036854775807)%Z -> cgiStatus (s2b "Status: " ++ fmtZ n ++ s2b " " ++ r) = Some n.
Proof.
  intros B. unfold cgiStatus. replace (hasPrefix _ (s2b "Status:")) with true by (symmetry; apply hasPrefix_spec; exists (x20 :: fmtZ n ++ s2b " " ++ r); reflexivity).
  change (s2b "Status: " ++ fmtZ n ++ s2b " " ++ r) with (s2b "Status:" ++ x20 :: (fmtZ n ++ x20 :: r)).
  rewrite splitOn_app by (intros I1; vm_compute in I1; intuition discriminate). rewrite splitOn_app by (apply fmtZ_no; [exact sp_not_digit|discriminate]).
  cbn [nth_error]. rewrite parse_fmtZ by exact B. reflexivity.
Qed.
Lemma status_none h : fitsLine h -> cgiStatus (headerLine h) = Some 200%Z.
Proof.
  intros (A & _ & NS & _). unfold cgiStatus. destruct (hasPrefix (headerLine h) (s2b "Status:")) eqn:E; [|reflexivity]. exfalso.
  apply hasPrefix_spec in E as (t & E). assert (C1 : cutAt x3a (headerLine h) = Some (fst h, x20 :: snd h)) by (apply cutAt_spec; split; [reflexivity|exact A]).
  assert (C2 : cutAt x3a (headerLine h) = Some (s2b "Status", t)). { apply cutAt_spec. split; [exact E|]. intros I1. vm_compute in I1. intuition discriminate. }
  rewrite C1 in C2. injection C2 as E1 _. contradiction.
Qed.
Lemma answer_read st hs body : st <> None \/ hs <> [] -> reasonOk st -> Forall fitsLine hs ->
  exists m, parseCgi (cgiAnswer st hs body) = COk (match st with Some (n, _) => n | None => 200%Z end) m body /\ forall k, aget bs_eqb m k = lastOf hs k.
Proof.
  intros NE R F. set (ls := statusLine st ++ map headerLine hs).
  assert (NL : ls <> []). { unfold ls. destruct st as [[n r]|]; [discriminate|]. destruct hs; [destruct NE; congruence|discriminate]. }
  assert (GL : Forall goodLine ls) by (apply lines_good; assumption).
  exists (cgiHeaders ls). split; [|intros k; apply headers_get, F].
  unfold parseCgi, cgiAnswer. fold ls. rewrite ends_join by exact NL. rewrite <- app_assoc. change (lineEnd ++ body) with (CRLF ++ body).
  rewrite index_join by assumption. rewrite firstn_app_exact, split_join by assumption.
  assert (ES : cgiStatus (match ls with l :: _ => l | [] => [] end) = Some (match st with Some (n, _) => n | None => 200%Z end)).
  { unfold ls. destruct st as [[n r]|]; [apply status_line, R|]. cbn [statusLine app]. destruct hs as [|h hs]; [destruct NE; congruence|]. apply status_none. inversion F; assumption. }
  rewrite ES. f_equal. rewrite <- skipn_skipn', skipn_app_exact. reflexivity.
Qed.
Lemma parse_cases s : (parseCgi s = CBad <-> forall a b, s <> a ++ CRLF ++ CRLF ++ b)
  /\ (parseCgi s = CPanic <-> exists a b, s = a ++ CRLF ++ CRLF ++ b /\ (forall a' b', s = a' ++ CRLF ++ CRLF ++ b' -> length a <= length a')
        /\ exists l r, splitStr CRLF a = l :: r /\ hasPrefix l (s2b "Status:") = true /\ ~ In x20 l).
Proof.
  unfold parseCgi. destruct (indexOf s (CRLF ++ CRLF)) as [i|] eqn:EI.
  - destruct (indexOf_Some _ _ _ EI) as (a & b & ES & LA & MIN).
    assert (EF : firstn i s = a) by (rewrite ES, <- LA; apply firstn_app_exact). rewrite EF.
    split.
    + split; [destruct (cgiStatus _); discriminate|]. intros H. exfalso. apply (H a b). rewrite ES. rewrite <- app_assoc. reflexivity.
    + split.
      * intros H. destruct (cgiStatus _) eqn:EC; [discriminate|]. exists a, b. split; [rewrite ES, <- app_assoc; reflexivity|].
        split. { intros a' b' E. rewrite LA. apply MIN with (b' := b'). rewrite E. rewrite <- app_assoc. reflexivity. }
        destruct (splitStr CRLF a) as [|l r] eqn:EL. { exfalso. exact (splitFrom_ne _ _ _ EL). }
        exists l, r. split; [reflexivity|]. unfold cgiStatus in EC. destruct (hasPrefix l (s2b "Status:")); [|discriminate]. split; [reflexivity|].
        intros I1. apply in_split in I1 as (x & y & ->). destruct (splitOn x20 (x ++ x20 :: y)) as [|p [|w t]] eqn:EP.
        -- exact (splitOn_ne _ _ EP).
        -- assert (J : joinWith x20 [p] = x ++ x20 :: y). { rewrite <- EP, <- (joinStr_split [x20]) by discriminate. rewrite splitStr_one, EP. reflexivity. }
           assert (NI : ~ In x20 p) by (apply (splitOn_parts x20 (x ++ x20 :: y)); rewrite EP; left; reflexivity). cbn in J. apply NI. rewrite J. apply in_or_app. right. left. reflexivity.
        -- discriminate EC.
      * intros (a' & b' & E & MIN' & l & r & EL & HP & NS).
        assert (LE : length a = length a'). { apply Nat.le_antisymm; [rewrite LA; apply MIN with (b' := b'); rewrite E, <- app_assoc; reflexivity|]. apply (MIN' a b). rewrite ES, <- app_assoc. reflexivity. }
        assert (a' = a). { rewrite ES in E. rewrite <- !app_assoc in E. apply (f_equal (firstn (length a))) in E. rewrite firstn_app_exact, LE, firstn_app_exact in E. symmetry; exact E. }
        subst a'. rewrite EL. unfold cgiStatus. rewrite HP, splitOn_none by exact NS. reflexivity.
  - split.
    + split; [|reflexivity]. intros _ a b E. apply (proj1 (indexOf_None s (CRLF ++ CRLF)) EI a b). rewrite E, <- app_assoc. reflexivity.
    + split; [discriminate|]. intros (a & b & E & _). exfalso. apply (proj1 (indexOf_None s (CRLF ++ CRLF)) EI a b). rewrite E, <- app_assoc. reflexivity.
Qed.

(* ------------------------------------------------------------ what is sent *)
Lemma att_other (att : strmap) : forall (e : strmap) n, (forall r, n <> s2b "MOTAN_" ++ r) ->
  aget bs_eqb (fold_left (fun e kv => aset bs_eqb e (s2b "MOTAN_" ++ fst kv) (snd kv)) att e) n = aget bs_eqb e n.
Proof.
  induction att as [|[k v] att IH]; intros e n H; [reflexivity|]. cbn [fold_left fst snd]. rewrite IH by exact H. rewrite (aget_aset bs_eqb bs_eqb_spec).
  replace (bs_eqb n (s2b "MOTAN_" ++ k)) with false by (symmetry; apply bs_eqb_neq, H). reflexivity.
Qed.
Lemma att_get (att : strmap) : NoDup (map fst att) -> forall (e : strmap) k,
  aget bs_eqb (fold_left (fun e kv => aset bs_eqb e (s2b "MOTAN_" ++ fst kv) (snd kv)) att e) (s2b "MOTAN_" ++ k)
  = match aget bs_eqb att k with Some v => Some v | None => aget bs_eqb e (s2b "MOTAN_" ++ k) end.
Proof.
  induction att as [|[a v] att IH]; intros N e k; [reflexivity|]. cbn [map fst] in N. apply NoDup_cons_iff in N as [N1 N2].
  cbn [fold_left fst snd aget]. rewrite IH by exact N2. rewrite (aget_aset bs_eqb bs_eqb_spec).
  destruct (bs_eqb k a) eqn:E.
  - apply bs_eqb_spec in E. subst a. rewrite bs_eqb_refl.
    destruct (aget bs_eqb att k) eqn:EA; [|reflexivity]. exfalso. apply N1. apply (aget_In bs_eqb bs_eqb_spec) in EA. apply (in_map fst) in EA. exact EA.
  - change (bs_eqb (s2b "MOTAN_" ++ k) (s2b "MOTAN_" ++ a)) with (bs_eqb k a). rewrite E. reflexivity.
Qed.
Lemma needed_get u ks : forall (e : strmap) n, aget bs_eqb (fold_left (fun e k => match pget (uParams u) (s2b "CGI_" ++ k) with Some v => aset bs_eqb e k v | None => e end) ks e) n
  = if existsb (bs_eqb n) ks then match pget (uParams u) (s2b "CGI_" ++ n) with Some v => Some v | None => aget bs_eqb e n end else aget bs_eqb e n.
Proof.
  induction ks as [|k ks IH]; intros e n; [reflexivity|]. cbn [fold_left existsb]. rewrite IH.
  destruct (bs_eqb n k) eqn:E; cbn [orb].
  - apply bs_eqb_spec in E. subst k. destruct (pget (uParams u) (s2b "CGI_" ++ n)) eqn:EP.
    + destruct (existsb (bs_eqb n) ks); [reflexivity|]. rewrite (aget_aset bs_eqb bs_eqb_spec), bs_eqb_refl. reflexivity.
    + destruct (existsb (bs_eqb n) ks); reflexivity.
  - destruct (pget (uParams u) (s2b "CGI_" ++ k)); [|reflexivity]. rewrite (aget_aset bs_eqb bs_eqb_spec), E. reflexivity.
Qed.
Definition fixedNames : list bs := [s2b "SERVER_SOFTWARE"; s2b "REQUEST_METHOD"; s2b "SCRIPT_FILENAME"; s2b "DOCUMENT_ROOT"; s2b "QUERY_STRING"; s2b "CONTENT_TYPE"; s2b "CONTENT_LENGTH"].
Lemma not_motan n : In n fixedNames -> forall r, n <> s2b "MOTAN_" ++ r.
Proof.
  intros H r E. assert (P : hasPrefix n (s2b "MOTAN_") = true) by (apply hasPrefix_spec; exists r; exact E).
  destruct H as [<-|[<-|[<-|[<-|[<-|[<-|[<-|[]]]]]]]]; discriminate P.
Qed.
Lemma base_fixed u att n : (forall r, n <> s2b "MOTAN_" ++ r) ->
  aget bs_eqb (baseEnv u att) n = if existsb (bs_eqb n) neededEnv then (match pget (uParams u) (s2b "CGI_" ++ n) with Some v => Some v | None => aget bs_eqb [(s2b "SERVER_SOFTWARE", s2b "Motan / CGI")] n end)
                                  else aget bs_eqb [(s2b "SERVER_SOFTWARE", s2b "Motan / CGI")] n.
Proof. intros H. unfold baseEnv. rewrite att_other by exact H. rewrite needed_get. reflexivity. Qed.
Lemma base_method u att : aget bs_eqb (baseEnv u att) (s2b "REQUEST_METHOD") = pget (uParams u) (s2b "CGI_REQUEST_METHOD").
Proof.
  rewrite base_fixed by (apply not_motan; right; left; reflexivity). change (existsb (bs_eqb (s2b "REQUEST_METHOD")) neededEnv) with true. cbv iota.
  change (s2b "CGI_" ++ s2b "REQUEST_METHOD") with (s2b "CGI_REQUEST_METHOD"). destruct (pget (uParams u) (s2b "CGI_REQUEST_METHOD")); reflexivity.
Qed.
Lemma aget3 (e : strmap) n a va b vb : aget bs_eqb (aset bs_eqb (aset bs_eqb e a va) b vb) n = if bs_eqb n b then Some vb else if bs_eqb n a then Some va else aget bs_eqb e n.
Proof. rewrite !(aget_aset bs_eqb bs_eqb_spec). reflexivity. Qed.
Section W.
Variable ord : strmap -> strmap.
Lemma build_env u q args c qs : cgiBuild ord u q args = Some c -> buildQueryStr ord q args [] = Some qs -> NoDup (map fst (q_att q)) ->
  forall n v, envVar u (q_att q) qs n v -> aget bs_eqb (c_env c) n = v.
Proof.
  intros H EQ ND n v EV. unfold cgiBuild in H. rewrite base_method, EQ in H. fold (method_of u) in H.
  set (B := baseEnv u (q_att q)) in *.
  assert (SHAPE : forall m, aget bs_eqb (c_env c) m =
            if bs_eqb (method_of u) (s2b "GET") then (if bs_eqb m (s2b "QUERY_STRING") then Some qs else aget bs_eqb B m)
            else if bs_eqb (method_of u) (s2b "POST") then (if bs_eqb m (s2b "CONTENT_LENGTH") then Some (fmtN (N.of_nat (length qs))) else if bs_eqb m (s2b "CONTENT_TYPE") then Some (s2b "application/x-www-form-urlencoded") else aget bs_eqb B m)
            else aget bs_eqb B m).
  { intros m. destruct (bs_eqb (method_of u) (s2b "GET")); [injection H as <-; cbn [c_env]; rewrite (aget_aset bs_eqb bs_eqb_spec); reflexivity|].
    destruct (bs_eqb (method_of u) (s2b "POST")); injection H as <-; cbn [c_env]; [apply aget3|reflexivity]. }
  assert (GP : bs_eqb (method_of u) (s2b "GET") = true -> bs_eqb (method_of u) (s2b "POST") = false).
  { intros E. apply bs_eqb_spec in E. rewrite E. reflexivity. }
  assert (BF : forall m, In m fixedNames -> aget bs_eqb B m = if existsb (bs_eqb m) neededEnv then (match pget (uParams u) (s2b "CGI_" ++ m) with Some v => Some v | None => aget bs_eqb [(s2b "SERVER_SOFTWARE", s2b "Motan / CGI")] m end)
                                  else aget bs_eqb [(s2b "SERVER_SOFTWARE", s2b "Motan / CGI")] m).
  { intros m I1. apply base_fixed, not_motan, I1. }
  rewrite SHAPE. clear SHAPE H. inversion EV; subst; clear EV.
  - rewrite BF by (left; reflexivity). change (existsb (bs_eqb (s2b "SERVER_SOFTWARE")) neededEnv) with false. cbv iota.
    change (aget bs_eqb [(s2b "SERVER_SOFTWARE", s2b "Motan / CGI")] (s2b "SERVER_SOFTWARE")) with (Some (s2b "Motan / CGI")).
    change (bs_eqb (s2b "SERVER_SOFTWARE") (s2b "QUERY_STRING")) with false. change (bs_eqb (s2b "SERVER_SOFTWARE") (s2b "CONTENT_LENGTH")) with false. change (bs_eqb (s2b "SERVER_SOFTWARE") (s2b "CONTENT_TYPE")) with false.
    destruct (bs_eqb (method_of u) (s2b "GET")); [reflexivity|]. destruct (bs_eqb (method_of u) (s2b "POST")); reflexivity.
  - rename H into I1. assert (E : aget bs_eqb B n = pget (uParams u) (s2b "CGI_" ++ n)).
    { rewrite BF by (cbn [In fixedNames] in *; tauto).
      destruct I1 as [<-|[<-|[<-|[]]]]; match goal with |- context[existsb ?a ?b] => change (existsb a b) with true end; cbv iota;
        match goal with |- match ?x with _ => _ end = _ => destruct x; reflexivity end. }
    rewrite E. assert (Q : bs_eqb n (s2b "QUERY_STRING") = false /\ bs_eqb n (s2b "CONTENT_LENGTH") = false /\ bs_eqb n (s2b "CONTENT_TYPE") = false).
    { destruct I1 as [<-|[<-|[<-|[]]]]; repeat split. }
    destruct Q as (-> & -> & ->). destruct (bs_eqb (method_of u) (s2b "GET")); [reflexivity|]. destruct (bs_eqb (method_of u) (s2b "POST")); reflexivity.
  - assert (E : aget bs_eqb B (s2b "MOTAN_" ++ k) = aget bs_eqb (q_att q) k).
    { unfold B, baseEnv. rewrite att_get by exact ND. destruct (aget bs_eqb (q_att q) k); [reflexivity|]. rewrite needed_get.
      change (existsb (bs_eqb (s2b "MOTAN_" ++ k)) neededEnv) with false. reflexivity. }
    rewrite E. change (bs_eqb (s2b "MOTAN_" ++ k) (s2b "QUERY_STRING")) with false. change (bs_eqb (s2b "MOTAN_" ++ k) (s2b "CONTENT_LENGTH")) with false. change (bs_eqb (s2b "MOTAN_" ++ k) (s2b "CONTENT_TYPE")) with false.
    destruct (bs_eqb (method_of u) (s2b "GET")); [reflexivity|]. destruct (bs_eqb (method_of u) (s2b "POST")); reflexivity.
  - assert (E : aget bs_eqb B (s2b "QUERY_STRING") = None) by (rewrite BF; [reflexivity|cbn [In fixedNames]; tauto]). rewrite E. change (bs_eqb (s2b "QUERY_STRING") (s2b "QUERY_STRING")) with true.
    change (bs_eqb (s2b "QUERY_STRING") (s2b "CONTENT_LENGTH")) with false. change (bs_eqb (s2b "QUERY_STRING") (s2b "CONTENT_TYPE")) with false.
    destruct (bs_eqb (method_of u) (s2b "GET")); [reflexivity|]. destruct (bs_eqb (method_of u) (s2b "POST")); reflexivity.
  - assert (E : aget bs_eqb B (s2b "CONTENT_TYPE") = None) by (rewrite BF; [reflexivity|cbn [In fixedNames]; tauto]). rewrite E. change (bs_eqb (s2b "CONTENT_TYPE") (s2b "QUERY_STRING")) with false.
    change (bs_eqb (s2b "CONTENT_TYPE") (s2b "CONTENT_LENGTH")) with false. change (bs_eqb (s2b "CONTENT_TYPE") (s2b "CONTENT_TYPE")) with true.
    destruct (bs_eqb (method_of u) (s2b "GET")); [rewrite GP by reflexivity; reflexivity|]. destruct (bs_eqb (method_of u) (s2b "POST")); reflexivity.
  - assert (E : aget bs_eqb B (s2b "CONTENT_LENGTH") = None) by (rewrite BF; [reflexivity|cbn [In fixedNames]; tauto]). rewrite E. change (bs_eqb (s2b "CONTENT_LENGTH") (s2b "QUERY_STRING")) with false.
    change (bs_eqb (s2b "CONTENT_LENGTH") (s2b "CONTENT_LENGTH")) with true.
    destruct (bs_eqb (method_of u) (s2b "GET")); [rewrite GP by reflexivity; reflexivity|]. destruct (bs_eqb (method_of u) (s2b "POST")); reflexivity.
  - assert (E : aget bs_eqb B n = None).
    { unfold B. rewrite base_fixed by assumption. destruct (existsb (bs_eqb n) neededEnv) eqn:EX.
      - exfalso. apply existsb_exists in EX as (y & I1 & E1). apply bs_eqb_spec in E1. subst y. apply H. cbn [In neededEnv] in *. tauto.
      - cbn [aget]. destruct (bs_eqb n (s2b "SERVER_SOFTWARE")) eqn:ES; [|reflexivity]. exfalso. apply bs_eqb_spec in ES. apply H. left. symmetry. exact ES. }
    rewrite E. assert (Q : bs_eqb n (s2b "QUERY_STRING") = false /\ bs_eqb n (s2b "CONTENT_LENGTH") = false /\ bs_eqb n (s2b "CONTENT_TYPE") = false).
    { repeat split; apply bs_eqb_neq; intros ->; apply H; cbn [In]; tauto. }
    destruct Q as (-> & -> & ->). destruct (bs_eqb (method_of u) (s2b "GET")); [reflexivity|]. destruct (bs_eqb (method_of u) (s2b "POST")); reflexivity.
Qed.
Lemma build_rest u q args c qs : cgiBuild ord u q args = Some c -> buildQueryStr ord q args [] = Some qs ->
  c_body c = (if bs_eqb (method_of u) (s2b "POST") then qs else [])
  /\ c_host c = match pget (uParams u) (s2b "CGI_HOST") with Some h => h | None => s2b "127.0.0.1" end
  /\ c_port c = match pget (uParams u) (s2b "CGI_PORT") with Some p => fst (parseInt64 p) | None => 9000%Z end.
Proof.
  intros H EQ. unfold cgiBuild in H. rewrite base_method, EQ in H. fold (method_of u) in H.
  destruct (bs_eqb (method_of u) (s2b "GET")) eqn:EG.
  - injection H as <-. apply bs_eqb_spec in EG. rewrite EG. repeat split.
  - destruct (bs_eqb (method_of u) (s2b "POST")); injection H as <-; repeat split.
Qed.
Lemma args_read q m rest : any_order ord -> NoDup (map fst m) -> (forall k, In k (map fst m) -> plain_name k) ->
  exists qs l, buildQueryStr ord q (ArgMap m :: rest) [] = Some qs /\ Permutation l m /\ parse_form qs = Some (id_pair q :: l).
Proof.
  intros O N P. exists (s2b "requestIdFromClient" ++ s2b "=" ++ fmtN (q_id q) ++ formBody (ord m)), (ord m). split; [|split; [apply O|]].
  - cbn [buildQueryStr mixArgs fold_left]. rewrite <- !app_assoc. reflexivity.
  - apply query_parse. rewrite Forall_forall. intros x Hx. apply P, in_map. apply (Permutation_in x (O m)). exact Hx.
Qed.
End W.
Lemma env_total u att qs n : exists v, envVar u att qs n v.
Proof.
  destruct (existsb (bs_eqb n) fixedNames) eqn:E.
  - apply existsb_exists in E as (y & I1 & E1). apply bs_eqb_spec in E1. subst y.
    destruct I1 as [<-|[<-|[<-|[<-|[<-|[<-|[<-|[]]]]]]]]; eexists; [apply ev_soft|apply ev_conf; cbn [In]; tauto|apply ev_conf; cbn [In]; tauto|apply ev_conf; cbn [In]; tauto|apply ev_query|apply ev_type|apply ev_len].
  - destruct (hasPrefix n (s2b "MOTAN_")) eqn:P.
    + apply hasPrefix_spec in P as (r & ->). eexists. apply ev_att.
    + exists None. apply ev_other.
      * intros I1. assert (existsb (bs_eqb n) fixedNames = true) by (apply existsb_exists; exists n; split; [exact I1|apply bs_eqb_refl]). congruence.
      * intros r ->. assert (hasPrefix (s2b "MOTAN_" ++ r) (s2b "MOTAN_") = true) by (apply hasPrefix_spec; exists r; reflexivity). congruence.
Qed.

Lemma aget_any ord (m : strmap) k : any_order ord -> NoDup (akeys m) -> aget bs_eqb (ord m) k = aget bs_eqb m k.
Proof.
  intros O N. pose proof (O m) as P. assert (N' : NoDup (akeys (ord m))) by (apply (Permutation_NoDup (l := map fst m)); [apply Permutation_sym, Permutation_map, P|exact N]).
  destruct (aget bs_eqb m k) as [v|] eqn:E.
  - apply (aget_In bs_eqb bs_eqb_spec) in E. apply (In_aget bs_eqb bs_eqb_spec); [exact N'|]. apply (Permutation_in _ (Permutation_sym P)). exact E.
  - destruct (aget bs_eqb (ord m) k) as [v|] eqn:E'; [|reflexivity]. exfalso. apply (aget_In bs_eqb bs_eqb_spec) in E'. apply (Permutation_in _ P) in E'.
    apply (In_aget bs_eqb bs_eqb_spec) in E'; [congruence|exact N].
Qed.
Lemma headers_nodup ls : NoDup (akeys (cgiHeaders ls)).
Proof.
  unfold cgiHeaders. assert (G : forall m : strmap, NoDup (akeys m) -> NoDup (akeys (fold_left (fun m line => match cutAt x3a line with
                           | None => m
                           | Some (k, v) => if bs_eqb k (s2b "Status") then m else aset bs_eqb m k (trimSpace v)
                           end) ls m))).
  { induction ls as [|l ls IH]; intros m N; [exact N|]. cbn [fold_left]. apply IH. destruct (cutAt x3a l) as [[k v]|]; [|exact N].
    destruct (bs_eqb k (s2b "Status")); [exact N|]. apply NoDup_aset; [exact bs_eqb_spec|exact N]. }
  apply G. constructor.
Qed.
Lemma parse_nodup s st m b : parseCgi s = COk st m b -> NoDup (akeys m).
Proof.
  unfold parseCgi. destruct (indexOf s (CRLF ++ CRLF)); [|discriminate]. destruct (cgiStatus _); [|discriminate]. intros H. injection H as _ <- _. apply headers_nodup.
Qed.
Lemma call_sent ord connect world u q m rest : any_order ord -> NoDup (map fst m) -> (forall k, In k (map fst m) -> plain_name k) -> NoDup (map fst (q_att q)) ->
  q_args q = DOk (ArgMap m :: rest) -> (forall h p, connect h p = None) ->
  exists c r qs l, cgiCall ord connect world u q = (Some c, r) /\ Permutation l m /\ parse_form qs = Some (id_pair q :: l)
    /\ (forall n v, envVar u (q_att q) qs n v -> aget bs_eqb (c_env c) n = v)
    /\ c_body c = (if bs_eqb (method_of u) (s2b "POST") then qs else [])
    /\ c_host c = match pget (uParams u) (s2b "CGI_HOST") with Some h => h | None => s2b "127.0.0.1" end
    /\ c_port c = match pget (uParams u) (s2b "CGI_PORT") with Some p => fst (parseInt64 p) | None => 9000%Z end.
Proof.
  intros O N P NA EA CN. destruct (args_read ord q m rest O N P) as (qs & l & EQ & PL & PF).
  assert (exists c, cgiBuild ord u q (ArgMap m :: rest) = Some c) as [c EC].
  { unfold cgiBuild. rewrite EQ. cbv zeta. repeat (match goal with |- context[if ?x then _ else _] => destruct x end); eexists; reflexivity. }
  destruct (build_rest ord u q _ c qs EC EQ) as (B1 & B2 & B3).
  unfold cgiCall. rewrite EA, EC, CN. eexists c, _, qs, l. split; [reflexivity|]. split; [exact PL|]. split; [exact PF|]. split; [|auto].
  exact (build_env ord u q _ c qs EC EQ NA).
Qed.
Lemma call_shape ord connect world u q c r : cgiCall ord connect world u q = (Some c, r) ->
  r = match world c with
      | CErr e => Some (cgiFail e)
      | CContent s => match parseCgi s with
                      | CPanic => None
                      | CBad => Some (mkCresp (q_id q) (Some (502%Z, s2b "Cannot parse FastCGI Response", 502%Z)) [] None)
                      | COk _ hs b => Some (mkCresp (q_id q) None (setAll (ord hs) []) (Some b))
                      end
      end.
Proof.
  unfold cgiCall. destruct (q_args q); [discriminate|]. destruct (cgiBuild ord u q a) as [c'|]; [|discriminate]. destruct (connect (c_host c') (c_port c')); [discriminate|].
  intros H. injection H as <- <-. reflexivity.
Qed.
Lemma call_answer ord connect world u q c r st hs body : any_order ord -> cgiCall ord connect world u q = (Some c, r) ->
  st <> None \/ hs <> [] -> reasonOk st -> Forall fitsLine hs -> world c = CContent (cgiAnswer st hs body) ->
  exists a, r = Some a /\ r_id a = q_id q /\ r_exc a = None /\ r_val a = Some body /\ forall k, aget bs_eqb (r_att a) k = lastOf hs k.
Proof.
  intros O H NE R F W. apply call_shape in H. rewrite W in H. destruct (answer_read st hs body NE R F) as (m & EP & G). rewrite EP in H.
  eexists. split; [exact H|]. repeat split. intros k. cbn [r_att]. pose proof (parse_nodup _ _ _ _ EP) as N.
  rewrite setAll_get. 2:{ apply (Permutation_NoDup (l := map fst m)); [apply Permutation_sym, Permutation_map, O|exact N]. }
  rewrite (aget_any ord m k O N), G. destruct (lastOf hs k); reflexivity.
Qed.
Lemma call_bad ord connect world u q c r s : cgiCall ord connect world u q = (Some c, r) -> world c = CContent s -> (forall a b, s <> a ++ lineEnd ++ lineEnd ++ b) ->
  exists a, r = Some a /\ r_id a = q_id q /\ r_exc a = Some (502%Z, s2b "Cannot parse FastCGI Response", 502%Z).
Proof.
  intros H W NB. apply call_shape in H. rewrite W in H. destruct (parse_cases s) as [[_ B] _]. rewrite (B NB) in H. eexists. split; [exact H|]. split; reflexivity.
Qed.
