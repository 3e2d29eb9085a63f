(* HaProofs.v *)
From Verif Require Import Base Lists Strconv UrlModel UrlSpec HaModel HaSpec.
Ltac Zify.zify_post_hook ::= idtac.

Lemma conclusive_spec r : conclusive r = true <-> answer_is_final r.
Proof.
  unfold conclusive, answer_is_final. destruct (rExc r) as [e|]; [|intuition].
  rewrite Z.eqb_eq. split; [intro H; right; exists e; auto|]. intros [H|(e' & H & H')]; [discriminate|]. injection H as ->. exact H'.
Qed.

(* ---------------------------------------------------------------- C19 *)

Definition last_is (env : nat -> option (option resp)) (i : nat) (last : option resp) : Prop :=
  match i with O => last = None | S k => env k = Some last end.

Lemma failoverLoop_ok id retries noEp env : forall n i last lastErr total,
  total = i + n -> 0 < total -> (forall j, j < i -> failed_attempt (env j)) -> last_is env i last ->
  failover_outcome id total env (snd (failoverLoop n i id retries noEp env last lastErr)) (fst (failoverLoop n i id retries noEp env last lastErr)).
Proof.
  induction n as [|n IH]; intros i last lastErr total Ht Hpos Hf Hl; cbn [failoverLoop].
  - cbn [fst snd]. assert (i = total) by lia. subst i. destruct total as [|k]; [lia|]. cbn [last_is] in Hl.
    destruct last as [r|].
    + apply (exhausted id (S k) env k r); auto.
    + apply (exhausted_nil id (S k) env k); auto. cbn. eexists. split; [reflexivity|]. split; reflexivity.
  - destruct (env i) as [[r|]|] eqn:E.
    + destruct (conclusive r) eqn:Ec.
      * cbn [fst snd]. apply (answered id total env i r); auto; [lia|]. apply conclusive_spec, Ec.
      * apply IH; [lia|lia| |exact E]. intros j Hj. destruct (Nat.eq_dec j i) as [->|Hne]; [|apply Hf; lia].
        right. exists r. split; [exact E|]. rewrite <- conclusive_spec. congruence.
    + apply IH; [lia|lia| |exact E]. intros j Hj. destruct (Nat.eq_dec j i) as [->|Hne]; [|apply Hf; lia]. left. exact E.
    + cbn [fst snd]. apply (nobody_left id total env i); auto; [lia|]. cbn. eexists. split; [reflexivity|]. split; reflexivity.
Qed.

Lemma if_positive_max z : if_positive z 0 = Z.max 0 z.
Proof. unfold if_positive. destruct (Z.ltb_spec 0 z); lia. Qed.

Lemma failover_ok u m d id noEp env :
  failover_outcome id (S (Z.to_nat (retries_for u m d))) env (snd (failoverCall u m d id noEp env)) (fst (failoverCall u m d id noEp env)).
Proof.
  unfold failoverCall, retries_for. rewrite if_positive_max. set (z := Z.max 0 _). assert (0 <= z)%Z by lia.
  replace (Z.to_nat (z + 1)) with (S (Z.to_nat z)) by lia.
  apply failoverLoop_ok; [reflexivity|lia|intros; lia|reflexivity].
Qed.

Lemma outcome_calls id n env k r : failover_outcome id n env k r -> k <= n.
Proof. destruct 1; lia. Qed.

(* the outcome is determined by the environment: the relation is functional in the number of calls, and in the response
   whenever an endpoint produced it *)
Lemma failed_not_final (env : nat -> option (option resp)) j r : failed_attempt (env j) -> env j = Some (Some r) -> ~ answer_is_final r.
Proof. intros [H|(r' & H & Hn)] E; rewrite H in E; [discriminate|]. injection E as ->. exact Hn. Qed.
Lemma failed_not_none (env : nat -> option (option resp)) j : failed_attempt (env j) -> env j <> None.
Proof. intros [H|(r & H & _)]; congruence. Qed.

Lemma outcome_functional id n env k1 r1 k2 r2 :
  failover_outcome id n env k1 r1 -> failover_outcome id n env k2 r2 -> k1 = k2.
Proof.
  intros H1 H2.
  destruct H1 as [a ra La Fa Ea Aa|a ra La Fa Ea _ _|a ra La Fa Ea|a ra La Fa Ea _ _];
  destruct H2 as [b rb Lb Fb Eb Ab|b rb Lb Fb Eb _ _|b rb Lb Fb Eb|b rb Lb Fb Eb _ _]; try reflexivity.
  - destruct (lt_eq_lt_dec a b) as [[H|H]|H]; [exfalso|congruence|exfalso].
    + exact (failed_not_final _ _ _ (Fb a H) Ea Aa).
    + exact (failed_not_final _ _ _ (Fa b H) Eb Ab).
  - exfalso. destruct (lt_eq_lt_dec a b) as [[H|H]|H].
    + exact (failed_not_final _ _ _ (Fb a H) Ea Aa).
    + subst. congruence.
    + exact (failed_not_none _ _ (Fa b H) Eb).
  - exfalso. exact (failed_not_final _ _ _ (Fb a La) Ea Aa).
  - exfalso. exact (failed_not_final _ _ _ (Fb a La) Ea Aa).
  - exfalso. destruct (lt_eq_lt_dec a b) as [[H|H]|H].
    + exact (failed_not_none _ _ (Fb a H) Ea).
    + subst. congruence.
    + exact (failed_not_final _ _ _ (Fa b H) Eb Ab).
  - destruct (lt_eq_lt_dec a b) as [[H|H]|H]; [exfalso|exact H|exfalso].
    + exact (failed_not_none _ _ (Fb a H) Ea).
    + exact (failed_not_none _ _ (Fa b H) Eb).
  - exfalso. exact (failed_not_none _ _ (Fb a La) Ea).
  - exfalso. exact (failed_not_none _ _ (Fb a La) Ea).
  - exfalso. exact (failed_not_final _ _ _ (Fa b Lb) Eb Ab).
  - exfalso. exact (failed_not_none _ _ (Fa b Lb) Eb).
  - exfalso. exact (failed_not_final _ _ _ (Fa b Lb) Eb Ab).
  - exfalso. exact (failed_not_none _ _ (Fa b Lb) Eb).
Qed.

(* ---------------------------------------------------------------- C20: one call *)

Definition below (b : bcall) : Prop :=
  match bPhase b with
  | HHead i => (forall j, In j (bSent b) -> j < i) /\ (Z.of_nat i <= bRetries b + 1)%Z
  | HWait i => (forall j, In j (bSent b) -> j <= i) /\ (Z.of_nat i <= bRetries b)%Z
  | _ => True
  end.
Record call_ok (b : bcall) : Prop := {
  ok_pos : (0 < bRetries b)%Z;
  ok_nodup : NoDup (bSent b);
  ok_range : forall j, In j (bSent b) -> (Z.of_nat j <= bRetries b)%Z;
  ok_below : below b;
  ok_open : NoDup (bOpen b) /\ incl (bOpen b) (bSent b);
  ok_chan : length (bSucc b) + length (bOpen b) <= length (bSent b);
  ok_succ : forall r, In r (bSucc b) -> In r (bHeard b) /\ conclusive r = true;
  ok_done : forall r, bPhase b = HDone r -> (In r (bHeard b) /\ conclusive r = true) \/ is_timeout (bId b) r;
  ok_first : bPhase b = HHead 0 \/ In 0 (bSent b);
  ok_errs : incl (bErr b) (bSent b) }.

Lemma list_set_other {A} (l : list A) c b j : j <> c -> nth_error (list_set l c b) j = nth_error l j.
Proof. revert c j. induction l as [|x l IH]; intros [|c] [|j] H; cbn; try reflexivity; try lia. apply IH. lia. Qed.
Lemma list_set_same {A} (l : list A) c b : c < length l -> nth_error (list_set l c b) c = Some b.
Proof. intro H. rewrite list_set_nth_error by exact H. rewrite Nat.eqb_refl. reflexivity. Qed.

Lemma filter_length_le {A} (f : A -> bool) l : length (filter f l) <= length l.
Proof. induction l as [|x l IH]; cbn; [lia|]. destruct (f x); cbn; lia. Qed.
Lemma removeNat_len i l : In i l -> length (removeNat i l) < length l.
Proof.
  unfold removeNat. induction l as [|x l IH]; intros H; [destruct H|]. cbn [filter length].
  destruct (Nat.eqb_spec i x); cbn [negb]; [pose proof (filter_length_le (fun j => negb (Nat.eqb i j)) l); lia|].
  destruct H as [H|H]; [congruence|]. cbn [length]. specialize (IH H). lia.
Qed.
Lemma removeNat_incl i l : incl (removeNat i l) l.
Proof. intros x H. apply filter_In in H as [H _]. exact H. Qed.
Lemma removeNat_NoDup i l : NoDup l -> NoDup (removeNat i l).
Proof. apply NoDup_filter. Qed.

Lemma timeout_is id : is_timeout id (errorResponse id 400 timeoutMsg).
Proof. split; [reflexivity|]. cbn. eexists. split; [reflexivity|]. repeat split. Qed.

Lemma doCall_conclusive id r x : doCall id r = Some x -> conclusive x = true -> r = Some x.
Proof.
  unfold doCall. destruct r as [r|]; [|discriminate]. destruct (conclusive r) eqn:E; [congruence|].
  intros H. injection H as <-. cbn. discriminate.
Qed.

(* the steps of one call, as a relation on its own record *)
Lemma step_call s e s' : sysStep s e = Some s' ->
  (exists id r l, e = EStart id r l /\ (0 < r)%Z /\ (0 < l)%Z /\ sCnt s' = sCnt s /\ sLog s' = sLog s /\
      sCalls s' = sCalls s ++ [mkCall id r l (HHead 0) [] [] [] [] []]) \/
  (exists c b b', nth_error (sCalls s) c = Some b /\ sCalls s' = list_set (sCalls s) c b' /\
      bId b' = bId b /\ bRetries b' = bRetries b /\ bLimit b' = bLimit b /\ (call_ok b -> call_ok b') /\
      ((bSent b' = bSent b /\ sCnt s' = sCnt s /\ sLog s' = sLog s) \/
       (bSent b' = 0 :: bSent b /\ bPhase b = HHead 0 /\ exists now, sCnt s' = fst (updateCallRecord (sCnt s) now) /\
          sLog s' = LReq c :: (if snd (updateCallRecord (sCnt s) now) then [LReset] else []) ++ sLog s) \/
       (exists i, 0 < i /\ bSent b' = i :: bSent b /\ tryAcquirePermit (sCnt s) (bLimit b) = (sCnt s', true) /\ sLog s' = LBackup c :: sLog s))).
Proof.
  destruct e as [id r l|c now sel|c i r|c|c|c|c]; cbn [sysStep]; intro H.
  - left. exists id, r, l. destruct (Z.ltb_spec 0 r); destruct (Z.ltb_spec 0 l); cbn [andb] in H; try discriminate H. injection H as <-. cbn. auto 8.
  - destruct (nth_error (sCalls s) c) as [b|] eqn:Eb; [|discriminate H]. destruct (bPhase b) as [i| | |r] eqn:Ep; try discriminate H.
    right. destruct (Z.ltb_spec (bRetries b) (Z.of_nat i)) as [Hr|Hr].
    { injection H as <-. exists c, b, (goto b HFinal). split; [exact Eb|]. split; [reflexivity|]. repeat (split; [reflexivity|]). split.
      - intros [O1 O2 O3 O4 O5 O6 O7 O8 O9 O10]. constructor; cbn; auto; try exact I; try (rewrite Ep in *; auto); try discriminate.
        + destruct O9 as [O9|O9]; [injection O9 as ->; lia|auto].
      - left. cbn. auto. }
    destruct (Nat.eqb_spec i 0) as [Hi|Hi].
    { subst i. destruct (updateCallRecord (sCnt s) now) as [cn fr] eqn:Eu. injection H as <-. exists c, b, (send b 0).
      split; [exact Eb|]. split; [reflexivity|]. repeat (split; [reflexivity|]). split.
      - intros [O1 O2 O3 O4 O5 O6 O7 O8 O9 O10]. unfold below in O4. rewrite Ep in O4. destruct O4 as [O4 _].
        constructor; cbn; auto; try exact I.
        + constructor; [|exact O2]. intro Hin. apply O4 in Hin. lia.
        + intros j [<-|Hj]; [lia|auto].
        + split; [|lia]. intros j [<-|Hj]; [lia|]. apply O4 in Hj. lia.
        + destruct O5 as [O5 O5']. split; [constructor; [|exact O5]|].
          * intro Hin. apply O5', O4 in Hin. lia.
          * intros j [<-|Hj]; [left; reflexivity|right; auto].
        + lia.
        + discriminate.
        + intros j Hj. right. auto.
      - right. left. cbn. split; [reflexivity|]. split; [exact Ep|]. exists now. rewrite Eu. cbn. auto. }
    destruct sel; cbn [negb] in H.
    + destruct (tryAcquirePermit (sCnt s) (bLimit b)) as [cn ok] eqn:Et. destruct ok; injection H as <-.
      * exists c, b, (send b i). split; [exact Eb|]. split; [reflexivity|]. repeat (split; [reflexivity|]). split.
        -- intros [O1 O2 O3 O4 O5 O6 O7 O8 O9 O10]. unfold below in O4. rewrite Ep in O4. destruct O4 as [O4 _].
           constructor; cbn; auto; try exact I.
           ++ constructor; [|exact O2]. intro Hin. apply O4 in Hin. lia.
           ++ intros j [<-|Hj]; [lia|auto].
           ++ split; [|lia]. intros j [<-|Hj]; [lia|]. apply O4 in Hj. lia.
           ++ destruct O5 as [O5 O5']. split; [constructor; [|exact O5]|].
              ** intro Hin. apply O5', O4 in Hin. lia.
              ** intros j [<-|Hj]; [left; reflexivity|right; auto].
           ++ lia.
           ++ discriminate.
           ++ destruct O9 as [O9|O9]; [rewrite Ep in O9; injection O9 as ->; lia|auto].
           ++ intros j Hj. right. auto.
        -- right. right. cbn. exists i. split; [lia|]. rewrite Et. cbn. auto.
      * exists c, b, (goto b HFinal). split; [exact Eb|]. split; [reflexivity|]. repeat (split; [reflexivity|]). split.
        -- intros [O1 O2 O3 O4 O5 O6 O7 O8 O9 O10]. constructor; cbn; auto; try exact I; try (rewrite Ep in *; auto); try discriminate.
           ++ destruct O9 as [O9|O9]; [injection O9 as ->; lia|auto].
        -- left. cbn. auto.
    + injection H as <-. exists c, b, (goto b (HHead (S i))). split; [exact Eb|]. split; [reflexivity|]. repeat (split; [reflexivity|]). split.
      * intros [O1 O2 O3 O4 O5 O6 O7 O8 O9 O10]. unfold below in O4. rewrite Ep in O4. destruct O4 as [O4 _]. constructor; cbn; auto; try exact I; try discriminate.
        -- split; [|lia]. intros j Hj. apply O4 in Hj. lia.
        -- destruct O9 as [O9|O9]; [rewrite Ep in O9; injection O9 as ->; lia|auto].
      * left. cbn. auto.
  - destruct (nth_error (sCalls s) c) as [b|] eqn:Eb; [|discriminate H]. destruct (existsb (Nat.eqb i) (bOpen b)) eqn:Eo; [|discriminate H].
    injection H as <-. right. eexists c, b, _. split; [exact Eb|]. split; [reflexivity|].
    apply existsb_exists in Eo as (i' & Hi & Ei). apply Nat.eqb_eq in Ei. subst i'. pose proof (removeNat_len i _ Hi) as Hlen.
    destruct (doCall (bId b) r) as [x|] eqn:Ed; [destruct (conclusive x) eqn:Ec|];
      (split; [reflexivity|]); (split; [reflexivity|]); (split; [reflexivity|]); (split; [|left; cbn; auto]);
      intros [O1 O2 O3 O4 O5 O6 O7 O8 O9 O10]; destruct O5 as [O5 O5'];
      assert (Hheard : forall y, In y (bHeard b) -> In y (match r with Some x => x :: bHeard b | None => bHeard b end)) by (intros y Hy; destruct r; [right|]; exact Hy);
      constructor; cbn [bId bRetries bLimit bPhase bSent bOpen bSucc bErr bHeard]; auto;
      try (split; [apply removeNat_NoDup, O5|intros j Hj; apply O5', (removeNat_incl _ _ _ Hj)]);
      try (intros y Hy; destruct (O7 y Hy); auto; fail);
      try (intros y Hy; destruct (O8 y Hy) as [[? ?]|?]; auto; fail).
    + rewrite app_length. cbn. lia.
    + intros y Hy. apply in_app_or in Hy as [Hy|[<-|[]]]; [destruct (O7 y Hy); auto|]. split; [|exact Ec].
      rewrite (doCall_conclusive _ _ _ Ed Ec). left. reflexivity.
    + lia.
    + intros j [<-|Hj]; [apply O5', Hi|auto].
    + lia.
  - destruct (nth_error (sCalls s) c) as [b|] eqn:Eb; [|discriminate H]. right.
    assert (G : exists r rest, bSucc b = r :: rest /\ s' = setCall s c (mkCall (bId b) (bRetries b) (bLimit b) (HDone r) (bSent b) (bOpen b) rest (bErr b) (bHeard b)) /\ bPhase b <> HHead 0).
    { destruct (bPhase b) eqn:Ep; destruct (bSucc b) as [|rr rest]; try discriminate H; injection H as <-; exists rr, rest; (split; [reflexivity|]); (split; [reflexivity|discriminate]). }
    destruct G as (r & rest & Es & -> & Hp). eexists c, b, _. split; [exact Eb|]. split; [reflexivity|]. repeat (split; [reflexivity|]). split; [|left; cbn; auto].
    intros [O1 O2 O3 O4 O5 O6 O7 O8 O9 O10]. rewrite Es in *. constructor; cbn; auto; try exact I.
    + cbn [length] in O6. lia.
    + intros y Hy. apply O7. right. exact Hy.
    + intros y Hy. injection Hy as <-. left. apply O7. left. reflexivity.
    + destruct O9 as [O9|O9]; [contradiction|auto].
  - destruct (nth_error (sCalls s) c) as [b|] eqn:Eb; [|discriminate H]. right.
    destruct (bPhase b) as [i|i| |r] eqn:Ep; destruct (bSent b) as [|last sent] eqn:Es; try discriminate H;
      destruct (existsb (Nat.eqb last) (bErr b)); try discriminate H; injection H as <-; eexists c, b, _; (split; [exact Eb|]); (split; [reflexivity|]);
      repeat (split; [reflexivity|]); (split; [|left; cbn; auto]); intros [O1 O2 O3 O4 O5 O6 O7 O8 O9 O10]; rewrite Es in *; constructor; cbn [bId bRetries bLimit bPhase bSent bOpen bSucc bErr bHeard]; auto; try exact I; try discriminate.
    + unfold below in *. cbn [bPhase bSent bRetries]. rewrite Ep, Es in O4. destruct O4 as [O4 O4']. split; [|lia]. intros j Hj. apply O4 in Hj. lia.
    + right. destruct O9 as [O9|O9]; [rewrite Ep in O9; discriminate|]. exact O9.
    + intros j Hj. apply O10, (removeNat_incl _ _ _ Hj).
    + intros y Hy. injection Hy as <-. right. apply timeout_is.
    + right. destruct O9 as [O9|O9]; [rewrite Ep in O9; discriminate|]. exact O9.
    + intros j Hj. apply O10, (removeNat_incl _ _ _ Hj).
  - destruct (nth_error (sCalls s) c) as [b|] eqn:Eb; [|discriminate H]. right. destruct (bPhase b) as [i|i| |r] eqn:Ep; try discriminate H. injection H as <-.
    eexists c, b, _. split; [exact Eb|]. split; [reflexivity|]. repeat (split; [reflexivity|]). split; [|left; cbn; auto].
    intros [O1 O2 O3 O4 O5 O6 O7 O8 O9 O10]. constructor; cbn; auto; try exact I; try discriminate.
    + unfold below in *. rewrite Ep in O4. destruct O4 as [O4 O4']. cbn. split; [|lia]. intros j Hj. apply O4 in Hj. lia.
    + right. destruct O9 as [O9|O9]; [rewrite Ep in O9; discriminate|]. exact O9.
  - destruct (nth_error (sCalls s) c) as [b|] eqn:Eb; [|discriminate H]. right.
    assert (G : s' = setCall s c (goto b (HDone (errorResponse (bId b) 400 timeoutMsg))) /\ bPhase b <> HHead 0).
    { destruct (bPhase b); try discriminate H; injection H as <-; split; [reflexivity|discriminate|reflexivity|discriminate]. }
    destruct G as [-> Hp]. eexists c, b, _. split; [exact Eb|]. split; [reflexivity|]. repeat (split; [reflexivity|]). split; [|left; cbn; auto].
    intros [O1 O2 O3 O4 O5 O6 O7 O8 O9 O10]. constructor; cbn; auto; try exact I.
    + intros y Hy. injection Hy as <-. right. apply timeout_is.
    + destruct O9 as [O9|O9]; [contradiction|auto].
Qed.

Definition calls_ok (s : sys) : Prop := forall c b, nth_error (sCalls s) c = Some b -> call_ok b.

Lemma init_call_ok id r l : (0 < r)%Z -> call_ok (mkCall id r l (HHead 0) [] [] [] [] []).
Proof.
  intro H. constructor; cbn; [exact H|constructor|intros ? []| |split; [constructor|intros ? []]|lia|intros ? []|discriminate|auto|intros ? []].
  unfold below. cbn. split; [intros ? []|lia].
Qed.

Lemma calls_ok_step s e s' : calls_ok s -> sysStep s e = Some s' -> calls_ok s'.
Proof.
  intros H E. destruct (step_call s e s' E) as [(id & r & l & _ & Hr & Hl & _ & _ & Ec)|(c & b & b' & Eb & Ec & _ & _ & _ & Hok & _)]; intros d x Hx; rewrite Ec in Hx.
  - destruct (Nat.lt_ge_cases d (length (sCalls s))) as [Hd|Hd].
    + rewrite nth_error_app1 in Hx by exact Hd. apply (H _ _ Hx).
    + rewrite nth_error_app2 in Hx by exact Hd. destruct (d - length (sCalls s)) as [|k]; [injection Hx as <-; apply init_call_ok, Hr|destruct k; discriminate].
  - destruct (Nat.eq_dec d c) as [->|Hne].
    + rewrite list_set_same in Hx by (apply nth_error_Some; congruence). injection Hx as <-. apply Hok, (H _ _ Eb).
    + rewrite list_set_other in Hx by exact Hne. apply (H _ _ Hx).
Qed.

Lemma sysRun_ind (P : sys -> Prop) es : forall s s', (forall s e s', P s -> sysStep s e = Some s' -> P s') -> P s -> sysRun s es = Some s' -> P s'.
Proof.
  induction es as [|e es IH]; intros s s' Hs H E; cbn [sysRun] in E; [congruence|].
  destruct (sysStep s e) as [s1|] eqn:E1; [|discriminate]. apply (IH s1); auto. apply (Hs _ _ _ H E1).
Qed.

Lemma reachable_calls_ok start es s : sysRun (sysInit start) es = Some s -> calls_ok s.
Proof. apply sysRun_ind; [intros; eapply calls_ok_step; eassumption|]. intros [|c] b Hc; discriminate. Qed.

(* pigeonhole on distinct indices below a bound *)
Lemma nodup_bound (l : list nat) n : NoDup l -> (forall j, In j l -> j < n) -> length l <= n.
Proof.
  intros H1 H2. rewrite <- (seq_length n 0). apply NoDup_incl_length; [exact H1|]. intros j Hj. apply in_seq. specialize (H2 j Hj). lia.
Qed.

Lemma sent_bound b : call_ok b -> (Z.of_nat (length (bSent b)) <= bRetries b + 1)%Z.
Proof.
  intros [O1 O2 O3 _ _ _ _ _ _ _]. pose proof (nodup_bound (bSent b) (Z.to_nat (bRetries b + 1)) O2) as H.
  specialize (H ltac:(intros j Hj; specialize (O3 j Hj); lia)). lia.
Qed.

(* a call's requests in the log are its sent requests *)
Definition log_count (s : sys) (c : nat) : nat := countb (of_call c) (sLog s).
Definition log_ok (s : sys) : Prop :=
  forall c, countb (fun l => of_call c l) (sLog s) = match nth_error (sCalls s) c with Some b => length (bSent b) | None => 0 end.

Lemma log_ok_step s e s' : log_ok s -> sysStep s e = Some s' -> log_ok s'.
Proof.
  intros H E. destruct (step_call s e s' E) as [(id & r & l & _ & _ & _ & _ & El & Ec)|(c & b & b' & Eb & Ec & _ & _ & _ & _ & Hcase)]; intro d; rewrite Ec.
  - rewrite El, (H d). destruct (Nat.lt_ge_cases d (length (sCalls s))) as [Hd|Hd].
    + rewrite nth_error_app1 by exact Hd. reflexivity.
    + rewrite nth_error_app2 by exact Hd. assert (En : nth_error (sCalls s) d = None) by (apply nth_error_None; exact Hd). rewrite En.
      destruct (d - length (sCalls s)) as [|[|k]]; reflexivity.
  - assert (Hlt : c < length (sCalls s)) by (apply nth_error_Some; congruence).
    assert (G : nth_error (list_set (sCalls s) c b') d = if Nat.eqb d c then Some b' else nth_error (sCalls s) d) by (apply list_set_nth_error, Hlt).
    rewrite G. specialize (H d).
    destruct Hcase as [(Es & _ & El)|[(Es & _ & now & _ & El)|(i & _ & Es & _ & El)]]; rewrite El.
    + destruct (Nat.eqb_spec d c) as [->|Hne]; [rewrite Eb in H; rewrite Es|]; exact H.
    + rewrite countb_cons. assert (E0 : countb (fun l => of_call d l) ((if snd (updateCallRecord (sCnt s) now) then [LReset] else []) ++ sLog s) = countb (fun l => of_call d l) (sLog s)) by (destruct (snd _); reflexivity).
      rewrite E0. cbn [of_call]. destruct (Nat.eqb_spec d c) as [->|Hne]; [rewrite Eb in H; rewrite Es; cbn [length]; lia|lia].
    + rewrite countb_cons. cbn [of_call]. destruct (Nat.eqb_spec d c) as [->|Hne]; [rewrite Eb in H; rewrite Es; cbn [length]; lia|lia].
Qed.

Lemma reachable_log_ok start es s : sysRun (sysInit start) es = Some s -> log_ok s.
Proof. apply sysRun_ind; [intros; eapply log_ok_step; eassumption|]. intros [|c]; reflexivity. Qed.

(* ---- rounds *)
(* the stretch of the log since the last reset, the log being latest first *)
Fixpoint since (log : list logitem) : list logitem :=
  match log with [] => [] | LReset :: _ => [] | x :: r => x :: since r end.

Record cnt_ok (L : Z) (s : sys) : Prop := {
  cn_total : cTotal (sCnt s) = Z.of_nat (countb is_request (since (sLog s)));
  cn_retry : cRetry (sCnt s) = Z.of_nat (countb is_backup (since (sLog s)));
  cn_t : (cTotal (sCnt s) <= 101)%Z;
  cn_r : (cRetry (sCnt s) <= L)%Z;
  cn_l : forall c b, nth_error (sCalls s) c = Some b -> (bLimit b <= L)%Z;
  (* every stretch of the log without reset is as short *)
  cn_seg : forall a seg z, sLog s = a ++ seg ++ z -> one_round seg ->
     (Z.of_nat (countb is_request seg) <= 101 /\ Z.of_nat (countb is_backup seg) <= L)%Z }.

Lemma since_prefix log seg z : log = seg ++ z -> one_round seg -> exists t, since log = seg ++ t.
Proof.
  revert log. induction seg as [|x seg IH]; intros log -> H; [eexists; reflexivity|]. unfold one_round in *. rewrite countb_cons in H.
  destruct x; cbn [is_reset] in H; [lia| |]; cbn [app since]; destruct (IH (seg ++ z) eq_refl ltac:(lia)) as [t ->]; exists t; reflexivity.
Qed.

Definition limits_within (L : Z) (e : ev) : Prop := match e with EStart _ _ l => (l <= L)%Z | _ => True end.

Lemma cnt_ok_step L s e s' : (0 <= L)%Z -> cnt_ok L s -> limits_within L e -> sysStep s e = Some s' -> cnt_ok L s'.
Proof.
  intros HL [H1 H2 H3 H4 H5 H6] Hlim E.
  assert (SEG : (sLog s' = sLog s \/ exists x, (sLog s' = x :: sLog s \/ sLog s' = x :: LReset :: sLog s /\ is_backup x = false) /\ is_reset x = false) ->
     (Z.of_nat (countb is_request (since (sLog s'))) <= 101)%Z -> (Z.of_nat (countb is_backup (since (sLog s'))) <= L)%Z ->
     forall a seg z, sLog s' = a ++ seg ++ z -> one_round seg -> (Z.of_nat (countb is_request seg) <= 101 /\ Z.of_nat (countb is_backup seg) <= L)%Z).
  { intros Hs Hq Hb a seg z Ea Ho. destruct Hs as [Hs|(x & Hs & Hx)]; [rewrite Hs in Ea; eapply H6; eassumption|].
    destruct a as [|y a].
    - cbn in Ea. destruct (since_prefix _ _ _ Ea Ho) as [t Et]. rewrite Et, !countb_app in *. lia.
    - destruct Hs as [Hs|[Hs Hnb]]; rewrite Hs in Ea; injection Ea as _ Ea; [eapply H6; eassumption|].
      destruct a as [|y' a]; [|injection Ea as _ Ea; eapply H6; eassumption].
      cbn in Ea. destruct seg as [|w seg]; [cbn; lia|]. injection Ea as <- Ea. unfold one_round in Ho. rewrite countb_cons in Ho. cbn in Ho. lia. }
  destruct (step_call s e s' E) as [(id & r & l & Ee & _ & _ & Ecn & El & Ec)|(c & b & b' & Eb & Ec & _ & _ & Elim & _ & Hcase)].
  - subst e. cbn in Hlim. constructor; rewrite ?Ecn, ?El; auto. intros d x Hx. rewrite Ec in Hx.
    destruct (Nat.lt_ge_cases d (length (sCalls s))) as [Hd|Hd].
    + rewrite nth_error_app1 in Hx by exact Hd. apply (H5 _ _ Hx).
    + rewrite nth_error_app2 in Hx by exact Hd. destruct (d - length (sCalls s)) as [|k]; [injection Hx as <-; exact Hlim|destruct k; discriminate].
  - assert (LIM : forall d x, nth_error (sCalls s') d = Some x -> (bLimit x <= L)%Z).
    { intros d x Hx. rewrite Ec in Hx. destruct (Nat.eq_dec d c) as [->|Hne].
      - rewrite list_set_same in Hx by (apply nth_error_Some; congruence). injection Hx as <-. rewrite Elim. apply (H5 _ _ Eb).
      - rewrite list_set_other in Hx by exact Hne. apply (H5 _ _ Hx). }
    destruct Hcase as [(_ & Ecn & El)|[(_ & _ & now & Ecn & El)|(i & _ & _ & Et & El)]].
    + constructor; rewrite ?Ecn, ?El; auto.
    + assert (SS : (cTotal (sCnt s') = Z.of_nat (countb is_request (since (sLog s'))) /\ cRetry (sCnt s') = Z.of_nat (countb is_backup (since (sLog s'))) /\ cTotal (sCnt s') <= 101 /\ cRetry (sCnt s') <= L)%Z).
      { rewrite Ecn, El. unfold updateCallRecord. destruct ((counterRoundCount <? cTotal (sCnt s)) || (counterScaleThreshold <=? now - cReset (sCnt s)))%Z eqn:Eb2.
        - cbn [fst snd since app cTotal cRetry]. rewrite countb_cons. cbn [is_request]. unfold countb. cbn. lia.
        - apply orb_false_iff in Eb2 as [Eb2 _]. unfold counterRoundCount in Eb2. apply Z.ltb_ge in Eb2. cbn [fst snd since app cTotal cRetry]. rewrite !countb_cons. cbn [is_request is_backup]. lia. }
      destruct SS as (S1 & S2 & S3 & S4). constructor; auto.
      apply SEG; [|lia|lia]. right. exists (LReq c). split; [|reflexivity]. rewrite El. destruct (snd _); cbn; auto.
    + assert (SS : (cTotal (sCnt s') = Z.of_nat (countb is_request (since (sLog s'))) /\ cRetry (sCnt s') = Z.of_nat (countb is_backup (since (sLog s'))) /\ cTotal (sCnt s') <= 101 /\ cRetry (sCnt s') <= L)%Z).
      { unfold tryAcquirePermit in Et. destruct (Z.leb_spec (bLimit b) (cRetry (sCnt s))) as [Hle|Hgt]; [discriminate|]. injection Et as Ecn. rewrite <- Ecn, El.
        cbn [since cTotal cRetry]. rewrite !countb_cons. cbn [is_request is_backup]. pose proof (H5 _ _ Eb). lia. }
      destruct SS as (S1 & S2 & S3 & S4). constructor; auto.
      apply SEG; [|lia|lia]. right. exists (LBackup c). split; [|reflexivity]. rewrite El. auto.
Qed.

Lemma reachable_cnt_ok L start es : (0 <= L)%Z -> Forall (limits_within L) es -> forall s, sysRun (sysInit start) es = Some s -> cnt_ok L s.
Proof.
  intros HL Hes. assert (G : forall s s', cnt_ok L s -> sysRun s es = Some s' -> cnt_ok L s').
  { induction Hes as [|e es He _ IH]; intros s s' H E; cbn [sysRun] in E; [congruence|].
    destruct (sysStep s e) as [s1|] eqn:E1; [|discriminate]. apply (IH s1); [|exact E]. eapply cnt_ok_step; eassumption. }
  intro s. apply G. constructor; cbn; try lia.
  - intros [|c] b Hc; discriminate.
  - intros a seg z E _. symmetry in E. apply app_eq_nil in E as [_ E]. apply app_eq_nil in E as [-> _]. cbn. lia.
Qed.

(* once returned, the answer never changes *)
Lemma done_stays s e s' c b r : sysStep s e = Some s' -> nth_error (sCalls s) c = Some b -> bPhase b = HDone r ->
  exists b', nth_error (sCalls s') c = Some b' /\ bPhase b' = HDone r /\ bSent b' = bSent b.
Proof.
  intros E Eb Ep. assert (Hlt : c < length (sCalls s)) by (apply nth_error_Some; congruence).
  destruct e as [id r' l|c' now sel|c' i r'|c'|c'|c'|c']; cbn [sysStep] in E.
  1:{ destruct ((0 <? r') && (0 <? l))%Z; [|discriminate]. injection E as <-. cbn. rewrite nth_error_app1 by exact Hlt. eauto. }
  all: destruct (nth_error (sCalls s) c') as [x|] eqn:Ex; [|discriminate E]; destruct (Nat.eq_dec c c') as [<-|Hne];
    [assert (x = b) by congruence; subst x; rewrite ?Ep in E; try discriminate E
    |assert (K : forall cn (y : bcall) lg, nth_error (sCalls (mkSys cn (list_set (sCalls s) c' y) lg)) c = Some b) by (intros; cbn; rewrite list_set_other by exact Hne; exact Eb)].
  - destruct (bPhase x); try discriminate E. destruct (bRetries x <? Z.of_nat i)%Z; [injection E as <-; unfold setCall; rewrite K; eauto|].
    destruct (Nat.eqb i 0); [destruct (updateCallRecord (sCnt s) now); injection E as <-; rewrite K; eauto|].
    destruct (negb sel); [injection E as <-; unfold setCall; rewrite K; eauto|]. destruct (tryAcquirePermit (sCnt s) (bLimit x)) as [? []]; injection E as <-; unfold setCall; rewrite K; eauto.
  - destruct (existsb (Nat.eqb i) (bOpen b)); [|discriminate E]. injection E as <-. unfold setCall. cbn [sCalls]. rewrite list_set_same by exact Hlt.
    eexists. split; [reflexivity|]. destruct (doCall (bId b) r') as [y|]; [destruct (conclusive y)|]; cbn; auto.
  - destruct (existsb (Nat.eqb i) (bOpen x)); [|discriminate E]. injection E as <-. unfold setCall. rewrite K. eauto.
  - destruct (bPhase x); destruct (bSucc x); try discriminate E; injection E as <-; unfold setCall; rewrite K; eauto.
  - destruct (bPhase x); destruct (bSent x); try discriminate E; destruct (existsb _ _); try discriminate E; injection E as <-; unfold setCall; rewrite K; eauto.
  - destruct (bPhase x); try discriminate E; injection E as <-; unfold setCall; rewrite K; eauto.
  - destruct (bPhase x); try discriminate E; injection E as <-; unfold setCall; rewrite K; eauto.
Qed.

Lemma done_stays_run es : forall s s' c b r, sysRun s es = Some s' -> nth_error (sCalls s) c = Some b -> bPhase b = HDone r ->
  exists b', nth_error (sCalls s') c = Some b' /\ bPhase b' = HDone r /\ bSent b' = bSent b.
Proof.
  induction es as [|e es IH]; intros s s' c b r E Eb Ep; cbn [sysRun] in E; [injection E as <-; eauto|].
  destruct (sysStep s e) as [s1|] eqn:E1; [|discriminate]. destruct (done_stays _ _ _ _ _ _ E1 Eb Ep) as (b1 & H1 & H2 & H3).
  destruct (IH _ _ _ _ _ E H1 H2) as (b2 & G1 & G2 & G3). exists b2. split; [exact G1|]. split; [exact G2|congruence].
Qed.

(* a success that has arrived can be taken in every waiting state *)
Lemma success_enabled s c b : nth_error (sCalls s) c = Some b -> bSucc b <> [] ->
  (exists i, bPhase b = HWait i) \/ bPhase b = HFinal -> exists s', sysStep s (ESuccess c) = Some s'.
Proof.
  intros Eb Hs Hp. cbn [sysStep]. rewrite Eb. destruct (bSucc b) as [|r rest]; [congruence|].
  destruct Hp as [(i & ->)| ->]; eexists; reflexivity.
Qed.

Lemma entry_spec u m d sel p : match backupEntry u m d sel p with
  | BNoEndpoint => sel = false
  | BDirect => sel = true
  | BBackup r delay limit timeout => sel = true /\ (0 < r)%Z /\ r = retries_for u m d /\ (0 < delay)%Z /\ (0 < limit)%Z /\ (0 < timeout)%Z
  end.
Proof.
  unfold backupEntry. destruct sel; cbn [negb]; [|reflexivity].
  assert (P : forall k z, (0 < z)%Z -> (0 < if_positive (method_int_or u m d (s2b k) z) z)%Z) by (intros; unfold if_positive; destruct (Z.ltb_spec 0 (method_int_or u m d (s2b k) z)); lia).
  pose proof (P "backupRequestMaxRetryRatio"%string 15%Z ltac:(lia)) as P1. pose proof (P "requestTimeout"%string 1000%Z ltac:(lia)) as P2.
  unfold retries_for. change RetriesKey with (s2b "retries").
  destruct (Z.leb_spec (method_int_or u m d (s2b "retries") 0) 0) as [|Hr]; [reflexivity|].
  destruct (Z.ltb_spec 0 (method_int_or u m d (s2b "backupRequestDelayTime") 0)) as [Hd|Hd].
  - repeat split; lia.
  - destruct (p _) as [z|].
    + destruct (Z.ltb_spec z 10); repeat split; lia.
    + destruct (Z.eqb_spec (if_positive (method_int_or u m d (s2b "backupRequestInitDelayTime") 0) 0) 0) as [|Hne]; [reflexivity|].
      destruct (Z.ltb_spec (if_positive (method_int_or u m d (s2b "backupRequestInitDelayTime") 0) 0) 10); repeat split; lia.
Qed.
