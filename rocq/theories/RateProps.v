(* RateProps.v: C47, the rate limit filter. *)
From Coq Require Import QArith Lia.
From Verif Require Import Base Lists Strconv GoStrings2 UrlModel UrlSpec UrlProofs EpProofs RateModel RateSpec RateProofs.
Local Open Scope Z_scope.

(* ---- one bucket: whatever asks, in any window no more go on than the capacity (or one refill, if larger) plus what was refilled meanwhile *)
Theorem C47_bucket b t0 ops t1 t2 : fresh_bucket b t0 -> in_order t0 ops -> t1 <= t2 ->
  Z.of_nat (countb (within t1 t2) (takes b ops)) <= allowance b t1 t2.
Proof. exact (takes_bound b t0 ops t1 t2). Qed.
Print Assumptions C47_bucket.
(* and the first [capacity] requests go on at once *)
Theorem C47_burst b t0 ops : fresh_bucket b t0 -> in_order t0 ops -> Z.of_nat (length ops) <= bCap b -> takes b ops = map fst ops.
Proof. exact (burst b t0 ops). Qed.
Print Assumptions C47_burst.
Definition b3 : bucket := newBucket 0 100 1 3.
Example C47_bucket_example : fresh_bucket b3 0 /\ in_order 0 (repeat (10, 250) 7 ++ [(310, 0); (400, 50)]) /\
  takes b3 (repeat (10, 250) 7 ++ [(310, 0); (400, 50)]) = [10; 10; 10; 100; 200; 310; 400] /\ allowance b3 10 200 = 5 /\
  countb (within 10 200) (takes b3 (repeat (10, 250) 7)) = 5%nat.
Proof. split; [constructor; reflexivity || (cbn; discriminate)|]. split; [cbn; repeat split; discriminate|]. repeat split. Qed.

(* ---- the filter, for any number of calls in any interleaving, while its switcher stays open *)
(* calls of a limited method that go on to the next filter *)
Theorem C47_method s t0 os m b t1 t2 : new_filter s -> aget bs_eqb (rlMethods (ryF s)) m = Some b -> fresh_bucket b t0 -> stays_on os -> in_order t0 os -> t1 <= t2 ->
  Z.of_nat (countb (forwarded_of m t1 t2) (ryCalls (rlMoves s os))) <= allowance b t1 t2.
Proof. exact (method_bound s t0 os m b t1 t2). Qed.
Print Assumptions C47_method.
(* calls the service limit lets pass; and none goes on to the next filter without having passed it before *)
Theorem C47_service s t0 os b t1 t2 : new_filter s -> rlService (ryF s) = Some b -> fresh_bucket b t0 ->
  (forall m b', aget bs_eqb (rlMethods (ryF s)) m = Some b' -> fresh_bucket b' t0) -> stays_on os -> in_order t0 os -> t1 <= t2 ->
  Z.of_nat (countb (past_service t1 t2) (ryCalls (rlMoves s os))) <= allowance b t1 t2 /\
  (forall c t, In c (ryCalls (rlMoves s os)) -> rcState c = RFwd t -> exists t', rcService c = Some t' /\ t' <= t).
Proof. exact (service_bound s t0 os b t1 t2). Qed.
Print Assumptions C47_service.
Definition mb : bucket := newBucket 0 1000 1 1.
Definition filter3 : rlsys := mkRlsys (mkRlim true (Some (newBucket 0 100 1 1)) 1000 [(s2b "m1", mb); (s2b "m2", mb); (s2b "m3", mb)]) [].
Definition two_calls (t : Z) (m : string) (i : nat) : list (Z * rlop) :=
  [(t, RArrive (s2b m) 1000); (t, RResume i); (t + 100, RArrive (s2b m) 1000); (t + 100, RResume (S i))].
Definition schedule3 : list (Z * rlop) := two_calls 0 "m1" 0 ++ two_calls 200 "m2" 2 ++ two_calls 400 "m3" 4.
Example C47_filter_example : new_filter filter3 /\ stays_on schedule3 /\ in_order 0 schedule3 /\ fresh_bucket mb 0 /\ fresh_bucket (newBucket 0 100 1 1) 0 /\
  map (fun c => rcState c) (ryCalls (rlMoves filter3 schedule3)) = [RFwd 0; RFwd 1000; RFwd 200; RFwd 1000; RFwd 400; RFwd 1000] /\
  countb (forwarded_of (s2b "m1") 0 1000) (ryCalls (rlMoves filter3 schedule3)) = 2%nat /\ allowance mb 0 1000 = 2.
Proof.
  split; [split; reflexivity|]. split; [intros t on H; cbn in H; repeat (destruct H as [H|H]; [discriminate H|]); exact H|].
  split; [cbn; repeat split; discriminate|]. split; [constructor; reflexivity || (cbn; discriminate)|]. split; [constructor; reflexivity || (cbn; discriminate)|]. repeat split.
Qed.
(* "no more calls than the service limit allows go on in a window" is false when methods are limited too: calls that have passed the
   service limit one by one wait for their methods and then go on together *)
Theorem C47_service_window_refuted : exists s t0 os b t1 t2, new_filter s /\ rlService (ryF s) = Some b /\ fresh_bucket b t0 /\
  (forall m b', aget bs_eqb (rlMethods (ryF s)) m = Some b' -> fresh_bucket b' t0) /\ stays_on os /\ in_order t0 os /\ t1 <= t2 /\
  allowance b t1 t2 < Z.of_nat (countb (fun c => match rcState c with RFwd t => within t1 t2 t | _ => false end) (ryCalls (rlMoves s os))).
Proof.
  destruct C47_filter_example as (E1 & E2 & E3 & E4 & E5 & _).
  exists filter3, 0, schedule3, (newBucket 0 100 1 1), 1000, 1000. split; [exact E1|]. split; [reflexivity|]. split; [exact E5|].
  split; [|split; [exact E2|split; [exact E3|split; [apply Z.le_refl|reflexivity]]]].
  intros m b' H. cbn [filter3 ryF rlMethods aget] in H. repeat (match type of H with context [bs_eqb ?a ?b] => destruct (bs_eqb a b) end; [injection H as <-; exact E4|]). discriminate H.
Qed.
Print Assumptions C47_service_window_refuted.
(* "a call refused by its method costs the other methods nothing" is false: the service token is gone *)
Theorem C47_refused_is_charged_refuted : exists s t0 os b, new_filter s /\ rlService (ryF s) = Some b /\ fresh_bucket b t0 /\ stays_on os /\ in_order t0 os /\
  Z.of_nat (countb (fun c => match rcState c with RRefused => false | _ => true end) (ryCalls (rlMoves s os))) < bCap b /\
  exists c, In c (ryCalls (rlMoves s os)) /\ rcState c = RRefused /\ aget bs_eqb (rlMethods (ryF s)) (rcMethod c) = None.
Proof.
  exists (mkRlsys (mkRlim true (Some (newBucket 0 100 1 2)) 0 [(s2b "m1", mb)]) []), 0,
    [(0, RArrive (s2b "m1") 0); (0, RResume 0); (0, RArrive (s2b "m1") 0); (0, RResume 1); (0, RArrive (s2b "m2") 0)], (newBucket 0 100 1 2).
  split; [split; reflexivity|]. split; [reflexivity|]. split; [constructor; reflexivity || (cbn; discriminate)|].
  split; [intros t on H; cbn in H; repeat (destruct H as [H|H]; [discriminate H|]); exact H|]. split; [cbn; repeat split; discriminate|]. split; [reflexivity|].
  eexists. split; [right; right; left; reflexivity|]. split; reflexivity.
Qed.
Print Assumptions C47_refused_is_charged_refuted.

(* ---- configuration *)
(* a method is limited exactly when the URL has "rateLimit.<method>" with a positive number *)
Theorem C47_method_rates pf params m r : NoDup (akeys params) ->
  (aget bs_eqb (methodRates pf params) m = Some r <->
   exists v, In (s2b "rateLimit." ++ m, v) params /\ m <> [] /\ contains m (s2b "rateLimit.") = false /\ pf v = Some r /\ Qle_bool r 0 = false).
Proof. exact (methodRates_spec pf params m r). Qed.
Print Assumptions C47_method_rates.
Example C47_method_rates_example :
  methodRates (fun v => if bs_eqb v (s2b "2.5") then Some (5 # 2)%Q else if bs_eqb v (s2b "-1") then Some (-1 # 1)%Q else None)
              [(s2b "rateLimit.hello", s2b "2.5"); (s2b "rateLimit.", s2b "2.5"); (s2b "rateLimit.bye", s2b "-1"); (s2b "xrateLimit.m", s2b "2.5")] = [(s2b "hello", (5 # 2)%Q)].
Proof. reflexivity. Qed.
(* the service is limited exactly when "rateLimit" is a positive number *)
Theorem C47_service_rate pf u r : serviceRate pf u = Some r <-> exists v, param u (s2b "rateLimit") = Some v /\ v <> [] /\ pf v = Some r /\ Qle_bool r 0 = false.
Proof.
  unfold serviceRate. rewrite getParam_str_or. unfold str_or.
  destruct (param u (s2b "rateLimit")) as [v|]; [|split; [intro X; discriminate X|intros (v & X & _); discriminate X]].
  destruct v as [|x v]; [split; [intro X; discriminate X|intros (v & X & Y & _); injection X as <-; contradiction]|]. cbn [bs_empty bs_eqb].
  destruct (pf (x :: v)) as [q|] eqn:P; [destruct (Qle_bool q 0) eqn:Q|].
  - split; [intro X; discriminate X|]. intros (w & X & _ & Y & Z0). injection X as <-. congruence.
  - split; [intro X; injection X as <-; exists (x :: v); repeat split; [intro Y; discriminate Y|exact P|exact Q]|]. intros (w & X & _ & Y & Z0). injection X as <-. congruence.
  - split; [intro X; discriminate X|]. intros (w & X & _ & Y & Z0). injection X as <-. congruence.
Qed.
Print Assumptions C47_service_rate.
(* the capacity is the configured positive number, and otherwise between 1000 and 5000 *)
Theorem C47_capacity u r m :
  (forall z, int_param u (s2b "capacity") = Some z -> 0 < z -> getCapacity u r = z) /\
  ((forall z, int_param u (s2b "capacity") = Some z -> z <= 0) -> 1000 <= getCapacity u r <= 5000) /\
  0 < getMethodCapacity u r m.
Proof.
  unfold getCapacity, getMethodCapacity. rewrite posInt_fresh, methodPosInt_fresh. pose proof (defaultCapacity_bounds r) as B. unfold int_or, if_positive.
  destruct (int_param u (s2b "capacity")) as [z|].
  - split; [intros z' X P; injection X as <-; destruct (Z.ltb_spec 0 z); lia|]. split; [intro H; specialize (H z eq_refl); destruct (Z.ltb_spec 0 z); lia|].
    destruct (Z.ltb_spec 0 (method_int_or u m [] (s2b "capacity") (getDefaultCapacity r))); lia.
  - split; [intros z X; discriminate X|]. split; [intros _; destruct (Z.ltb_spec 0 (getDefaultCapacity r)); lia|].
    destruct (Z.ltb_spec 0 (method_int_or u m [] (s2b "capacity") (getDefaultCapacity r))); lia.
Qed.
Print Assumptions C47_capacity.
(* without a positive parameter "capacity" the capacity of the service is twice the rate, rounded down and kept within 1000 and 5000;
   a method takes its own or the service's parameter, if positive, and else the same number from its own rate *)
Theorem C47_default_capacity u r m :
  ((forall z, int_param u (s2b "capacity") = Some z -> z <= 0) ->
   ((r * 2 < 1000 # 1)%Q -> getCapacity u r = 1000) /\ ((5000 # 1 < r * 2)%Q -> getCapacity u r = 5000) /\
   (((1000 # 1) <= r * 2 <= (5000 # 1))%Q -> (inject_Z (getCapacity u r) <= r * 2 < inject_Z (getCapacity u r + 1))%Q)) /\
  getMethodCapacity u r m = if_positive (method_int_or u m [] (s2b "capacity") (getDefaultCapacity r)) (getDefaultCapacity r).
Proof.
  unfold getCapacity, getMethodCapacity. rewrite posInt_fresh, methodPosInt_fresh. split; [|reflexivity]. intro H.
  assert (E : if_positive (int_or u (s2b "capacity") (getDefaultCapacity r)) (getDefaultCapacity r) = getDefaultCapacity r).
  { unfold int_or, if_positive. destruct (int_param u (s2b "capacity")) as [z|]; [specialize (H z eq_refl); destruct (Z.ltb_spec 0 z); [exfalso; apply (Z.lt_irrefl 0); eapply Z.lt_le_trans; eassumption|reflexivity]|].
    destruct (0 <? getDefaultCapacity r); reflexivity. }
  rewrite E. apply defaultCapacity_exact.
Qed.
Print Assumptions C47_default_capacity.
(* a method waits for a token at most as long as the call's timeout: the attachment's milliseconds if there is one, zero if that is
   not a number, else the configured milliseconds (one second without) *)
Theorem C47_method_wait u method desc attachment :
  (attachment = [] -> methodMaxWait u method desc attachment = wrapI64 (if_positive (method_int_or u method desc (s2b "requestTimeout") 1000) 1000 * 1000 * 1000)) /\
  (forall z, -9223372036854 <= z <= 9223372036854 -> attachment = fmtZ z -> methodMaxWait u method desc attachment = z * 1000 * 1000) /\
  (attachment <> [] -> snd (parseInt64 attachment) <> NumOk -> methodMaxWait u method desc attachment = 0).
Proof.
  unfold methodMaxWait. split; [|split].
  - intros ->. cbn [bs_eqb negb]. rewrite methodPosInt_fresh. change TimeOutKey with (s2b "requestTimeout"). f_equal. ring.
  - intros z Hz ->. replace (bs_eqb (fmtZ z) []) with false by (symmetry; apply bs_eqb_neq; apply (fmtZ_clean z)). cbn [negb].
    rewrite parse_fmtZ by lia. rewrite wrapI64_id by lia. ring.
  - intros Hn Hp. replace (bs_eqb attachment []) with false by (symmetry; apply bs_eqb_neq; exact Hn). cbn [negb].
    destruct (parseInt64 attachment) as [v e]. cbn [snd] in Hp. destruct e; [contradiction| |]; reflexivity.
Qed.
Print Assumptions C47_method_wait.
Example C47_method_wait_example : let u := mkUrl (s2b "motan2") (s2b "h") 1 (s2b "svc") (s2b "g") (Some [(s2b "m().requestTimeout", s2b "30")]) in
  methodMaxWait u (s2b "m") [] (s2b "250") = 250 * 1000 * 1000 /\ methodMaxWait u (s2b "m") [] (s2b "x") = 0 /\
  getDefaultCapacity (1501 # 2) = 1501 /\ getDefaultCapacity (1 # 2) = 1000.
Proof. vm_compute. repeat split. Qed.
