(* AccProps.v: C89. *)
From Verif Require Import Base GoStrings GoStrings2 Strconv UrlModel AccModel AccSpec AccProofs.
From Coq Require Import Permutation.
Ltac Zify.zify_post_hook ::= idtac.

(* A call through an endpoint is recorded once, as soon as it is answered, with the endpoint's address; a cluster's call
   likewise.  A served call is recorded once, after its response was sent, with the caller's address and the time from
   receiving the request to sending the response; nothing is recorded of a request that could not be read. *)
Theorem C89_once : forall k r t0 t1 h p,
  accFilter (AEndpoint h p) t0 t1 k r = ([mkAsk (s2b "accessLog") (s2b "client-agent") (h ++ s2b ":" ++ fmtZ p) (millis t1 t0) k r], false) /\
  accCluster t0 t1 k r = [mkAsk (s2b "clusterAccessLog") (s2b "client-agent") [] (millis t1 t0) k r] /\
  accFilter AProvider t0 t1 k r = ([], true) /\
  (forall conv, fst (serveV2 true k (Some r) conv) = [mkAsk (s2b "accessLog") (s2b "server-agent") (k_host k) (millis (k_sent k) (k_recv k)) k r]) /\
  fst (serveV1 true k (Some r) true) = [mkAsk (s2b "accessLog") (s2b "server-agent") (k_host k) (millis (k_sent k) (k_recv k)) k r] /\
  forall hd c, fst (serveV2 false k hd c) = [] /\ fst (serveV1 false k hd c) = [].
Proof. intros. repeat split. Qed.
Print Assumptions C89_once.
(* times are whole milliseconds, rounded down, unless the clock says 292 years or something negative *)
Theorem C89_millis : forall t0 t1, (0 <= t1 - t0 <= 9223372036854775807)%Z -> (millis t1 t0 * 1000000 <= t1 - t0 < (millis t1 t0 + 1) * 1000000)%Z.
Proof.
  intros t0 t1 H. unfold millis. rewrite Z.min_r, Z.max_r, Z.quot_div_nonneg by lia. pose proof (Z.div_mod (t1 - t0) 1000000 ltac:(discriminate)). pose proof (Z.mod_pos_bound (t1 - t0) 1000000 ltac:(reflexivity)). lia.
Qed.
Print Assumptions C89_millis.

(* Whatever goroutines log, whatever the consumer does when, and however often the mode is changed: every record that was
   not discarded has been written (or hidden, or lost to a panic), or is still waiting, exactly once and with the data of
   its own call, although the memory of records is used again. *)
Theorem C89_account : forall render cap zero l s ev, accRun render cap zero (accInit zero) l = Some (s, ev) ->
  Permutation (map record_of (queued ev)) (done ev ++ pending s) /\
  forall e b, In (GOut e b) ev -> exists ts, b = outLine ts (accLine e) \/ b = render ts e.
Proof.
  intros render cap zero l s ev H. destruct (run_account render cap zero l _ _ _ (inv_init zero) H) as (_ & P & _). split; [exact P|]. intros e b. exact (run_seen render cap zero l _ _ _ e b H).
Qed.
Print Assumptions C89_account.
(* With SetAsync(true) called once, by LogInit, records are written in the order they were logged. *)
Theorem C89_order : forall render cap zero l s ev, Forall no_async l -> accRun render cap zero (accInit zero) (AAsync true :: l) = Some (s, ev) ->
  map record_of (queued ev) = done ev ++ pending s.
Proof.
  intros render cap zero l s ev F H. cbn [accRun] in H. destruct (accStep render cap zero (accInit zero) (AAsync true)) as [[s1 e1]|] eqn:E; [|discriminate].
  assert (e1 = []) as -> by (injection E; auto). destruct (start_single render cap zero s1 E) as (S1 & V1 & P1). destruct (accRun render cap zero s1 l) as [[s2 e2]|] eqn:E2; [|discriminate]. injection H as <- <-.
  destruct (single_run render cap zero l _ _ _ V1 S1 F E2) as [_ P]. rewrite P1 in P. exact P.
Qed.
Print Assumptions C89_order.
(* A record is discarded only when as many records as the buffer holds are waiting, and the numbers reported by the
   sampler, with what it will report next, add up to the number of discarded records (as a 64-bit number). *)
Theorem C89_discards : forall render cap zero l s ev, accRun render cap zero (accInit zero) l = Some (s, ev) ->
  ((sampled ev + g_disc s) mod 2 ^ 64 = Z.of_nat (length (discarded ev)) mod 2 ^ 64)%Z /\
  forall o s' ev', accStep render cap zero s o = Some (s', ev') -> discarded ev' <> [] -> cap <= length (pending s).
Proof.
  intros render cap zero l s ev H. destruct (run_account render cap zero l _ _ _ (inv_init zero) H) as (V & _ & D). split; [exact D|].
  intros o s' ev' E. exact (proj2 (proj2 (account_step render cap zero s o s' ev' V E))).
Qed.
Print Assumptions C89_discards.
(* A buffer never holds more records than it has room for, unless that many goroutines are waiting to take them; so, with
   SetAsync(true) called once, at most that many records and one more are waiting to be written. *)
Theorem C89_room : forall render cap zero l s ev, accRun render cap zero (accInit zero) l = Some (s, ev) ->
  forall k, in_buffer s k <= Nat.max cap (waiting_at s k).
Proof. intros render cap zero l s ev H. exact (room_run render cap zero l _ _ _ (room_init render cap zero) H). Qed.
Print Assumptions C89_room.
Theorem C89_bounded : forall render cap zero l s ev, 1 <= cap -> Forall no_async l -> accRun render cap zero (accInit zero) (AAsync true :: l) = Some (s, ev) ->
  length (pending s) <= cap + 1.
Proof.
  intros render cap zero l s ev C F H. pose proof (room_run render cap zero _ _ _ _ (room_init render cap zero) H) as R.
  cbn [accRun] in H. destruct (accStep render cap zero (accInit zero) (AAsync true)) as [[s1 e1]|] eqn:E; [|discriminate].
  assert (e1 = []) as -> by (injection E; auto). destruct (start_single render cap zero s1 E) as (S1 & V1 & P1). destruct (accRun render cap zero s1 l) as [[s2 e2]|] eqn:E2; [|discriminate]. injection H as <- <-.
  destruct (single_run render cap zero l _ _ _ V1 S1 F E2) as [S2 _]. exact (single_bound render cap zero s2 S2 R C).
Qed.
Print Assumptions C89_bounded.
(* The consumer's own steps suffice to write everything that waits. *)
Theorem C89_drains : forall render cap zero l s ev, Forall no_async l -> accRun render cap zero (accInit zero) (AAsync true :: l) = Some (s, ev) ->
  exists l' s' ev', Forall consumer_step l' /\ accRun render cap zero s l' = Some (s', ev') /\ pending s' = [] /\ done ev' = pending s /\
    (g_avail s = true -> length (filter (fun e => match e with GOut _ _ => true | _ => false end) ev') = length (pending s)).
Proof.
  intros render cap zero l s ev F H. cbn [accRun] in H. destruct (accStep render cap zero (accInit zero) (AAsync true)) as [[s1 e1]|] eqn:E; [|discriminate].
  assert (e1 = []) as -> by (injection E; auto). destruct (start_single render cap zero s1 E) as (S1 & V1 & P1). destruct (accRun render cap zero s1 l) as [[s2 e2]|] eqn:E2; [|discriminate]. injection H as <- <-.
  destruct (single_run render cap zero l _ _ _ V1 S1 F E2) as [S2 _]. destruct (drain render cap zero (length (pending s2)) s2 (le_n _) S2) as (l' & s' & ev' & H1 & H2 & H3 & H4 & H5).
  exists l', s', ev'. rewrite <- H4 at 2. auto.
Qed.
Print Assumptions C89_drains.

(* A line has the record's fifteen columns, and the record can be read from it, if no text in it contains a bar. *)
Theorem C89_columns : forall e, no_bar e -> splitOn x7c (accLine e) = columns e.
Proof. exact line_columns. Qed.
Print Assumptions C89_columns.
Theorem C89_line_inj : forall a b, no_bar a -> no_bar b -> ranged a -> ranged b -> accLine a = accLine b -> a = b.
Proof. exact line_inj. Qed.
Print Assumptions C89_line_inj.

(* A level's name sets that level, in capitals too; the empty name sets info. *)
Theorem C89_level : (forall l, (-2 <= l <= 5)%Z -> levelSet (levelString l) = Some l /\ forall s, map lowerB s = levelString l -> levelSet s = Some l) /\
  levelSet [] = Some 0%Z /\ forall s l, levelSet s = Some l -> (-2 <= l <= 5)%Z /\ (s = [] \/ map lowerB s = levelString l).
Proof.
  assert (R : forall l, (-2 <= l <= 5)%Z -> (l = -2 \/ l = -1 \/ l = 0 \/ l = 1 \/ l = 2 \/ l = 3 \/ l = 4 \/ l = 5)%Z) by (intros; lia).
  split; [|split; [reflexivity|]].
  - intros l H. split; [apply R in H; repeat destruct H as [-> |H]; try (subst l); reflexivity|]. intros s E. unfold levelSet. rewrite E. apply R in H. repeat destruct H as [-> |H]; try (subst l); reflexivity.
  - intros s l H. unfold levelSet in H. destruct (map lowerB s) as [|b w] eqn:E.
    + injection H as <-. split; [lia|]. left. destruct s; [reflexivity|discriminate E].
    + rewrite <- E in *. destruct (find _ levelNames) as [x|] eqn:F; [|discriminate]. injection H as <-. apply find_some in F as [I B]. apply bs_eqb_spec in B.
      repeat destruct I as [<-|I]; try destruct I; (split; [cbn; lia|right; rewrite <- B; reflexivity]).
Qed.
Print Assumptions C89_level.

(* The names are these, and capitals make no difference: a text sets a level exactly when it is the level's name, letter by
   letter, or is empty for info. *)
Theorem C89_level_texts : (forall l n, In (l, n) level_names -> levelString l = n) /\
  forall s l, levelSet s = Some l <-> (s = [] /\ l = 0%Z) \/ exists n, In (l, n) level_names /\ Forall2 same_letter s n.
Proof.
  split; [intros l n H; cbn [level_names In] in H; repeat (destruct H as [H|H]; [injection H as <- <-; reflexivity|]); destruct H|].
  assert (Up : forall b, same_letter b (lowerB b)) by (intro b; unfold same_letter; destruct b; vm_compute; tauto).
  assert (Dn : forall b c, same_letter b c -> In c (s2b "abcdefghijklmnopqrstuvwxyz") -> lowerB b = c).
  { intros b c [->|H] I; [destruct c; try reflexivity; vm_compute in I; exfalso; repeat (destruct I as [I|I]; [discriminate I|]); exact I|].
    cbn [combine s2b In] in H. vm_compute in H. repeat (destruct H as [H|H]; [injection H as <- <-; reflexivity|]). destruct H. }
  assert (Sm : forall s, Forall2 same_letter s (map lowerB s)) by (induction s; constructor; [apply Up|assumption]).
  assert (Eq : forall s n, Forall2 same_letter s n -> (forall c, In c n -> In c (s2b "abcdefghijklmnopqrstuvwxyz")) -> map lowerB s = n).
  { induction 1 as [|b c s n H F IH]; intros A; [reflexivity|]. cbn [map]. rewrite (Dn b c H (A c (or_introl eq_refl))), IH; [reflexivity|]. intros d I. apply A. right. exact I. }
  intros s l. split.
  - intro H. unfold levelSet in H. destruct (map lowerB s) as [|b w] eqn:E.
    + injection H as <-. left. split; [destruct s; [reflexivity|discriminate E]|reflexivity].
    + rewrite <- E in *. destruct (find _ levelNames) as [[z n]|] eqn:F; [|discriminate]. injection H as <-. apply find_some in F as [I B]. cbn [fst snd] in *. apply bs_eqb_spec in B.
      right. exists n. split; [exact I|]. rewrite B. apply Sm.
  - intros [[-> ->]|(n & I & F)]; [reflexivity|].
    assert (L : forall c, In c n -> In c (s2b "abcdefghijklmnopqrstuvwxyz")).
    { intros c Hc. cbn [level_names In] in I. apply (existsb_eqb_In byte_eqb byte_eqb_spec).
      assert (X : forallb (fun c => existsb (byte_eqb c) (s2b "abcdefghijklmnopqrstuvwxyz")) n = true) by (repeat (destruct I as [I|I]; [injection I as <- <-; reflexivity|]); destruct I).
      rewrite forallb_forall in X. exact (X c Hc). }
    unfold levelSet. rewrite (Eq s n F L). cbn [level_names In] in I. repeat (destruct I as [I|I]; [injection I as <- <-; reflexivity|]). destruct I.
Qed.
Print Assumptions C89_level_texts.
Example C89_level_texts_example : levelSet (s2b "WaRN") = Some 1%Z /\ levelSet (s2b "warning") = None.
Proof. split; reflexivity. Qed.

(* Different levels have different names, whatever their numbers (a level is an int8). *)
Theorem C89_level_names : forall a b, (-128 <= a <= 127)%Z -> (-128 <= b <= 127)%Z -> levelString a = levelString b -> a = b.
Proof.
  assert (R : forall l, (-2 <= l <= 5)%Z \/ levelString l = s2b "Level(" ++ fmtZ l ++ s2b ")").
  { intros l. destruct (Z_le_gt_dec (-2) l) as [X|X]; [destruct (Z_le_gt_dec l 5) as [Y|Y]; [left; lia|]|]; right; unfold levelString, levelNames; cbn [find fst];
      repeat (match goal with |- context [(?x =? l)%Z] => destruct (Z.eqb_spec x l); [exfalso; lia|] end); reflexivity. }
  assert (D : forall l t, (-2 <= l <= 5)%Z -> levelString l <> s2b "Level(" ++ t).
  { intros l t H. assert (X : (l = -2 \/ l = -1 \/ l = 0 \/ l = 1 \/ l = 2 \/ l = 3 \/ l = 4 \/ l = 5)%Z) by lia.
    intros E. apply (f_equal (hd x00)) in E. repeat destruct X as [-> |X]; try (subst l); vm_compute in E; discriminate E. }
  intros a b Ra Rb E. destruct (R a) as [Ha|Ha], (R b) as [Hb|Hb].
  - pose proof (proj1 (proj1 C89_level a Ha)) as Pa. pose proof (proj1 (proj1 C89_level b Hb)) as Pb. rewrite E in Pa. congruence.
  - exfalso. rewrite Hb in E. exact (D a _ Ha E).
  - exfalso. rewrite Ha in E. exact (D b _ Hb (eq_sym E)).
  - rewrite Ha, Hb in E. apply app_inv_head in E. apply app_inv_tail in E. apply (fmtZ_inj a b); [lia|lia|exact E].
Qed.
Print Assumptions C89_level_names.

(* Finding: a caller can write records into the log.  Whatever record [v] and time are wanted, a method name makes the
   output for an honest record of that call contain the forged line, between line feeds. *)
Theorem C89_forge_refuted : forall ts ts' v q, exists name, forall q', q' = mkAsk (q_name q) (q_role q) (q_addr q) (q_total q)
    (mkCall (k_service (q_call q)) name (k_desc (q_call q)) (k_host (q_call q)) (k_reqSize (q_call q)) (k_recv (q_call q)) (k_sent (q_call q))) (q_ans q) ->
  exists before after, outLine ts (accLine (record_of q')) = before ++ [x0a] ++ outLine ts' (accLine v) ++ after.
Proof.
  intros ts ts' v q. exists ([x0a] ++ outLine ts' (accLine v)). intros q' ->.
  exists (ts ++ x09 :: q_name q ++ s2b "|" ++ q_role q ++ s2b "|" ++ fmtN (a_id (q_ans q)) ++ s2b "|" ++ k_service (q_call q) ++ s2b "|"). eexists.
  unfold outLine at 1. unfold accLine at 1. cbn [record_of e_filter e_role e_id e_service e_method e_desc e_addr e_reqSize e_resSize e_biz e_total e_success e_code e_exc e_up q_name q_role q_addr q_total q_call q_ans k_service k_method].
  repeat rewrite <- ?app_assoc; repeat rewrite <- ?app_comm_cons; repeat rewrite <- ?app_assoc. reflexivity.
Qed.
Print Assumptions C89_forge_refuted.
(* Finding: a bar in a method name (or in an exception's text) shifts the columns behind it. *)
Theorem C89_bar_refuted : exists e, e_service e = s2b "s" /\ e_method e = s2b "a|b" /\ e_code e = s2b "200" /\ length (splitOn x7c (accLine e)) = 16 /\ nth_error (splitOn x7c (accLine e)) 12 = Some (s2b "true").
Proof. exists (mkEnt (s2b "f") (s2b "r") 1 (s2b "s") (s2b "a|b") [] [] 0 0 0 0 true (s2b "200") [] []). vm_compute. repeat split. Qed.
Print Assumptions C89_bar_refuted.
(* Finding: a served motan1 call whose answer cannot be encoded is not recorded at all, and a motan2 call whose answer
   cannot be converted is recorded as a success although its caller is sent an error. *)
Theorem C89_encode_refuted : forall k r, a_exc r = None ->
  serveV1 true k (Some r) false = ([], SNothing) /\
  exists q, serveV2 true k (Some r) false = ([q], SError) /\ e_success (record_of q) = true /\ e_code (record_of q) = s2b "200".
Proof. intros k r E. split; [reflexivity|]. eexists. split; [reflexivity|]. unfold record_of. cbn. rewrite E. auto. Qed.
Print Assumptions C89_encode_refuted.
(* Finding: calling SetAsync(true) a second time while a record is being written leaves the waiting records in a channel
   nobody reads: they are neither written nor counted, whatever happens afterwards. *)
Theorem C89_second_async_refuted : forall render cap zero q1 q2, 1 <= cap -> exists l s ev a, accRun render cap zero (accInit zero) l = Some (s, ev) /\
  queued ev = [q1; q2] /\ discarded ev = [] /\ g_async s = true /\ g_heap s a = record_of q2 /\
  forall l' s' ev', accRun render cap zero s l' = Some (s', ev') -> exists k, In (k, a) (g_queue s') /\ g_heap s' a = record_of q2 /\ Permutation (map record_of [q1; q2] ++ map record_of (queued ev')) (done ev' ++ pending s').
Proof.
  intros render cap zero q1 q2 C.
  set (l := [AAsync true; ANew 0 q1; ANew 1 q2; ASend 0 [] true; ATop; ATake 0; ASend 1 [] true; AAsync true]).
  assert (C1 : Nat.ltb 0 cap = true) by (apply Nat.ltb_lt; lia).
  assert (R : exists s ev, accRun render cap zero (accInit zero) l = Some (s, ev) /\ queued ev = [q1; q2] /\ discarded ev = [] /\ done ev = [] /\ g_async s = true /\ g_heap s 1 = record_of q2 /\ g_cur s = Some 1 /\ g_wait s = [] /\ g_chans s = 2 /\ In (0, 1) (g_queue s)).
  { unfold l, accInit. cbn [accRun accStep g_pool existsb Nat.eqb g_next g_hold app takeHold g_async g_cur g_queue g_top g_wait g_held g_chans g_disc g_avail g_struct g_heap]. unfold canSend, chanLen. cbn [g_queue filter length g_wait]. rewrite C1. cbn [orb accRun accStep g_top g_cur g_queue g_wait app existsb Nat.eqb takeQ remove1 g_hold takeHold g_async g_held].
    unfold canSend, chanLen. cbn [g_queue filter length g_wait]. rewrite C1. cbn [orb accRun accStep].
    eexists _, _. split; [reflexivity|]. cbn. repeat (split; [reflexivity|]). auto. }
  destruct R as (s & ev & R & Q & D & Dn & As & H & Cu & W & Ch & I). exists l, s, ev, 1. split; [exact R|]. split; [exact Q|]. split; [exact D|]. split; [exact As|]. split; [exact H|].
  intros l' s' ev' R'. exists 0. destruct (run_account render cap zero l _ _ _ (inv_init zero) R) as (V & P & _).
  destruct (left_run render cap zero 0 1 l' s s' ev' V) as [I' H']; try assumption.
  - intros j E. rewrite Cu in E. injection E as <-. lia.
  - intros j E. rewrite Cu in E. injection E as <-. rewrite Ch. lia.
  - rewrite W. intros [].
  - rewrite Ch. lia.
  - split; [exact I'|]. split; [rewrite H'; exact H|]. destruct (run_account render cap zero l' _ _ _ V R') as (_ & P' & _). rewrite Q, Dn in P. cbn [app pending accInit] in P. rewrite <- P'. apply Permutation_app_tail. exact P.
Qed.
Print Assumptions C89_second_async_refuted.

(* two calls logged in turn, one entity used for both *)
Definition exAsk (id : N) (m : bs) : ask := mkAsk (s2b "accessLog") (s2b "client-agent") (s2b "h:1") 3 (mkCall (s2b "svc") m (s2b "()") [] 10 0 0) (mkAns id None 5 2 []).
Definition exZero : entity := mkEnt [] [] 0 [] [] [] [] 0 0 0 0 false [] [] [].
Definition exAccOps : list aop :=
  [ANew 0 (exAsk 7 (s2b "m")); ASend 0 [] true; ATop; ATake 0; AWrite 0 (s2b "t") true; ANew 0 (exAsk 8 (s2b "n")); ANew 1 (exAsk 9 (s2b "o")); ASend 0 [] true; ASend 1 [] true; ASample].
Example C89_example : exists s ev, accRun (fun _ _ => []) 1 exZero (accInit exZero) (AAsync true :: exAccOps) = Some (s, ev) /\ Forall no_async exAccOps /\
  queued ev = [exAsk 7 (s2b "m"); exAsk 8 (s2b "n")] /\ discarded ev = [exAsk 9 (s2b "o")] /\ sampled ev = 1%Z /\ done ev = [record_of (exAsk 7 (s2b "m"))] /\ pending s = [record_of (exAsk 8 (s2b "n"))] /\
  In (GOut (record_of (exAsk 7 (s2b "m"))) (s2b "t" ++ [x09] ++ s2b "accessLog|client-agent|7|svc|m|()|h:1|10|5|2|3|true|200||" ++ [x0a])) ev /\ no_bar (record_of (exAsk 7 (s2b "m"))) /\ ranged (record_of (exAsk 7 (s2b "m"))).
Proof.
  eexists _, _. split; [vm_compute; reflexivity|]. split; [repeat constructor|]. repeat (split; [vm_compute; reflexivity|]). split; [vm_compute; auto 10|]. split.
  - intros x I J. cbn in I. repeat destruct I as [<-|I]; try destruct I; vm_compute in J; intuition discriminate.
  - repeat split; vm_compute; discriminate.
Qed.
