(* MetricProps.v: C42 (graphite datagrams) and C61 (what the metrics filters count). *)
From Verif Require Import Base Strconv GoStrings GoStrings2 MetricModel MetricSpec MetricProofs.

(* ---- C42 *)
Theorem C42_packing (ip : bs) (snaps : list snap) (ls : list (list bs)) : all_lines ip snaps ls ->
  exists groups, sent ip snaps = map flat groups /\ concat groups = ls /\ Forall fits groups /\ tight groups /\ Forall (fun g => g <> []) groups.
Proof. exact (packing ip snaps ls). Qed.
(* the lines are determined by the snapshots *)
Theorem C42_lines (ip : bs) (snaps : list snap) : exists! ls, all_lines ip snaps ls.
Proof. destruct (all_lines_ex ip snaps) as [ls H]. exists ls. split; [exact H|]. intros l2 H2. exact (all_lines_fun ip snaps ls l2 H H2). Qed.
(* different counters of one item are reported under different names *)
Theorem C42_names (ip : bs) (s : snap) (k1 k2 a1 b1 t1 a2 b2 t2 : bs) : key_parts k1 a1 b1 t1 -> key_parts k2 a2 b2 t2 ->
  ~ In x2e a1 -> ~ In x2e b1 -> ~ In x2e a2 -> ~ In x2e b2 -> name_of ip s a1 b1 t1 = name_of ip s a2 b2 t2 -> k1 = k2.
Proof. exact (names_differ ip s k1 k2 a1 b1 t1 a2 b2 t2). Qed.
(* and the keys of the filters are of that form *)
Theorem C42_filter_keys (role app method sfx : bs) :
  key_parts (metricKey [role; app; method] sfx) (escape role) (escape app) (escape method ++ sfx) /\
  ~ In x2e (escape role) /\ ~ In x2e (escape app).
Proof. split; [apply event_parts|]. split; apply escape_nodot. Qed.
Print Assumptions C42_packing.
Print Assumptions C42_lines.
Print Assumptions C42_names.
Print Assumptions C42_filter_keys.

Definition big (n : N) : bs := repeat x61 (N.to_nat n).
Definition ex_snap : snap := mkSnap (s2b "g.1") (s2b ".cluster") (s2b "a.b.Svc") true
  [(s2b "motan-client:app:m.total_count", MCounter 3); (s2b "short:key", MCounter 9); (s2b "r:a:" ++ big 5010, MCounter 1); (s2b "r:a:gauge", MGauge 7); (s2b "r:a:" ++ big 6000, MCounter 2)].
Example C42_nonvacuous :
  map (fun m => N.of_nat (length m)) (sent (s2b "10_0_0_1") [ex_snap]) = [71; 5106; 6045]%N /\
  firstn 1 (sent (s2b "10_0_0_1") [ex_snap]) = [s2b "motan-client.app.g_1.cluster.byhost.10_0_0_1.a_b_Svc.m.total_count:3|c" ++ [x0a]].
Proof. vm_compute. split; reflexivity. Qed.
(* "a datagram over the limit holds a single line": the eight lines of one histogram are never told apart *)
Theorem C42_single_line_refuted : exists ip s m ls l,
  In m (sent ip [s]) /\ (limit < blen m)%N /\ all_lines ip [s] ls /\ concat ls = l /\ m = concat l /\ (1 < length l)%nat /\
  forall x, In x l -> (blen x < limit)%N.
Proof.
  exists [], (mkSnap (big 1000) [] [] true [(s2b "r:a:m", MHist [(s2b "p50", s2b "1.00"); (s2b "p75", s2b "1.00"); (s2b "p95", s2b "1.00");
    (s2b "p99", s2b "1.00"); (s2b "p999", s2b "1.00"); (s2b "p9999", s2b "1.00")] (s2b "1.00"))]).
  eexists. eexists. eexists.
  split; [vm_compute; left; reflexivity|]. split; [vm_compute; reflexivity|].
  split; [eapply al_snap; [reflexivity| |constructor]; cbn [snEntries]; eapply kl_key; [|constructor];
          apply split3_spec; vm_compute; reflexivity|].
  split; [reflexivity|]. split; [vm_compute; reflexivity|]. split; [vm_compute; lia|].
  intros x H. apply N.ltb_lt. revert x H. apply forallb_forall. vm_compute. reflexivity.
Qed.

(* ---- C61 *)
Theorem C61_filter (sw : bool) (calls : list fcall) : Forall answered calls ->
  accounts (all_events (metricsFilter sw) calls) (all_recs (recs sw) calls).
Proof. exact (filter_accounts sw calls). Qed.
Theorem C61_cluster_filter (sw : bool) (calls : list fcall) : Forall answered calls ->
  accounts (all_events (clusterMetricsFilter sw) calls) (all_recs (cluster_recs sw) calls).
Proof. exact (cluster_accounts sw calls). Qed.
(* in every reporting the five buckets add up to the total, and so do the errors and the successes *)
Theorem C61_buckets (sw : bool) (calls : list fcall) (i k : bs) : Forall answered calls -> ~ In x2e k ->
  let evs := all_events (metricsFilter sw) calls in
  let cnt (sfx : string) := counted evs i (k ++ s2b sfx) in
  (cnt ".Less50ms"%string + cnt ".Less100ms"%string + cnt ".Less200ms"%string + cnt ".Less500ms"%string + cnt ".More500ms"%string = cnt ".total_count"%string)%Z /\
  (cnt ".biz_error_count"%string + cnt ".other_error_count"%string <= cnt ".total_count"%string)%Z /\
  (cnt ".More500ms"%string <= cnt ".slow_count"%string <= cnt ".Less500ms"%string + cnt ".More500ms"%string)%Z /\
  Z.of_nat (length (observed evs i k)) = cnt ".total_count"%string.
Proof.
  intros F Nk evs cnt. destruct (filter_accounts sw calls F i k Nk) as (A1 & A2 & A3 & A4 & A5 & A6 & A7 & A8 & A9 & A10).
  unfold cnt. fold evs in A1, A2, A3, A4, A5, A6, A7, A8, A9, A10. rewrite A1, A2, A3, A4, A5, A6, A7, A8, A9, A10, map_length.
  generalize (under i k (all_recs (recs sw) calls)) as l. unfold how_many, took, biz, other.
  induction l as [|r l IH]; [cbn; lia|].
  assert (D : forall (p : rec -> bool), filter p (r :: l) = if p r then r :: filter p l else filter p l) by reflexivity.
  rewrite !D. cbv beta.
  destruct (Z.ltb_spec (rCost r) 50); destruct (Z.leb_spec 50 (rCost r)); try lia; cbn [andb];
  destruct (Z.ltb_spec (rCost r) 100); try lia; destruct (Z.leb_spec 100 (rCost r)); try lia; cbn [andb];
  destruct (Z.ltb_spec (rCost r) 200); try lia; destruct (Z.leb_spec 200 (rCost r)); try lia; cbn [andb];
  destruct (Z.ltb_spec (rCost r) 500); try lia; destruct (Z.leb_spec 500 (rCost r)); try lia; cbn [andb];
  destruct (Z.ltb_spec 200 (rCost r)); try lia;
  destruct (rExc r) as [t|]; [destruct (Z.eqb t 2)| | destruct (Z.eqb t 2)| | destruct (Z.eqb t 2)| |destruct (Z.eqb t 2)| |destruct (Z.eqb t 2)| |destruct (Z.eqb t 2)|];
  cbn [negb length]; lia.
Qed.
(* no event of a filter is lost to a name that stands for another kind of metric *)
Theorem C61_no_kind_clash (sw1 sw2 : bool) (calls1 calls2 : list fcall) (e1 e2 : event) : Forall answered calls1 -> Forall answered calls2 ->
  In e1 (all_events (metricsFilter sw1) calls1) -> In e2 (all_events (clusterMetricsFilter sw2) calls2 ++ all_events (metricsFilter sw1) calls1) ->
  metricKey (evKeys e1) (evKeySuffix e1) = metricKey (evKeys e2) (evKeySuffix e2) -> evKind e1 = evKind e2.
Proof.
  intros F1 F2 I1 I2 E.
  assert (R1 : rec_events (all_recs (recs sw1) calls1) (all_events (metricsFilter sw1) calls1))
    by (apply all_rec_events; [|exact F1]; intros c exc H; exact (proj1 (filter_recs sw1 c exc H))).
  assert (R2 : rec_events (all_recs (cluster_recs sw2) calls2) (all_events (clusterMetricsFilter sw2) calls2))
    by (apply all_rec_events; [|exact F2]; intros c exc H; exact (proj1 (cluster_filter_recs sw2 c exc H))).
  apply (no_kind_clash _ _ e1 e2 (re_app _ _ _ _ R2 R1)); [apply in_or_app; right; exact I1|exact I2|exact E].
Qed.
Theorem C61_escape (s : bs) : (forall b, In b (escape s) -> allowed b = true \/ b = x5f) /\ escape (escape s) = escape s /\
  ((forall b, In b s -> allowed b = true) -> escape s = s).
Proof. split; [exact (escape_safe s)|]. split; [apply escape_idem|apply escape_allowed]. Qed.
Print Assumptions C61_filter.
Print Assumptions C61_cluster_filter.
Print Assumptions C61_buckets.
Print Assumptions C61_no_kind_clash.
Print Assumptions C61_escape.
(* in a text every character keeps its place: letters, digits and hyphens stay, any other character, however many bytes it has, becomes
   one underscore *)
Theorem C61_escape_chars (ns : list N) : Forall scalar ns -> escape (concat (map utf8 ns)) = map escaped ns.
Proof. exact (escape_chars ns). Qed.
Print Assumptions C61_escape_chars.
Example C61_escape_chars_example : Forall scalar [97; 0xe9; 0x4e2d; 0x1f600; 46; 55]%N /\
  escape (concat (map utf8 [97; 0xe9; 0x4e2d; 0x1f600; 46; 55]%N)) = s2b "a____7".
Proof. split; [repeat constructor; unfold scalar; lia|vm_compute; reflexivity]. Qed.

Definition ex_call (cost : Z) (exc : option Z) (req : string) : fcall :=
  mkCall CEndPoint true (s2b "app") (s2b req) (s2b "m") (s2b "g") (s2b "Svc") cost cost (Some exc).
Example C61_nonvacuous :
  let calls := [ex_call 10 None "app"; ex_call 250 (Some 2%Z) "app"; ex_call 700 (Some 0%Z) "other"] in
  let evs := all_events (metricsFilter true) calls in
  Forall answered calls /\
  counted evs (s2b "gSvc") (s2b "motan-client-agent:app:m.total_count") = 3%Z /\
  counted evs (s2b "gSvc") (s2b "motan-client-agent:app:m.biz_error_count") = 1%Z /\
  counted evs (s2b "gSvc") (s2b "motan-client-agent:app:m.slow_count") = 2%Z /\
  counted evs (s2b "gSvc") (s2b "motan-client-agent:other:m.total_count") = 1%Z.
Proof. cbv zeta. split; [repeat constructor; discriminate|]. vm_compute. repeat split. Qed.
(* "methods are counted apart": two methods whose names differ in a character graphite does not take share their counters *)
Theorem C61_methods_refuted : exists m1 m2, m1 <> m2 /\ forall role app sfx, metricKey [role; app; m1] sfx = metricKey [role; app; m2] sfx.
Proof. exists (s2b "get.all"), (s2b "get_all"). split; [discriminate|]. intros. rewrite !metricKey3. unfold base_key. reflexivity. Qed.
(* "services are counted apart": group and service are run together, the second one is reported under the name of the first *)
Theorem C61_items_refuted : exists g1 s1 g2 s2, s1 <> s2 /\ g1 <> g2 /\ itemKey g1 [] s1 = itemKey g2 [] s2.
Proof. exists (s2b "yf"), (s2b "-rpc.Svc"), (s2b "yf-rpc"), (s2b ".Svc"). split; [discriminate|]. split; [discriminate|reflexivity]. Qed.
(* "every call is in one bucket": one whose response is nil is counted, and then the filter panics *)
Theorem C61_nil_response_refuted : exists c, ~ answered c /\ snd (metricsFilter false c) = false /\
  counted (fst (metricsFilter false c)) (s2b "gSvc") (s2b "motan-client-agent:app:m.total_count") = 1%Z /\
  forall sfx, In sfx [".Less50ms"; ".Less100ms"; ".Less200ms"; ".Less500ms"; ".More500ms"]%string ->
    counted (fst (metricsFilter false c)) (s2b "gSvc") (s2b "motan-client-agent:app:m" ++ s2b sfx) = 0%Z.
Proof.
  exists (mkCall CEndPoint true (s2b "app") [] (s2b "m") (s2b "g") (s2b "Svc") 1 1 None).
  split; [intro H; apply H; reflexivity|]. split; [reflexivity|]. split; [vm_compute; reflexivity|].
  intros sfx H. cbn [In] in H. repeat destruct H as [<-|H]; try (vm_compute; reflexivity). destruct H.
Qed.
