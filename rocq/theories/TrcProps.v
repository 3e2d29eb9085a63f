(* TrcProps.v: mesh request traces (C92): core/debug.go and the trace handler of manageHandler.go. *)
From Verif Require Import Base GoStrings UrlModel TrcModel TrcSpec TrcProofs.

(* However calls interleave, a holder never has more than one trace above the limit, and so no dump has. *)
Theorem C92_bound : forall max os g, gruns max ginit os = Some g ->
  length (held g) <= S max /\ forall d, In d (g_dumps g) -> length d <= S max.
Proof.
  intros max os g R. pose proof (runs_wf _ _ _ _ R (wf_init max)) as W. split; [exact (tcs_bound _ _ _ W)|].
  exact (dumps_bound _ _ _ _ R (wf_init max) (fun d X => match X with end)).
Qed.
Print Assumptions C92_bound.

(* As long as one dump ends before the next begins, however traces are created meanwhile, no trace is dumped twice and none
   is dumped that was not created; and created traces are all different. *)
Theorem C92_once : forall max os g, gruns max ginit os = Some g -> oneDump None os ->
  NoDup (concat (g_dumps g)) /\ incl (concat (g_dumps g)) (g_made g) /\ NoDup (map fst (g_made g)).
Proof.
  intros max os g R O. pose proof (runs_wf _ _ _ _ R (wf_init max)) as W.
  destruct (runs_dinv max os None ginit g R O (wf_init max)) as [active D].
  { exists []. repeat split; try constructor; cbn in *; try contradiction; discriminate. }
  destruct (dumped_once _ _ _ W D) as [A B]. split; [exact A|]. split; [exact B|]. destruct W as (_ & _ & _ & W4 & _). rewrite W4. apply seq_NoDup.
Qed.
Print Assumptions C92_once.

(* Calls that do not overlap: the dumps, one after the other, and what is held are exactly the traces created, in order; every
   call got a trace or was refused; a trace is refused exactly when the limit is exceeded; a dump takes all that is held. *)
Theorem C92_complete : forall max cs g, calls max ginit cs g ->
  concat (g_dumps g) ++ held g = g_made g /\ length (g_made g) + g_refused g = tracesAsked cs /\
  (forall t rid g1, calls max g [CTrace t rid] g1 ->
     if length (held g) <=? max then held g1 = held g ++ [(length (g_made g), rid)] /\ g_dumps g1 = g_dumps g
     else held g1 = held g /\ g_refused g1 = S (g_refused g) /\ g_dumps g1 = g_dumps g) /\
  (forall d g1, calls max g [CDump d] g1 -> g_dumps g1 = g_dumps g ++ [held g] /\ held g1 = []).
Proof.
  intros max cs g C. destruct (calls_jinv _ _ _ _ C (jinv_init max)) as [J E]. split; [apply J|]. split; [cbn in E; exact E|]. split.
  - intros t rid g1 C1. inversion C1 as [|? g2 ? ? ? ? R Q C2|]; subst. inversion C2; subst. destruct (step_jinv _ _ _ _ _ J R Q) as [J1 M].
    assert (D : g_dumps g1 = g_dumps g) by exact (trace_dumps _ _ _ _ _ J R Q).
    destruct J as (_ & E0 & _), J1 as (_ & E1 & _). rewrite D in E1. destruct (length (held g) <=? max); destruct M as [M1 M2].
    + split; [|exact D]. rewrite M1, <- E0, <- app_assoc in E1. apply app_inv_head in E1. rewrite E1. rewrite E0. reflexivity.
    + rewrite M1, <- E0 in E1. apply app_inv_head in E1. auto.
  - intros d g1 C1. inversion C1 as [| |? g2 ? ? ? R Q C2]; subst. inversion C2; subst. destruct (dump_jinv _ _ _ _ J R) as (_ & A & B & _). auto.
Qed.
Print Assumptions C92_complete.

(* two threads and a dump; the limit is 1 *)
Definition exOs : list op := [OInit 1 7%N; OInit 2 8%N; ORead 1; ORead 2; OTest 2; ODRead 0; OTest 1; OLock 2; ODSet 0; OLock 1; ODRet 0].
Example C92_once_example : oneDump None exOs /\ exists g, gruns 1 ginit exOs = Some g /\ g_dumps g = [[(0, 8%N); (1, 7%N)]].
Proof. split; [cbn; auto|]. eexists. split; [vm_compute; reflexivity|reflexivity]. Qed.
Example C92_complete_example : exists g, calls 1 ginit [CTrace 1 7; CTrace 1 8; CTrace 1 9; CDump 0; CTrace 1 10]%N g /\
  g_dumps g = [[(0, 7%N); (1, 8%N)]] /\ held g = [(2, 10%N)] /\ g_refused g = 1.
Proof.
  eexists. split.
  - eapply c_trace; [left; vm_compute; reflexivity|split; reflexivity|]. eapply c_trace; [left; vm_compute; reflexivity|split; reflexivity|].
    eapply c_trace; [right; vm_compute; reflexivity|split; reflexivity|]. eapply c_dump; [vm_compute; reflexivity|split; reflexivity|].
    eapply c_trace; [left; vm_compute; reflexivity|split; reflexivity|]. apply c_nil.
  - repeat split.
Qed.

(* The limit is exceeded by one: a holder with limit 0 holds a trace. *)
Theorem C92_limit_refuted : ~ (forall max os g, gruns max ginit os = Some g -> length (held g) <= max).
Proof. intro H. specialize (H 0 (callTrace 1 7%N) _ eq_refl). vm_compute in H. lia. Qed.
Print Assumptions C92_limit_refuted.

(* Overlapping dumps return the same traces twice; and a trace created in a holder that was already returned is in no dump and
   not held. *)
Theorem C92_overlap_refuted :
  (exists g, gruns 9 ginit (callTrace 1 7%N ++ [ODRead 0; ODRead 1; ODSet 0; ODSet 1; ODRet 0; ODRet 1]) = Some g /\ g_dumps g = [[(0, 7%N)]; [(0, 7%N)]]) /\
  (exists g, gruns 9 ginit ([OInit 1 7%N; ORead 1; OTest 1] ++ callDump 0 ++ [OLock 1] ++ callDump 0) = Some g /\ g_made g = [(0, 7%N)] /\ concat (g_dumps g) = [] /\ held g = []).
Proof.
  split; [eexists; split; [vm_compute; reflexivity|reflexivity]|].
  eexists. split; [vm_compute; reflexivity|]. repeat split.
Qed.
Print Assumptions C92_overlap_refuted.

(* The printed duration of a span is the time since the span it follows: for the request's spans the last of the same address,
   the last without address for the first of an address; for the response's spans the one before. *)
Theorem C92_durations : forall l, Forall someday l -> reqDurations 0 [] l = durations [] l.
Proof. intros l F. apply req_gen; [constructor|exact F|reflexivity|intros; reflexivity]. Qed.
Print Assumptions C92_durations.
Theorem C92_response_durations : forall l, Forall someday l ->
  sum (resDurations 0 l) = (lastTime l - firstTime l)%Z /\
  forall l1 a b l2, l = l1 ++ a :: b :: l2 -> nth_error (resDurations 0 l) (S (length l1)) = Some (sp_time b - sp_time a)%Z.
Proof.
  intros l F. split; [apply res_times; exact F|]. intros l1 a b l2 ->. apply res_nth. exact F.
Qed.
Print Assumptions C92_response_durations.

(* The times of request, remote side and response make up the total time. *)
Theorem C92_times_add_up : forall req res a b c t, Forall someday req -> Forall someday res -> sums req res = Some (a, b, c, t) ->
  wrapI64 (a + c + b) = t /\ (t = lastTime res - firstTime req)%Z.
Proof. exact sums_add. Qed.
Print Assumptions C92_times_add_up.

Definition exSpans : list span := [mkSpan [] 5; mkSpan (s2b "a") 7; mkSpan (s2b "b") 8; mkSpan [] 9; mkSpan (s2b "a") 12].
Example C92_durations_example : Forall someday exSpans /\ reqDurations 0 [] exSpans = [0; 2; 3; 4; 5]%Z /\ sums exSpans exSpans <> None.
Proof. split; [repeat constructor; cbn; lia|]. split; [reflexivity|discriminate]. Qed.

(* A custom trace traces exactly the requests it asks for: host prefix, group, service and, of these, the share given. *)
Theorem C92_wanted : forall c get rnd, wanted c get rnd = true <->
  (ct_addr c = [] \/ exists x, get (s2b "host") = ct_addr c ++ x) /\ (ct_group c = [] \/ get (s2b "M_g") = ct_group c) /\
  (ct_path c = [] \/ get (s2b "M_p") = ct_path c) /\ (~ (0 < ct_ratio c < 100)%Z \/ (rnd < ct_ratio c)%Z).
Proof. exact wanted_spec. Qed.
Print Assumptions C92_wanted.

(* Trace requests of the management port that follow or contain each other leave the policy as it was. *)
Theorem C92_policy : forall os s, nested os -> m_policy (mruns os s) = m_policy s.
Proof. intros os s N. apply nested_restore. exact N. Qed.
Print Assumptions C92_policy.
Example C92_policy_example : nested [MBegin 1; MBegin 2; MEnd 2; MEnd 1; MBegin 3; MEnd 3].
Proof.
  apply (n_run 1 [MBegin 2; MEnd 2] [MBegin 3; MEnd 3]).
  - apply (n_run 2 [] []); [constructor|constructor|intros []].
  - apply (n_run 3 [] []); [constructor|constructor|intros []].
  - cbn. intuition discriminate.
Qed.
(* Two that overlap leave the first one's policy in force for good. *)
Theorem C92_policy_overlap_refuted : m_policy (mruns [MBegin 1; MBegin 2; MEnd 1; MEnd 2] (mkM None [])) = Some 1.
Proof. reflexivity. Qed.
Print Assumptions C92_policy_overlap_refuted.
