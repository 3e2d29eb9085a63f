(* MgProofs.v *)
From Coq Require Import Lia Permutation.
From Verif Require Import Base GoStrings GoStrings2 UrlModel CoreModel MetaModel ClusterModel ClusterSpec AccModel MgModel MgSpec.
Ltac Zify.zify_post_hook ::= idtac.

Lemma get_set : forall {V} (m : list (bs * V)) k v q, aget bs_eqb (aset bs_eqb m k v) q = if bs_eqb k q then Some v else aget bs_eqb m q.
Proof. intros V m k v q. rewrite (aget_aset bs_eqb bs_eqb_spec), bs_eqb_sym. reflexivity. Qed.
Lemma get_del : forall {V} (m : list (bs * V)) k q, aget bs_eqb (adel bs_eqb m k) q = if bs_eqb k q then None else aget bs_eqb m q.
Proof. intros V m k q. rewrite (aget_adel bs_eqb bs_eqb_spec), bs_eqb_sym. reflexivity. Qed.
Lemma asks_some : forall pth o r, asks pth o = Some r <-> o = OReq true r /\ q_path r = s2b pth.
Proof.
  intros pth o r. unfold asks. destruct o as [[|] x|n b|l]; split; try discriminate; try (intros [H _]; discriminate).
  - destruct (bs_eqb (q_path x) (s2b pth)) eqn:E; [|discriminate]. intros H. injection H as ->. apply bs_eqb_spec in E. auto.
  - intros [H1 H2]. injection H1 as ->. rewrite H2, bs_eqb_refl. reflexivity.
Qed.

Ltac paths := repeat match goal with |- context [bs_eqb (q_path ?r) (p ?x)] => let E := fresh "E" in
  destruct (bs_eqb (q_path r) (p x)) eqn:E; [apply bs_eqb_spec in E|] end.

(* everything a request does to the state, in one place *)
Lemma serve_frame : forall v h s r, let s' := fst (serve v h s r) in
  g_regs s' = g_regs s /\ g_stats s' = g_stats s /\ forall a, area_of (q_path r) <> Some a -> same a s s'.
Proof.
  intros v h s r.
  assert (Hrefl : g_regs s = g_regs s /\ g_stats s = g_stats s /\ forall a, area_of (q_path r) <> Some a -> same a s s)
    by (repeat split; intros a _; destruct a; cbn; auto).
  destruct h; cbn [serve fst]; try exact Hrefl.
  - unfold serveStatus. destruct (bs_eqb (q_path r) (p "/200")) eqn:E1;
      [|destruct (bs_eqb (q_path r) (p "/503")) eqn:E2; [|paths; exact Hrefl]];
      [apply bs_eqb_spec in E1; rewrite E1|apply bs_eqb_spec in E2; rewrite E2]; cbn [fst set_status g_regs g_stats]; repeat split;
      intros a Ha; destruct a; cbn; auto; exfalso; apply Ha; vm_compute; reflexivity.
  - unfold serveDebug. destruct (bs_eqb (q_path r) (p "/debug/pprof/sw")) eqn:E1; [|destruct (g_debug s); exact Hrefl].
    apply bs_eqb_spec in E1. rewrite E1. destruct (bs_eqb (q_ctr r) (s2b "op")); [|destruct (bs_eqb (q_ctr r) (s2b "cp"))];
      try (rewrite E1 in Hrefl; exact Hrefl); cbn [fst set_debug g_regs g_stats]; repeat split;
      intros a Ha; destruct a; cbn; auto; exfalso; apply Ha; vm_compute; reflexivity.
  - unfold serveSwitch. cbv zeta.
    destruct (bs_eqb (q_path r) (p "/switcher/set")) eqn:E1.
    + apply bs_eqb_spec in E1.
      destruct (bs_eqb (formValue r (p "name")) []); [exact Hrefl|]. destruct (bs_eqb (formValue r (p "value")) []); [exact Hrefl|]. destruct (parseBool _); [|exact Hrefl].
      destruct (aget _ _ _); [|exact Hrefl]. rewrite E1. cbn [fst set_sw g_regs g_stats]. repeat split.
      intros a Ha; destruct a; cbn; auto; exfalso; apply Ha; vm_compute; reflexivity.
    + destruct (bs_eqb (q_path r) (p "/switcher/get")); [|destruct (bs_eqb (q_path r) (p "/switcher/getAll")); exact Hrefl].
      destruct (bs_eqb (formValue r (p "name")) []); [exact Hrefl|]. destruct (aget _ _ _); exact Hrefl.
  - unfold serveLog. cbv zeta. destruct (bs_eqb (q_path r) (p "/logConfig/get")); [exact Hrefl|].
    destruct (bs_eqb (q_path r) (p "/logConfig/set")) eqn:E1; [|exact Hrefl]. apply bs_eqb_spec in E1.
    assert (Hl : forall l a m w, let s' := fst (set_log s l a m, w : list wr) in
      g_regs s' = g_regs s /\ g_stats s' = g_stats s /\ forall a, area_of (q_path r) <> Some a -> same a s s').
    { intros l a m w. rewrite E1. cbn [fst set_log g_regs g_stats]. repeat split.
      intros a0 Ha; destruct a0; cbn; auto; exfalso; apply Ha; vm_compute; reflexivity. }
    destruct (negb (bs_eqb (formValue r (p "level")) [])); [destruct (levelSet _); [apply Hl|exact Hrefl]|].
    destruct (negb (bs_eqb (formValue r (p "access")) [])); [unfold setLogStatus; destruct (parseBool _); [apply Hl|exact Hrefl]|].
    destruct (negb (bs_eqb (formValue r (p "metrics")) [])); [unfold setLogStatus; destruct (parseBool _); [apply Hl|exact Hrefl]|].
    exact Hrefl.
  - unfold serveMeta. destruct (bs_eqb (q_path r) (p "/meta/update")) eqn:E1; [|destruct (bs_eqb (q_path r) (p "/meta/delete")) eqn:E2].
    3: paths; exact Hrefl.
    all: [> apply bs_eqb_spec in E1; rewrite E1 | apply bs_eqb_spec in E2; rewrite E2]; cbn [fst set_meta g_regs g_stats]; repeat split;
      intros a Ha; destruct a; cbn; auto; exfalso; apply Ha; vm_compute; reflexivity.
  - unfold serveRuntime. paths; exact Hrefl.
  - unfold serveRefers. destruct (bs_eqb (q_path r) (p "/refers/filter/get")); [exact Hrefl|].
    destruct (bs_eqb (q_path r) (p "/refers/filter/set")) eqn:E1; [|exact Hrefl]. apply bs_eqb_spec in E1.
    destruct (bs_eqb (formValue r (p "config")) []); [exact Hrefl|]. destruct (v_parse v _); [|exact Hrefl].
    rewrite E1. cbn [fst set_rules g_regs g_stats]. repeat split.
    intros a Ha; destruct a; cbn; auto; exfalso; apply Ha; vm_compute; reflexivity.
Qed.

Lemma answer_frame : forall v g s r, let s' := fst (answer v g s r) in
  g_regs s' = g_regs s /\ g_stats s' = g_stats s /\ forall a, area_of (q_path r) <> Some a -> same a s s'.
Proof.
  intros v g s r. unfold answer. destruct (route _ _) as [h|]; [destruct g; [apply serve_frame|]|];
    (repeat split; intros a _; destruct a; cbn; auto).
Qed.
Lemma answer_denied : forall v s r, fst (answer v false s r) = s /\
  (route (v_table v) (q_path r) <> None -> snd (answer v false s r) = [WText (s2b "need permission!")]).
Proof. intros v s r. unfold answer. destruct (route _ _); split; auto. intros H. congruence. Qed.
Lemma answer_user : forall v s r n, route (v_table v) (q_path r) = Some (HUser n) ->
  answer v true s r = (s, if v_panics v n r then [WPanic] else [WOther (HUser n)]).
Proof. intros v s r n H. unfold answer. rewrite H. reflexivity. Qed.

(* ------------------------------------------------------------ histories *)

Lemma history : forall {B} (v : env) (f : mg -> B) (cmd : mgop -> option B) (ok : mgop -> Prop),
  (forall s o, ok o -> f (mgstep v s o) = or_now (cmd o) (f s)) ->
  forall os s, Forall ok os -> f (mgrun v s os) = or_now (last_some cmd os) (f s).
Proof.
  intros B v f cmd ok H os. induction os as [|o os IH]; intros s F; [reflexivity|].
  inversion F as [|? ? F1 F2]; subst. cbn [mgrun fold_left last_some]. change (fold_left (mgstep v) os (mgstep v s o)) with (mgrun v (mgstep v s o) os).
  rewrite (IH _ F2). destruct (last_some cmd os); [reflexivity|]. cbn [or_now]. apply H. exact F1.
Qed.
Lemma all_true : forall {A} (l : list A), Forall (fun _ => True) l. Proof. induction l; constructor; auto. Qed.

Lemma owns_route : forall v x h r, owns v x h -> q_path r = s2b x -> route (v_table v) (q_path r) = Some h.
Proof. intros v x h r H E. unfold route. rewrite E, H. reflexivity. Qed.

Lemma other_area : forall v g s r a, area_of (q_path r) <> Some a -> same a s (fst (answer v g s r)).
Proof. intros v g s r a H. destruct (answer_frame v g s r) as (_ & _ & F). exact (F a H). Qed.
Lemma asks_other : forall x o r g, o = OReq g r -> bs_eqb (q_path r) (s2b x) = false -> asks x o = None.
Proof. intros x o r g -> H. unfold asks. destruct g; [rewrite H|]; reflexivity. Qed.
Lemma area_in : forall pth a, area_of pth = Some a ->
  match a with
  | ArStatus => pth = s2b "/200" \/ pth = s2b "/503"
  | ArDebug => pth = s2b "/debug/pprof/sw"
  | ArSwitch => pth = s2b "/switcher/set"
  | ArLog => pth = s2b "/logConfig/set"
  | ArMeta => pth = s2b "/meta/update" \/ pth = s2b "/meta/delete"
  | ArRules => pth = s2b "/refers/filter/set"
  end.
Proof.
  intros pth a H. unfold area_of in H. destruct (find _ _) as [e|] eqn:F; [|discriminate]. injection H as <-.
  destruct (find_some _ _ F) as [Hin E]. apply bs_eqb_spec in E. subst pth.
  cbn [In] in Hin. decompose [or] Hin; subst; try contradiction; cbn [fst snd]; auto.
Qed.

Lemma status_step : forall v s o, owns v "/200" HStatus -> owns v "/503" HStatus -> g_status (mgstep v s o) = or_now (status_cmd o) (g_status s).
Proof.
  intros v s o H1 H2. destruct o as [g r|n b|l]; try reflexivity. cbn [mgstep].
  destruct (area_of (q_path r)) as [[]|] eqn:A.
  1: { destruct g.
    - apply area_in in A. destruct A as [A|A].
      + unfold answer. rewrite (owns_route _ _ _ _ H1 A). cbn [serve]. unfold serveStatus, status_cmd, asks. rewrite A. reflexivity.
      + unfold answer. rewrite (owns_route _ _ _ _ H2 A). cbn [serve]. unfold serveStatus, status_cmd, asks. rewrite A. reflexivity.
    - rewrite (proj1 (answer_denied v s r)). reflexivity. }
  all: assert (S : same ArStatus s (fst (answer v g s r))) by (apply other_area; rewrite A; discriminate); destruct S as (-> & _);
    replace (status_cmd (OReq g r)) with (@None Z); [reflexivity|];
    unfold status_cmd; destruct (asks "/200" (OReq g r)) as [x|] eqn:X;
    [apply asks_some in X; destruct X as [X1 X2]; injection X1 as -> ->; rewrite X2 in A; vm_compute in A; discriminate|];
    destruct (asks "/503" (OReq g r)) as [y|] eqn:Y;
    [apply asks_some in Y; destruct Y as [X1 X2]; injection X1 as -> ->; rewrite X2 in A; vm_compute in A; discriminate|reflexivity].
Qed.
Ltac notcmd A x := match goal with |- context [asks x ?o] => let r := fresh "rr" in let X := fresh "X" in
  destruct (asks x o) as [r|] eqn:X;
  [apply asks_some in X; destruct X as [X1 X2]; injection X1 as -> ->; rewrite X2 in A; vm_compute in A; discriminate|] end.
Lemma debug_step : forall v s o, owns v "/debug/pprof/sw" HDebug -> g_debug (mgstep v s o) = or_now (debug_cmd o) (g_debug s).
Proof.
  intros v s o H1. destruct o as [g r|n b|l]; try reflexivity. cbn [mgstep].
  destruct (area_of (q_path r)) as [[]|] eqn:A.
  2: { destruct g; [|rewrite (proj1 (answer_denied v s r)); reflexivity]. apply area_in in A.
    unfold answer. rewrite (owns_route _ _ _ _ H1 A). cbn [serve]. unfold serveDebug, debug_cmd, asks. rewrite A.
    change (bs_eqb (s2b "/debug/pprof/sw") (p "/debug/pprof/sw")) with true. rewrite bs_eqb_refl. cbv iota.
    destruct (bs_eqb (q_ctr r) (s2b "op")); [reflexivity|]. destruct (bs_eqb (q_ctr r) (s2b "cp")); reflexivity. }
  all: assert (S : same ArDebug s (fst (answer v g s r))) by (apply other_area; rewrite A; discriminate); cbn in S; rewrite S;
    unfold debug_cmd; notcmd A "/debug/pprof/sw"%string; reflexivity.
Qed.
Lemma log_step : forall v s o, owns v "/logConfig/set" HLog ->
  g_level (mgstep v s o) = or_now (level_cmd o) (g_level s) /\ g_access (mgstep v s o) = or_now (access_cmd o) (g_access s)
  /\ g_metrics (mgstep v s o) = or_now (metrics_cmd o) (g_metrics s).
Proof.
  intros v s o H1. destruct o as [g r|n b|l]; try (repeat split; reflexivity). cbn [mgstep].
  destruct (area_of (q_path r)) as [[]|] eqn:A.
  4: { destruct g; [|rewrite (proj1 (answer_denied v s r)); repeat split; reflexivity]. apply area_in in A.
    unfold answer. rewrite (owns_route _ _ _ _ H1 A). cbn [serve]. unfold serveLog, level_cmd, access_cmd, metrics_cmd, asks. rewrite A.
    change (bs_eqb (s2b "/logConfig/set") (p "/logConfig/get")) with false.
    change (bs_eqb (s2b "/logConfig/set") (p "/logConfig/set")) with true. rewrite bs_eqb_refl. cbv iota zeta.
    change (p "level") with (s2b "level"). change (p "access") with (s2b "access"). change (p "metrics") with (s2b "metrics").
    destruct (formValue r (s2b "level")) as [|c l] eqn:L.
    - cbn [bs_eqb negb]. change (negb true) with false. cbv iota.
      destruct (formValue r (s2b "access")) as [|c a] eqn:E.
      + change (negb (bs_eqb [] [])) with false. cbv iota. destruct (formValue r (s2b "metrics")) as [|c m] eqn:M.
        * change (negb (bs_eqb [] [])) with false. repeat split; reflexivity.
        * change (negb (bs_eqb (c :: m) [])) with true. cbv iota. unfold setLogStatus. destruct (parseBool (c :: m)); repeat split; reflexivity.
      + change (negb (bs_eqb [] [])) with false. change (negb (bs_eqb (c :: a) [])) with true. cbv iota. unfold setLogStatus.
        destruct (parseBool (c :: a)); repeat split; reflexivity.
    - change (negb (bs_eqb (c :: l) [])) with true. cbv iota. destruct (levelSet (c :: l)); repeat split; reflexivity. }
  all: assert (S : same ArLog s (fst (answer v g s r))) by (apply other_area; rewrite A; discriminate); destruct S as (-> & -> & ->);
    unfold level_cmd, access_cmd, metrics_cmd; notcmd A "/logConfig/set"%string; repeat split; reflexivity.
Qed.

(* ------------------------------------------------------------ switchers *)

Lemma setValue_get : forall sw n m x b, aget bs_eqb (swMap sw) n = Some x ->
  option_map swValue (aget bs_eqb (swMap (swSetValue sw n x b)) m) = if bs_eqb n m then Some b else option_map swValue (aget bs_eqb (swMap sw) m).
Proof.
  intros sw n m x b H. unfold swSetValue. destruct (Bool.eqb b (swValue x)) eqn:E.
  - apply Bool.eqb_prop in E. subst b. destruct (bs_eqb n m) eqn:N; [|reflexivity]. apply bs_eqb_spec in N. subst m. rewrite H. reflexivity.
  - cbn [swMap]. rewrite get_set. destruct (bs_eqb n m) eqn:N.
    + reflexivity.
    + reflexivity.
Qed.
Lemma switch_step : forall v s g r n, owns v "/switcher/set" HSwitch ->
  switch_value (fst (answer v g s r)) n = match switch_value s n with
                                          | Some b => Some (if bs_eqb n [] then b else or_now (switch_cmd n (OReq g r)) b) | None => None end.
Proof.
  intros v s g r n H1. unfold switch_value.
  destruct (area_of (q_path r)) as [[]|] eqn:A.
  3: { destruct g; [|rewrite (proj1 (answer_denied v s r)); cbn; destruct (aget _ _ n); [|reflexivity]; cbn; destruct (bs_eqb n []); reflexivity].
    apply area_in in A.
    unfold answer. rewrite (owns_route _ _ _ _ H1 A). cbn [serve]. unfold serveSwitch, switch_cmd, asks. rewrite A.
    change (bs_eqb (s2b "/switcher/set") (p "/switcher/set")) with true. rewrite bs_eqb_refl. cbv iota zeta.
    change (p "name") with (s2b "name"). change (p "value") with (s2b "value").
    assert (K : forall b, Some (if bs_eqb n [] then b else or_now (@None bool) b) = Some b) by (intros b; destruct (bs_eqb n []); reflexivity).
    destruct (bs_eqb (formValue r (s2b "name")) []) eqn:N0.
    { apply bs_eqb_spec in N0. rewrite N0. destruct (aget bs_eqb (swMap (g_sw s)) n) eqn:G; cbn [fst option_map]; rewrite G; [|reflexivity]. cbn [option_map].
      destruct (bs_eqb n []) eqn:N1; [reflexivity|]. rewrite bs_eqb_sym, N1. reflexivity. }
    destruct (bs_eqb (formValue r (s2b "value")) []) eqn:V0.
    { apply bs_eqb_spec in V0. rewrite V0. cbn [fst]. change (parseBool []) with (@None bool).
      destruct (aget bs_eqb (swMap (g_sw s)) n); cbn [option_map]; [|reflexivity]. destruct (bs_eqb (formValue r (s2b "name")) n); rewrite K; reflexivity. }
    destruct (parseBool (formValue r (s2b "value"))) as [b|] eqn:P.
    2: { cbn [fst]. destruct (aget bs_eqb (swMap (g_sw s)) n); cbn [option_map]; [|reflexivity]. destruct (bs_eqb (formValue r (s2b "name")) n); rewrite K; reflexivity. }
    destruct (aget bs_eqb (swMap (g_sw s)) (formValue r (s2b "name"))) as [x|] eqn:G.
    - cbn [fst set_sw g_sw]. rewrite (setValue_get _ _ _ _ _ G). destruct (bs_eqb (formValue r (s2b "name")) n) eqn:M.
      + apply bs_eqb_spec in M. subst n. rewrite G, N0. reflexivity.
      + destruct (aget bs_eqb (swMap (g_sw s)) n); cbn [option_map]; [rewrite K|]; reflexivity.
    - cbn [fst]. destruct (aget bs_eqb (swMap (g_sw s)) n) eqn:G2; cbn [option_map]; [|reflexivity].
      destruct (bs_eqb (formValue r (s2b "name")) n) eqn:M; [apply bs_eqb_spec in M; congruence|]. rewrite K. reflexivity. }
  all: assert (S : same ArSwitch s (fst (answer v g s r))) by (apply other_area; rewrite A; discriminate); cbn in S; rewrite S;
    unfold switch_cmd; notcmd A "/switcher/set"%string; destruct (aget bs_eqb _ n); cbn; [destruct (bs_eqb n [])|]; reflexivity.
Qed.
Lemma register_get : forall s n m b, switch_value (set_sw s (swRegister (g_sw s) n b [])) m =
  match switch_value s m with Some x => Some x | None => if bs_eqb n m && negb (bs_eqb n []) then Some b else None end.
Proof.
  intros s n m b. unfold switch_value. cbn [set_sw g_sw]. unfold swRegister.
  destruct (bs_eqb n []) eqn:N.
  - rewrite andb_false_r. destruct (aget bs_eqb (swMap (g_sw s)) m); reflexivity.
  - rewrite andb_true_r. destruct (aget bs_eqb (swMap (g_sw s)) n) eqn:G.
    + destruct (aget bs_eqb (swMap (g_sw s)) m) eqn:M; [reflexivity|]. destruct (bs_eqb n m) eqn:E; [|reflexivity].
      apply bs_eqb_spec in E. congruence.
    + cbn [swMap]. rewrite get_set. destruct (bs_eqb n m) eqn:E.
      * apply bs_eqb_spec in E. subst m. rewrite G. reflexivity.
      * destruct (aget bs_eqb (swMap (g_sw s)) m); reflexivity.
Qed.
Lemma switch_kept : forall v os s n b, owns v "/switcher/set" HSwitch -> n <> [] -> switch_value s n = Some b ->
  switch_value (mgrun v s os) n = Some (or_now (last_some (switch_cmd n) os) b).
Proof.
  intros v os. induction os as [|o os IH]; intros s n b Hv Hn Hs; [exact Hs|].
  cbn [mgrun fold_left last_some]. change (fold_left (mgstep v) os (mgstep v s o)) with (mgrun v (mgstep v s o) os).
  assert (Q : switch_value (mgstep v s o) n = Some (or_now (switch_cmd n o) b)).
  { destruct o as [g r|m c|l].
    - cbn [mgstep]. rewrite (switch_step v s g r n Hv), Hs. destruct (bs_eqb n []) eqn:E; [apply bs_eqb_spec in E; contradiction|reflexivity].
    - cbn [mgstep]. rewrite register_get, Hs. reflexivity.
    - exact Hs. }
  rewrite (IH _ n _ Hv Hn Q). destruct (last_some (switch_cmd n) os); reflexivity.
Qed.
Lemma switch_unregistered : forall v os s n, owns v "/switcher/set" HSwitch -> switch_value s n = None ->
  (forall b, ~ In (ORegister n b) os) -> switch_value (mgrun v s os) n = None.
Proof.
  intros v os. induction os as [|o os IH]; intros s n Hv Hs Hno; [exact Hs|].
  cbn [mgrun fold_left]. apply (IH (mgstep v s o) n Hv).
  - destruct o as [g r|m c|l]; [|cbn [mgstep]; rewrite register_get, Hs|exact Hs].
    + cbn [mgstep]. rewrite (switch_step v s g r n Hv), Hs. reflexivity.
    + destruct (bs_eqb m n) eqn:E; [|reflexivity]. apply bs_eqb_spec in E. subst m. exfalso. apply (Hno c). left. reflexivity.
  - intros b Hin. apply (Hno b). right. exact Hin.
Qed.
Lemma switch_history : forall v s os1 n b os2, owns v "/switcher/set" HSwitch -> n <> [] -> switch_value (mgrun v s os1) n = None ->
  switch_value (mgrun v s (os1 ++ ORegister n b :: os2)) n = Some (or_now (last_some (switch_cmd n) os2) b).
Proof.
  intros v s os1 n b os2 Hv Hn Hs. unfold mgrun in *. rewrite fold_left_app. cbn [fold_left]. apply switch_kept; auto.
  cbn [mgstep]. rewrite register_get, Hs, bs_eqb_refl. destruct (bs_eqb n []) eqn:E; [apply bs_eqb_spec in E; contradiction|reflexivity].
Qed.

(* ------------------------------------------------------------ meta *)

Lemma update_get : forall (form : list (bs * list bs)) (m : meta) k, NoDup (akeys form) ->
  aget bs_eqb (fold_left (fun m kv => match snd kv with v :: _ => dynStep m (MPut (fst kv) v) | [] => m end) form m) k =
  match aget bs_eqb form k with Some (v :: _) => Some v | _ => aget bs_eqb m k end.
Proof.
  induction form as [|[k0 vs] form IH]; intros m k ND; [reflexivity|]. inversion ND as [|? ? N1 N2]; subst.
  cbn [fold_left aget fst snd]. rewrite (IH _ _ N2). rewrite (bs_eqb_sym k k0).
  destruct (bs_eqb k0 k) eqn:E.
  - apply bs_eqb_spec in E. subst k0. replace (aget bs_eqb form k) with (@None (list bs)) by (symmetry; apply (aget_None bs_eqb bs_eqb_spec); exact N1).
    destruct vs as [|v vs]; [reflexivity|]. cbn [dynStep]. rewrite get_set, bs_eqb_refl. reflexivity.
  - destruct vs as [|v vs]; [reflexivity|]. cbn [dynStep]. rewrite get_set, E. reflexivity.
Qed.
Lemma meta_step : forall v s o k, owns v "/meta/update" HMeta -> owns v "/meta/delete" HMeta -> form_ok o ->
  meta_value (mgstep v s o) k = or_now (meta_cmd k o) (meta_value s k).
Proof.
  intros v s o k H1 H2 F. destruct o as [g r|n b|l]; try reflexivity. cbn [mgstep form_ok] in *. unfold meta_value.
  destruct (area_of (q_path r)) as [[]|] eqn:A.
  5: { destruct g; [|rewrite (proj1 (answer_denied v s r)); reflexivity]. apply area_in in A. destruct A as [A|A].
    - unfold answer. rewrite (owns_route _ _ _ _ H1 A). cbn [serve]. unfold serveMeta, meta_cmd, asks. rewrite A.
      change (bs_eqb (s2b "/meta/update") (p "/meta/update")) with true. rewrite bs_eqb_refl. cbv iota. cbn [fst set_meta g_meta].
      rewrite (update_get _ _ _ F). destruct (aget bs_eqb (q_form r) k) as [[|x l]|]; reflexivity.
    - unfold answer. rewrite (owns_route _ _ _ _ H2 A). cbn [serve]. unfold serveMeta, meta_cmd, asks. rewrite A.
      change (bs_eqb (s2b "/meta/delete") (p "/meta/update")) with false. change (bs_eqb (s2b "/meta/delete") (s2b "/meta/update")) with false.
      change (bs_eqb (s2b "/meta/delete") (p "/meta/delete")) with true. rewrite bs_eqb_refl. cbv iota. cbn [fst set_meta g_meta dynStep].
      rewrite get_del. change (p "key") with (s2b "key"). destruct (bs_eqb (formValue r (s2b "key")) k); reflexivity. }
  all: assert (S : same ArMeta s (fst (answer v g s r))) by (apply other_area; rewrite A; discriminate); cbn in S; rewrite S;
    unfold meta_cmd; notcmd A "/meta/update"%string; notcmd A "/meta/delete"%string; reflexivity.
Qed.

(* ------------------------------------------------------------ availability *)

Lemma last_some_app : forall {A B} (f : A -> option B) a b, last_some f (a ++ b) = match last_some f b with Some x => Some x | None => last_some f a end.
Proof. induction a as [|x a IH]; intros b; cbn [app last_some]; [destruct (last_some f b); reflexivity|]. rewrite IH. destruct (last_some f b); reflexivity. Qed.
Lemma told_map : forall k b regs, In k regs -> last_some (toldTo k) (map (fun x => (x, b)) regs) = Some b.
Proof.
  intros k b regs. induction regs as [|x l IH]; intros H; [contradiction|]. cbn [map last_some].
  destruct (last_some (toldTo k) (map (fun x => (x, b)) l)) eqn:E.
  - destruct (in_dec bs_eq_dec k l) as [Hin|Hno]; [exact (IH Hin)|].
    exfalso. clear -E Hno. induction l as [|y l IHl]; [discriminate|]. cbn [map last_some] in E.
    destruct (last_some (toldTo k) (map (fun x => (x, b)) l)) eqn:E2; [apply IHl; [exact E|intros Hin; apply Hno; right; exact Hin]|].
    unfold toldTo in E. cbn [fst snd] in E. destruct (bs_eqb y k) eqn:N; [|discriminate]. apply bs_eqb_spec in N. apply Hno. left. exact N.
  - destruct H as [H|H]; [|discriminate (IH H)]. subst x. unfold toldTo. cbn [fst snd]. rewrite bs_eqb_refl. reflexivity.
Qed.
Lemma regs_step : forall v s o, g_regs (mgstep v s o) = g_regs s.
Proof. intros v s o. destruct o; try reflexivity. cbn [mgstep]. apply answer_frame. Qed.
Lemma told_step : forall v s o k, owns v "/200" HStatus -> owns v "/503" HStatus -> In k (g_regs s) ->
  last_some (toldTo k) (g_told (mgstep v s o)) = match status_cmd o with Some c => Some (c =? 200)%Z | None => last_some (toldTo k) (g_told s) end.
Proof.
  intros v s o k H1 H2 Hk. destruct o as [g r|n b|l]; try reflexivity. cbn [mgstep].
  destruct (area_of (q_path r)) as [[]|] eqn:A.
  1: { destruct g.
    - apply area_in in A. destruct A as [A|A].
      + unfold answer. rewrite (owns_route _ _ _ _ H1 A). cbn [serve]. unfold serveStatus, status_cmd, asks. rewrite A.
        cbn [bs_eqb]. change (bs_eqb (s2b "/200") (p "/200")) with true. rewrite bs_eqb_refl. cbv iota. cbn [fst set_status g_told].
        rewrite last_some_app, (told_map k true _ Hk). reflexivity.
      + unfold answer. rewrite (owns_route _ _ _ _ H2 A). cbn [serve]. unfold serveStatus, status_cmd, asks. rewrite A.
        change (bs_eqb (s2b "/503") (p "/200")) with false. change (bs_eqb (s2b "/503") (s2b "/200")) with false.
        change (bs_eqb (s2b "/503") (p "/503")) with true. rewrite bs_eqb_refl. cbv iota. cbn [fst set_status g_told].
        rewrite last_some_app, (told_map k false _ Hk). reflexivity.
    - rewrite (proj1 (answer_denied v s r)). reflexivity. }
  all: assert (S : same ArStatus s (fst (answer v g s r))) by (apply other_area; rewrite A; discriminate); destruct S as (_ & _ & ->);
    unfold status_cmd; notcmd A "/200"%string; notcmd A "/503"%string; reflexivity.
Qed.
Lemma told_history : forall v os s k, owns v "/200" HStatus -> owns v "/503" HStatus -> In k (g_regs s) ->
  last_some (toldTo k) (g_told (mgrun v s os)) = match last_some status_cmd os with Some c => Some (c =? 200)%Z | None => last_some (toldTo k) (g_told s) end.
Proof.
  intros v os. induction os as [|o os IH]; intros s k H1 H2 Hk; [reflexivity|].
  cbn [mgrun fold_left last_some]. change (fold_left (mgstep v) os (mgstep v s o)) with (mgrun v (mgstep v s o) os).
  rewrite (IH _ k H1 H2); [|rewrite regs_step; exact Hk]. destruct (last_some status_cmd os); [reflexivity|]. apply told_step; auto.
Qed.

(* ------------------------------------------------------------ the status of the whole *)

Definition failedOf (ok : bool) : bs := if ok then registerFailed else unregisterFailed.
Lemma checked_cons : forall k l st, checked (k :: l) st <-> (rs_check k = true /\ rs_status k = st) \/ checked l st.
Proof.
  intros k l st. unfold checked. split.
  - intros (x & [<-|H] & C & S); [left; auto|right; exists x; auto].
  - intros [[C S]|(x & H & C & S)]; [exists k; cbn; auto|exists x; cbn; auto].
Qed.
Lemma checked_dec : forall l st, {checked l st} + {~ checked l st}.
Proof.
  induction l as [|k l IH]; intros st; [right; intros (x & [] & _)|].
  destruct (IH st) as [H|H]; [left; apply checked_cons; auto|].
  destruct (rs_check k) eqn:C; [destruct (bs_eq_dec (rs_status k) st) as [E|E]|].
  - left. apply checked_cons. auto.
  - right. rewrite checked_cons. intros [[_ X]|X]; auto.
  - right. rewrite checked_cons. intros [[X _]|X]; [congruence|auto].
Qed.
Lemma fold_failed : forall ok l, fold_left (oneStatus ok) l (failedOf ok) = failedOf ok.
Proof.
  intros ok l. induction l as [|k l IH]; [reflexivity|]. cbn [fold_left]. rewrite <- IH at 2. f_equal. unfold oneStatus. fold (failedOf ok).
  destruct (rs_check k); [|reflexivity]. destruct (bs_eqb (rs_status k) (failedOf ok)) eqn:E; [apply bs_eqb_spec; exact E|].
  rewrite bs_eqb_refl, andb_false_r. reflexivity.
Qed.
Lemma fold_whole : forall ok l res, res <> failedOf ok -> fold_left (oneStatus ok) l res =
  if checked_dec l (failedOf ok) then failedOf ok else if checked_dec l notRegister then notRegister else res.
Proof.
  intros ok l. induction l as [|k l IH]; intros res Hres.
  - cbn [fold_left]. destruct (checked_dec [] (failedOf ok)) as [(x & [] & _)|_]. destruct (checked_dec [] notRegister) as [(x & [] & _)|_]. reflexivity.
  - cbn [fold_left]. unfold oneStatus at 2. fold (failedOf ok). destruct (rs_check k) eqn:C.
    + destruct (bs_eqb (rs_status k) (failedOf ok)) eqn:E.
      * apply bs_eqb_spec in E. rewrite E, fold_failed. destruct (checked_dec (k :: l) (failedOf ok)) as [|N]; [reflexivity|].
        exfalso. apply N. apply checked_cons. auto.
      * assert (E' : rs_status k <> failedOf ok) by (intros X; rewrite X, bs_eqb_refl in E; discriminate).
        assert (Q : (if checked_dec (k :: l) (failedOf ok) then true else false) = if checked_dec l (failedOf ok) then true else false).
        { destruct (checked_dec (k :: l) (failedOf ok)) as [Y|Y]; destruct (checked_dec l (failedOf ok)) as [Z|Z]; auto.
          - apply checked_cons in Y. destruct Y as [[_ Y]|Y]; contradiction.
          - exfalso. apply Y. apply checked_cons. auto. }
        assert (R : bs_eqb res (failedOf ok) = false) by (destruct (bs_eqb res (failedOf ok)) eqn:X; [apply bs_eqb_spec in X; contradiction|reflexivity]).
        rewrite R. cbn [negb]. rewrite andb_true_r. destruct (bs_eqb (rs_status k) notRegister) eqn:M.
        -- apply bs_eqb_spec in M. rewrite (IH (rs_status k) E'). rewrite M.
           destruct (checked_dec (k :: l) (failedOf ok)); destruct (checked_dec l (failedOf ok)); try discriminate; [reflexivity|].
           destruct (checked_dec (k :: l) notRegister) as [|N]; [destruct (checked_dec l notRegister); reflexivity|].
           exfalso. apply N. apply checked_cons. auto.
        -- rewrite (IH res Hres).
           destruct (checked_dec (k :: l) (failedOf ok)); destruct (checked_dec l (failedOf ok)); try discriminate; [reflexivity|].
           destruct (checked_dec (k :: l) notRegister) as [Y|Y]; destruct (checked_dec l notRegister) as [Z|Z]; auto.
           ++ apply checked_cons in Y. destruct Y as [[_ Y]|Y]; [rewrite Y, bs_eqb_refl in M; discriminate|contradiction].
           ++ exfalso. apply Y. apply checked_cons. auto.
    + rewrite (IH res Hres).
      assert (Q : forall st, checked (k :: l) st <-> checked l st) by (intros st; rewrite checked_cons; split; [intros [[X _]|X]; [congruence|exact X]|auto]).
      destruct (checked_dec (k :: l) (failedOf ok)) as [Y|Y]; destruct (checked_dec l (failedOf ok)) as [Z|Z]; try reflexivity;
        try (exfalso; rewrite Q in Y; contradiction).
      destruct (checked_dec (k :: l) notRegister) as [Y2|Y2]; destruct (checked_dec l notRegister) as [Z2|Z2]; try reflexivity;
        exfalso; rewrite Q in Y2; contradiction.
Qed.
Lemma whole_ok : forall agent l, whole (agent =? 200)%Z l (wholeStatus agent l).
Proof.
  intros agent l. unfold wholeStatus. cbv zeta. set (ok := (agent =? 200)%Z). rewrite fold_whole by (destruct ok; vm_compute; discriminate).
  destruct (checked_dec l (failedOf ok)) as [H|H]; [apply whole_failed; exact H|].
  destruct (checked_dec l notRegister) as [H2|H2]; [apply whole_missing; assumption|apply whole_good; assumption].
Qed.
Lemma whole_fun : forall ok l a b, whole ok l a -> whole ok l b -> a = b.
Proof. intros ok l a b H1 H2. inversion H1; subst; inversion H2; subst; try reflexivity; contradiction. Qed.
Lemma checked_perm : forall l l' st, Permutation l l' -> checked l st -> checked l' st.
Proof. intros l l' st P (x & H & C & S). exists x. split; [apply (Permutation_in _ P H)|auto]. Qed.
Lemma whole_same : forall ok l' a, whole ok l' a -> forall l, (forall st, checked l st <-> checked l' st) -> whole ok l a.
Proof.
  intros ok l' a H. destruct H as [ok l' A|ok l' A B|ok l' A B]; intros l Q.
  - apply whole_failed. apply Q. exact A.
  - apply whole_missing; [rewrite Q; exact A|apply Q; exact B].
  - apply whole_good; rewrite Q; assumption.
Qed.
Lemma whole_perm : forall agent l l', Permutation l l' -> wholeStatus agent l = wholeStatus agent l'.
Proof.
  intros agent l l' P. apply (whole_fun (agent =? 200)%Z l); [apply whole_ok|].
  apply (whole_same _ _ _ (whole_ok agent l')). intros st. split; apply checked_perm; [exact P|apply Permutation_sym; exact P].
Qed.

(* ------------------------------------------------------------ routes *)

Lemma suffix_slash : forall pat, hasSuffix pat (s2b "/") = true <-> exists a, pat = a ++ s2b "/".
Proof. intros pat. rewrite hasSuffix_spec. split; intros [a H]; exists a; exact H. Qed.
Definition fits (path : bs) (e : bs * handler) : bool := hasSuffix (fst e) (s2b "/") && hasPrefix path (fst e).
Lemma fits_spec : forall path e, fits path e = true <-> subtree_of path (fst e).
Proof.
  intros path e. unfold fits, subtree_of. rewrite andb_true_iff, suffix_slash, hasPrefix_spec. reflexivity.
Qed.
Lemma best_fold : forall path t best,
  (forall b, best = Some b -> fits path b = true) ->
  match fold_left (subtree path) t best with
  | Some e => fits path e = true /\ (In e t \/ best = Some e) /\
              (forall e', In e' t -> fits path e' = true -> length (fst e') <= length (fst e)) /\ (forall b, best = Some b -> length (fst b) <= length (fst e))
  | None => best = None /\ forall e', In e' t -> fits path e' = false
  end.
Proof.
  intros path t. induction t as [|x t IH]; intros best Hb.
  - cbn [fold_left]. destruct best as [b|]; [|split; [reflexivity|intros e' []]].
    split; [apply Hb; reflexivity|]. split; [right; reflexivity|]. split; [intros e' []|intros b' E; injection E as <-; lia].
  - cbn [fold_left]. set (b1 := subtree path best x).
    assert (Hb1 : forall b, b1 = Some b -> fits path b = true).
    { intros b E. unfold b1, subtree in E. fold (fits path x) in E. destruct (fits path x) eqn:F; [|apply Hb; exact E].
      destruct best as [b0|]; [|injection E as <-; exact F]. destruct (length (fst b0) <? length (fst x)); [injection E as <-; exact F|apply Hb; exact E]. }
    assert (Hle : forall b, best = Some b -> exists c, b1 = Some c /\ length (fst b) <= length (fst c)).
    { intros b ->. unfold b1, subtree. fold (fits path x). destruct (fits path x); [|exists b; auto].
      destruct (length (fst b) <? length (fst x)) eqn:L; [apply Nat.ltb_lt in L; exists x; split; [reflexivity|lia]|exists b; auto]. }
    assert (Hx : fits path x = true -> exists c, b1 = Some c /\ length (fst x) <= length (fst c)).
    { intros F. unfold b1, subtree. fold (fits path x). rewrite F. destruct best as [b|]; [|exists x; auto].
      destruct (length (fst b) <? length (fst x)) eqn:L; [exists x; auto|apply Nat.ltb_ge in L; exists b; auto]. }
    assert (Horig : forall b, b1 = Some b -> b = x \/ best = Some b).
    { intros b E. unfold b1, subtree in E. fold (fits path x) in E. destruct (fits path x); [|right; exact E].
      destruct best as [b0|]; [destruct (length (fst b0) <? length (fst x)); [injection E as <-; auto|right; exact E]|injection E as <-; auto]. }
    specialize (IH b1 Hb1). destruct (fold_left (subtree path) t b1) as [e|].
    + destruct IH as (F & O & M & B). split; [exact F|]. split.
      * destruct O as [O|O]; [left; right; exact O|]. destruct (Horig e O) as [->|Q]; [left; left; reflexivity|right; exact Q].
      * split.
        -- intros e' [<-|Hin] F'; [destruct (Hx F') as (c & E & L); specialize (B c E); lia|apply M; assumption].
        -- intros b E. destruct (Hle b E) as (c & Ec & L). specialize (B c Ec). lia.
    + destruct IH as (E1 & M). split.
      * destruct best as [b|]; [destruct (Hle b eq_refl) as (c & Ec & _); congruence|reflexivity].
      * intros e' [<-|Hin]; [|apply M; exact Hin]. destruct (fits path x) eqn:F; [destruct (Hx eq_refl) as (c & Ec & _); congruence|reflexivity].
Qed.
Lemma route_exact : forall t path h, aget bs_eqb t path = Some h -> route t path = Some h.
Proof. intros t path h H. unfold route. rewrite H. reflexivity. Qed.
Lemma route_subtree : forall t path, aget bs_eqb t path = None ->
  match route t path with
  | Some h => exists pat, In (pat, h) t /\ subtree_of path pat /\ forall pat' h', In (pat', h') t -> subtree_of path pat' -> length pat' <= length pat
  | None => forall pat h, In (pat, h) t -> ~ subtree_of path pat
  end.
Proof.
  intros t path H. unfold route. rewrite H. pose proof (best_fold path t None ltac:(discriminate)) as B.
  destruct (fold_left (subtree path) t None) as [[pat h]|].
  - destruct B as (F & [O|O] & M & _); [|discriminate]. exists pat. split; [exact O|]. split; [apply (fits_spec path (pat, h)); exact F|].
    intros pat' h' Hin Hs. apply (M (pat', h') Hin). apply fits_spec. exact Hs.
  - destruct B as (_ & M). intros pat h Hin Hs. specialize (M _ Hin). apply (fits_spec path (pat, h)) in Hs. congruence.
Qed.
Lemma overlay_get : forall src t path, NoDup (akeys src) ->
  aget bs_eqb (overlay t src) path = match aget bs_eqb src path with Some h => Some h | None => aget bs_eqb t path end.
Proof.
  unfold overlay. induction src as [|[k h] src IH]; intros t path ND; [reflexivity|]. inversion ND as [|? ? N1 N2]; subst.
  cbn [fold_left aget fst snd]. rewrite (IH _ _ N2), get_set, (bs_eqb_sym path k). destruct (bs_eqb k path) eqn:E.
  - apply bs_eqb_spec in E. subst k. replace (aget bs_eqb src path) with (@None handler); [reflexivity|]. symmetry. apply (aget_None bs_eqb bs_eqb_spec). exact N1.
  - destruct (aget bs_eqb src path); reflexivity.
Qed.
Fixpoint distinct (l : list bs) : bool := match l with [] => true | x :: r => negb (existsb (bs_eqb x) r) && distinct r end.
Lemma distinct_nodup : forall l, distinct l = true -> NoDup l.
Proof.
  induction l as [|x l IH]; intros H; [constructor|]. cbn [distinct] in H. apply andb_true_iff in H. destruct H as [H1 H2].
  constructor; [|apply IH; exact H2]. intros Hin. apply negb_true_iff in H1.
  assert (existsb (bs_eqb x) l = true) by (apply existsb_exists; exists x; split; [exact Hin|apply bs_eqb_refl]). congruence.
Qed.
Lemma default_nodup : NoDup (akeys defaultTable).
Proof. apply distinct_nodup. vm_compute. reflexivity. Qed.
Lemma table_get : forall manage envs env path, NoDup (akeys manage) -> Forall (fun e => NoDup (akeys (snd e))) envs ->
  aget bs_eqb (handlersOf manage envs env) path =
  match env_handler envs env path with
  | Some h => Some h
  | None => match aget bs_eqb manage path with Some h => Some h | None => aget bs_eqb defaultTable path end
  end.
Proof.
  intros manage envs env path NM NE. unfold handlersOf, env_handler.
  assert (Base : aget bs_eqb (overlay (overlay [] defaultTable) manage) path =
    match aget bs_eqb manage path with Some h => Some h | None => aget bs_eqb defaultTable path end).
  { rewrite (overlay_get _ _ _ NM). destruct (aget bs_eqb manage path); [reflexivity|]. rewrite overlay_get.
    - destruct (aget bs_eqb defaultTable path); reflexivity.
    - exact default_nodup. }
  rewrite <- Base. generalize (overlay (overlay [] defaultTable) manage). generalize (splitOn x2c env). clear Base NM manage. unfold table in *.
  induction l as [|k l IH]; intros t; [reflexivity|]. cbn [fold_left last_some]. rewrite IH.
  destruct (last_some _ l); [reflexivity|]. destruct (aget bs_eqb envs (trimSpace k)) as [tb|] eqn:G; [|reflexivity].
  rewrite overlay_get; [reflexivity|]. apply (aget_In bs_eqb bs_eqb_spec) in G. rewrite Forall_forall in NE. exact (NE _ G).
Qed.

(* any path that is nobody else's is answered with the status of the agent *)
Lemma subtree_default : forall path pat h, In (pat, h) defaultTable -> subtree_of path pat -> pat = s2b "/" \/ pat = s2b "/debug/pprof/".
Proof.
  intros path pat h Hin [[a Ha] _].
  assert (Q : hasSuffix pat (s2b "/") = true) by (apply suffix_slash; exists a; exact Ha).
  assert (T : forallb (fun e => negb (hasSuffix (fst e) (s2b "/")) || bs_eqb (fst e) (s2b "/") || bs_eqb (fst e) (s2b "/debug/pprof/")) defaultTable = true) by (vm_compute; reflexivity).
  rewrite forallb_forall in T. specialize (T _ Hin). cbn [fst] in T. rewrite Q in T. cbn [negb orb] in T. apply orb_true_iff in T.
  destruct T as [T|T]; apply bs_eqb_spec in T; auto.
Qed.
Lemma default_key : forall pat h, In (pat, h) defaultTable -> aget bs_eqb defaultTable pat = Some h.
Proof.
  intros pat h Hin.
  assert (Heqb : forallb (fun e => match aget bs_eqb defaultTable (fst e), snd e with
     | Some HStatus, HStatus | Some HInfo, HInfo | Some HDebug, HDebug | Some HSwitch, HSwitch | Some HLog, HLog | Some HDyn, HDyn | Some HMeta, HMeta
     | Some HReload, HReload | Some HRuntime, HRuntime | Some HRefers, HRefers => true | _, _ => false end) defaultTable = true) by (vm_compute; reflexivity).
  rewrite forallb_forall in Heqb. specialize (Heqb _ Hin). cbn [fst snd] in Heqb.
  destruct (aget bs_eqb defaultTable pat) as [x|]; [|discriminate]. destruct x; destruct h; try discriminate; reflexivity.
Qed.
Lemma default_other : forall path rest, path = s2b "/" ++ rest -> aget bs_eqb defaultTable path = None ->
  (forall b, path <> s2b "/debug/pprof/" ++ b) -> route defaultTable path = Some HStatus.
Proof.
  intros path rest E N D. pose proof (route_subtree defaultTable path N) as H. destruct (route defaultTable path) as [h|].
  - destruct H as (pat & Hin & Hs & _). destruct (subtree_default _ _ _ Hin Hs) as [-> | ->].
    + apply default_key in Hin. vm_compute in Hin. injection Hin as <-. reflexivity.
    + destruct Hs as [_ [b Hb]]. exfalso. apply (D b). exact Hb.
  - exfalso. apply (H (s2b "/") HStatus); [left; reflexivity|]. split; [exists []; reflexivity|exists rest; exact E].
Qed.
Lemma status_other : forall w s r, aget bs_eqb defaultTable (q_path r) = None ->
  serveStatus w s r = (s, [WCode (g_status s); WText (httpText (g_status s))]).
Proof.
  intros w s r N. unfold serveStatus. paths; try reflexivity;
    match goal with E : q_path r = _ |- _ => rewrite E in N; vm_compute in N; discriminate end.
Qed.

(* ------------------------------------------------------------ runtime info, rules, counters *)

Lemma runtime_get : forall keys (m : list (bs * rinfo)) k,
  aget bs_eqb (fold_left (fun m k => if existsb (bs_eqb k) runtimeKeys then aset bs_eqb m k (RShown k) else m) keys m) k =
  if existsb (bs_eqb k) keys && existsb (bs_eqb k) runtimeKeys then Some (RShown k) else aget bs_eqb m k.
Proof.
  induction keys as [|x keys IH]; intros m k; [reflexivity|]. cbn [fold_left existsb]. rewrite IH.
  destruct (existsb (bs_eqb k) keys) eqn:E; [rewrite orb_true_r|].
  - cbn [andb]. destruct (existsb (bs_eqb k) runtimeKeys) eqn:K; [reflexivity|].
    destruct (existsb (bs_eqb x) runtimeKeys) eqn:X; [|reflexivity]. rewrite get_set. destruct (bs_eqb x k) eqn:XK; [|reflexivity].
    apply bs_eqb_spec in XK. subst x. congruence.
  - rewrite orb_false_r. cbn [andb]. destruct (bs_eqb k x) eqn:KX; cbn [andb].
    + apply bs_eqb_spec in KX. subst x. destruct (existsb (bs_eqb k) runtimeKeys); [rewrite get_set, bs_eqb_refl|]; reflexivity.
    + destruct (existsb (bs_eqb x) runtimeKeys); [|reflexivity]. rewrite get_set. rewrite bs_eqb_sym, KX. reflexivity.
Qed.
Lemma existsb_eq : forall (l : list bs) k, existsb (bs_eqb k) l = true <-> In k l.
Proof.
  intros l k. rewrite existsb_exists. split; [intros (x & H & E); apply bs_eqb_spec in E; subst; exact H|intros H; exists k; split; [exact H|apply bs_eqb_refl]].
Qed.
Lemma runtime_answer : forall s r, q_path r = s2b "/runtime/info" -> exists l, serveRuntime s r = (s, [WRuntime l]) /\
  forall k x, aget bs_eqb l k = Some x <->
    (k = s2b "result" /\ x = RText (s2b "ok")) \/ (k = s2b "instanceType" /\ x = RText (s2b "motan-agent")) \/
    (In k runtimeKeys /\ (formValue r (s2b "keys") = [] \/ In k (splitOn x2c (formValue r (s2b "keys")))) /\ x = RShown k).
Proof.
  intros s r E. unfold serveRuntime. rewrite E. change (bs_eqb (s2b "/runtime/info") (p "/runtime/info")) with true. cbv iota zeta.
  eexists. split; [reflexivity|]. intros k x. rewrite runtime_get. change (p "keys") with (s2b "keys").
  set (ks := formValue r (s2b "keys")).
  assert (Base : forall y, aget bs_eqb [(s2b "result", RText (s2b "ok")); (s2b "instanceType", RText (s2b "motan-agent"))] k = Some y <->
     (k = s2b "result" /\ y = RText (s2b "ok")) \/ (k = s2b "instanceType" /\ y = RText (s2b "motan-agent"))).
  { intros y. cbn [aget]. rewrite (bs_eqb_sym k (s2b "result")), (bs_eqb_sym k (s2b "instanceType")). destruct (bs_eqb (s2b "result") k) eqn:A.
    - apply bs_eqb_spec in A. subst k. split; [intros X; injection X as <-; auto|]. intros [[_ ->]|[X _]]; [reflexivity|vm_compute in X; discriminate].
    - destruct (bs_eqb (s2b "instanceType") k) eqn:B.
      + apply bs_eqb_spec in B. subst k. split; [intros X; injection X as <-; auto|]. intros [[X _]|[_ ->]]; [vm_compute in X; discriminate|reflexivity].
      + split; [discriminate|]. intros [[X _]|[X _]]; subst k; rewrite bs_eqb_refl in *; discriminate. }
  assert (KR : In k runtimeKeys -> k <> s2b "result" /\ k <> s2b "instanceType").
  { intros Hin. split; intros ->; apply existsb_eq in Hin; vm_compute in Hin; discriminate. }
  assert (KS : existsb (bs_eqb k) (if bs_eqb ks [] then runtimeKeys else splitOn x2c ks) = true -> In k runtimeKeys ->
     (ks = [] \/ In k (splitOn x2c ks))).
  { intros X _. destruct (bs_eqb ks []) eqn:Z; [left; apply bs_eqb_spec; exact Z|right; apply existsb_eq; exact X]. }
  destruct (existsb (bs_eqb k) runtimeKeys) eqn:K; [apply existsb_eq in K; rewrite andb_true_r|rewrite andb_false_r].
  - destruct (existsb (bs_eqb k) (if bs_eqb ks [] then runtimeKeys else splitOn x2c ks)) eqn:X.
    + split; [intros Y; injection Y as <-; right; right; auto|]. intros [[Y _]|[[Y _]|(_ & _ & ->)]]; [exfalso; apply (proj1 (KR K)); exact Y|exfalso; apply (proj2 (KR K)); exact Y|reflexivity].
    + rewrite Base. split; [intros [Y|Y]; auto|]. intros [Y|[Y|(_ & [Y|Y] & _)]]; auto.
      * rewrite Y in X. change (bs_eqb [] []) with true in X. cbv iota in X. apply existsb_eq in K. congruence.
      * destruct (bs_eqb ks []) eqn:Z; [apply existsb_eq in K; congruence|]. apply existsb_eq in Y. congruence.
  - rewrite Base. split; [intros [Y|Y]; auto|]. intros [Y|[Y|(Y & _ & _)]]; auto. apply existsb_eq in Y. congruence.
Qed.

Lemma filter_set : forall nl c f sw, clFilter (clSetFilter nl c f sw sw) = f /\ clUrl (clSetFilter nl c f sw sw) = clUrl c
  /\ (f <> None -> clRefers (clSetFilter nl c f sw sw) = refersOf nl f (clRR c) sw sw).
Proof.
  intros nl c f sw. unfold clSetFilter. destruct f as [f|]; [|destruct (clFilter c) eqn:E]; cbn; repeat split; auto. intros X; congruence.
Qed.
Lemma verify_valid : forall l, verifyConfigs l = true <-> Forall valid_config l.
Proof.
  intros l. unfold verifyConfigs. rewrite forallb_forall, Forall_forall.
  assert (V : forall c, negb (bs_eqb (fcRule c) []) && (bs_eqb (fcMode c) includeMode || bs_eqb (fcMode c) excludeMode) = true <-> valid_config c).
  { intros c. unfold valid_config. change (s2b "include") with includeMode. change (s2b "exclude") with excludeMode.
    rewrite Bool.andb_true_iff, Bool.negb_true_iff, Bool.orb_true_iff, !bs_eqb_spec, bs_eqb_neq. reflexivity. }
  split; intros H c Hc; apply V, H, Hc.
Qed.
Lemma refers_answer : forall nl parse sw s r, q_path r = s2b "/refers/filter/set" ->
  match parse (formValue r (s2b "config")) with
  | Some rules => formValue r (s2b "config") <> [] ->
      g_rules (fst (serveRefers nl parse sw s r)) = rules
      /\ (forall k c', In (k, c') (g_clusters (fst (serveRefers nl parse sw s r))) ->
            exists c, In (k, c) (g_clusters s) /\ clUrl c' = clUrl c /\ clFilter c' = parseRefersFilters nl rules (clUrl c))
      /\ map fst (g_clusters (fst (serveRefers nl parse sw s r))) = map fst (g_clusters s)
      /\ snd (serveRefers nl parse sw s r) = (if verifyConfigs rules then [] else [WFail (s2b "invalid config")]) ++ [WOk]
      /\ (verifyConfigs rules = true <-> Forall valid_config rules)
  | None => fst (serveRefers nl parse sw s r) = s /\
            snd (serveRefers nl parse sw s r) = [WFail (match formValue r (s2b "config") with [] => s2b "empty config" | _ => s2b "parse config failed" end)]
  end.
Proof.
  intros nl parse sw s r E. unfold serveRefers. rewrite E. change (bs_eqb (s2b "/refers/filter/set") (p "/refers/filter/get")) with false.
  change (bs_eqb (s2b "/refers/filter/set") (p "/refers/filter/set")) with true. cbv iota zeta. change (p "config") with (s2b "config").
  destruct (parse (formValue r (s2b "config"))) as [rules|].
  - intros H. destruct (bs_eqb (formValue r (s2b "config")) []) eqn:B; [apply bs_eqb_spec in B; contradiction|]. cbn [fst snd set_rules g_rules g_clusters].
    split; [reflexivity|]. split; [|split; [|split; [reflexivity|apply verify_valid]]].
    + intros k c' Hin. apply in_map_iff in Hin. destruct Hin as ((k0 & c) & Q & Hin). cbn [fst snd] in Q. injection Q as <- <-. exists c.
      destruct (filter_set nl c (parseRefersFilters nl rules (clUrl c)) sw) as (F & U & _). auto.
    + rewrite map_map. cbn [fst]. reflexivity.
  - destruct (formValue r (s2b "config")) as [|c0 cs]; split; reflexivity.
Qed.

Lemma total_suffix : forall x, hasSuffix (x ++ totalSuffix) totalSuffix = true.
Proof. intros x. apply hasSuffix_spec. exists x. reflexivity. Qed.
Lemma splitOn_last : forall c a b, ~ In c b -> exists l, splitOn c (a ++ c :: b) = l ++ [b] /\ l <> [].
Proof.
  intros c a b H. induction a as [|x a IH].
  - exists [[]]. cbn [app splitOn]. rewrite byte_eqb_refl, (splitOn_none c b H). split; [reflexivity|discriminate].
  - destruct IH as (l & E & Hl). cbn [app splitOn]. rewrite E. destruct (byte_eqb x c).
    + exists ([] :: l). split; [reflexivity|discriminate].
    + destruct l as [|y l]; [contradiction|]. exists ((x :: y) :: l). split; [reflexivity|discriminate].
Qed.
Lemma no_colon : ~ In x3a totalSuffix.
Proof. intros H. assert (T : existsb (byte_eqb x3a) totalSuffix = false) by reflexivity. assert (existsb (byte_eqb x3a) totalSuffix = true); [|congruence].
  apply existsb_exists. exists x3a. split; [exact H|reflexivity]. Qed.
Lemma lastColon_app : forall pre rest, ~ In x3a rest -> lastColon (pre ++ x3a :: rest) = Some (length (pre ++ [x3a])).
Proof.
  intros pre rest H. unfold lastColon. destruct (splitOn_last x3a pre rest H) as (l & E & Hl). rewrite E.
  assert (L : last (l ++ [rest]) [] = rest) by apply last_last.
  assert (N : length (pre ++ x3a :: rest) - length (last (l ++ [rest]) []) = length (pre ++ [x3a])).
  { rewrite L, !app_length. cbn [length]. lia. }
  rewrite <- N. destruct l as [|a [|b l]]; [contradiction|reflexivity|reflexivity].
Qed.
Lemma method_of : forall pre m, ~ In x3a m -> methodOf (pre ++ x3a :: m ++ totalSuffix) = m.
Proof.
  intros pre m H. unfold methodOf.
  assert (Hm : ~ In x3a (m ++ totalSuffix)) by (intros X; apply in_app_or in X; destruct X as [X|X]; [exact (H X)|exact (no_colon X)]).
  rewrite (lastColon_app pre _ Hm).
  replace (length (pre ++ x3a :: m ++ totalSuffix) - length totalSuffix) with (length (pre ++ x3a :: m)) by (rewrite !app_length; cbn [length]; rewrite app_length; lia).
  replace (pre ++ x3a :: m ++ totalSuffix) with ((pre ++ x3a :: m) ++ totalSuffix) by (rewrite <- app_assoc; reflexivity).
  rewrite firstn_app_exact. replace (pre ++ x3a :: m) with ((pre ++ [x3a]) ++ m) by (rewrite <- app_assoc; reflexivity). apply skipn_app_exact.
Qed.
Lemma method_plain : forall m, ~ In x3a m -> methodOf (m ++ totalSuffix) = m.
Proof.
  intros m H. unfold methodOf, lastColon.
  assert (Hm : ~ In x3a (m ++ totalSuffix)) by (intros X; apply in_app_or in X; destruct X as [X|X]; [exact (H X)|exact (no_colon X)]).
  rewrite (splitOn_none _ _ Hm). rewrite app_length. replace (length m + length totalSuffix - length totalSuffix) with (length m) by lia. apply firstn_app_exact.
Qed.

Lemma wrap_add : forall a b, wrapI64 (wrapI64 a + b) = wrapI64 (a + b).
Proof.
  intros a b. unfold wrapI64. set (M := 18446744073709551616%Z). set (h := 9223372036854775808%Z).
  replace ((a + h) mod M - h + b + h)%Z with ((a + h) mod M + b)%Z by ring. rewrite Zplus_mod_idemp_l. f_equal. f_equal. ring.
Qed.
Lemma wrap_sum : forall l t, wrapI64 t = t -> fold_left (fun t (kc : bs * Z) => wrapI64 (t + snd kc)) l t = wrapI64 (t + sumZ (map snd l)).
Proof.
  induction l as [|x l IH]; intros t Ht.
  - cbn [fold_left map sumZ fold_right]. rewrite Z.add_0_r. symmetry. exact Ht.
  - cbn [fold_left map sumZ fold_right]. fold (sumZ (map snd l)). rewrite IH.
    + rewrite wrap_add, Z.add_assoc. reflexivity.
    + pose proof (wrap_add (t + snd x) 0) as W. rewrite !Z.add_0_r in W. exact W.
Qed.
Lemma sum_app : forall a b, sumZ (a ++ b) = (sumZ a + sumZ b)%Z.
Proof. induction a as [|x a IH]; intros b; [reflexivity|]. cbn [app sumZ fold_right]. fold (sumZ (a ++ b)). fold (sumZ a). rewrite IH. ring. Qed.
Lemma status_fold : forall l t acc, wrapI64 t = t ->
  fold_left (fun acc e => match snd e with
                          | None => acc
                          | Some counts => (fold_left (fun t kc => wrapI64 (t + snd kc)) (methodsOf counts) (fst acc),
                                            snd acc ++ [(fst (fst e), snd (fst e), methodsOf counts)])
                          end) l (t, acc)
  = (wrapI64 (t + sumZ (countsIn (flat_map shown l))), acc ++ flat_map shown l).
Proof.
  induction l as [|e l IH]; intros t acc Ht.
  - cbn [fold_left flat_map countsIn sumZ fold_right]. rewrite Z.add_0_r, Ht, app_nil_r. reflexivity.
  - cbn [fold_left flat_map]. unfold shown at 1 3. destruct (snd e) as [counts|] eqn:E.
    + cbn [fst snd]. rewrite IH.
      * rewrite (wrap_sum _ _ Ht), wrap_add. cbn [app countsIn flat_map snd]. fold (countsIn (flat_map shown l)).
        rewrite sum_app, Z.add_assoc, <- app_assoc. reflexivity.
      * rewrite (wrap_sum _ _ Ht). pose proof (wrap_add (t + sumZ (map snd (methodsOf counts))) 0) as W. rewrite !Z.add_0_r in W. exact W.
    + cbn [app]. apply IH. exact Ht.
Qed.
Lemma status_counts : forall l, statusOf l = (wrapI64 (sumZ (countsIn (flat_map shown l))), flat_map shown l).
Proof. intros l. unfold statusOf. rewrite (status_fold l 0 []) by reflexivity. reflexivity. Qed.

Lemma failback_one : forall status reg e c, In c (failbackOne status reg e) <->
  (status = 200%Z /\ snd e = registerFailed /\ c = (reg, fst e, true)) \/ (status = 503%Z /\ snd e = unregisterFailed /\ c = (reg, fst e, false)).
Proof.
  intros status reg [svc st] c. unfold failbackOne. cbn [fst snd]. destruct (status =? 200)%Z eqn:A.
  - apply Z.eqb_eq in A. subst status. cbn [andb]. destruct (bs_eqb st registerFailed) eqn:B.
    + apply bs_eqb_spec in B. subst st. cbn [In]. split; [intros [<-|[]]; intuition|]. intros [(_ & _ & ->)|(X & _)]; [left; reflexivity|discriminate].
    + change (200 =? 503)%Z with false. cbn [andb In]. split; [intros []|]. intros [(_ & X & _)|(X & _)]; [subst; rewrite bs_eqb_refl in B; discriminate|discriminate].
  - apply Z.eqb_neq in A. cbn [andb]. destruct (status =? 503)%Z eqn:A2.
    + apply Z.eqb_eq in A2. subst status. cbn [andb]. destruct (bs_eqb st unregisterFailed) eqn:B.
      * apply bs_eqb_spec in B. subst st. cbn [In]. split; [intros [<-|[]]; intuition|]. intros [(X & _)|(_ & _ & ->)]; [discriminate|left; reflexivity].
      * cbn [In]. split; [intros []|]. intros [(X & _)|(_ & X & _)]; [discriminate|subst; rewrite bs_eqb_refl in B; discriminate].
    + apply Z.eqb_neq in A2. cbn [andb In]. split; [intros []|]. intros [(X & _)|(X & _)]; contradiction.
Qed.
Lemma failback_in : forall status regs reg svc b, In (reg, svc, b) (failback status regs) <->
  exists m st, In (reg, Some m) regs /\ In (svc, st) m /\
    ((status = 200%Z /\ st = registerFailed /\ b = true) \/ (status = 503%Z /\ st = unregisterFailed /\ b = false)).
Proof.
  intros status regs reg svc b. unfold failback. rewrite in_flat_map. split.
  - intros ((r & [m|]) & Hin & H); cbn [fst snd] in H; [|destruct H]. apply in_flat_map in H. destruct H as ((s & st) & Hm & H).
    apply failback_one in H. cbn [fst snd] in H.
    destruct H as [(A & B & C)|(A & B & C)]; injection C as -> -> ->; exists m, st; (split; [exact Hin|split; [exact Hm|]]); [left|right]; auto.
  - intros (m & st & Hin & Hm & H). exists (reg, Some m). split; [exact Hin|]. cbn [fst snd]. apply in_flat_map. exists (svc, st). split; [exact Hm|].
    apply failback_one. cbn [fst snd]. destruct H as [(A & B & ->)|(A & B & ->)]; auto.
Qed.
Lemma one_len : forall status reg e, length (failbackOne status reg e) <= 1.
Proof. intros. unfold failbackOne. destruct (_ && _); [cbn; lia|]. destruct (_ && _); cbn; lia. Qed.
Lemma NoDup_flat : forall {A B} (f : A -> list B) l, (forall x, In x l -> NoDup (f x)) ->
  NoDup l -> (forall x y b, In x l -> In y l -> In b (f x) -> In b (f y) -> x = y) -> NoDup (flat_map f l).
Proof.
  intros A B f l. induction l as [|x l IH]; intros H1 H2 H3; [constructor|]. cbn [flat_map]. inversion H2 as [|? ? N1 N2]; subst.
  assert (Happ : forall (a b : list B), NoDup a -> NoDup b -> (forall z, In z a -> ~ In z b) -> NoDup (a ++ b)).
  { clear. induction a as [|z a IHa]; intros b Ha Hb H; [exact Hb|]. inversion Ha; subst. cbn [app]. constructor.
    - rewrite in_app_iff. intros [X|X]; [contradiction|]. apply (H z); [left; reflexivity|exact X].
    - apply IHa; auto. intros w Hw. apply H. right. exact Hw. }
  apply Happ.
  - apply H1. left. reflexivity.
  - apply IH; [intros y Hy; apply H1; right; exact Hy|exact N2|].
    intros y z b Hy Hz. apply H3; right; assumption.
  - intros z Hz Hz2. apply in_flat_map in Hz2. destruct Hz2 as (y & Hy & Hb). assert (x = y) by (apply (H3 x y z); [left; reflexivity|right; exact Hy|exact Hz|exact Hb]).
    subst y. contradiction.
Qed.
Lemma NoDup_of_keys : forall {A B} (l : list (A * B)), NoDup (map fst l) -> NoDup l.
Proof. intros A B l H. apply (NoDup_map_inv fst). exact H. Qed.
Lemma keys_inj : forall {A B} (l : list (A * B)) x y, NoDup (map fst l) -> In x l -> In y l -> fst x = fst y -> x = y.
Proof.
  intros A B l. induction l as [|z l IH]; intros x y ND Hx Hy E; [contradiction|]. inversion ND as [|? ? N1 N2]; subst.
  destruct Hx as [<-|Hx]; destruct Hy as [<-|Hy]; auto.
  - exfalso. apply N1. rewrite E. apply in_map. exact Hy.
  - exfalso. apply N1. rewrite <- E. apply in_map. exact Hx.
Qed.
Lemma failback_once : forall status regs, NoDup (map fst regs) -> (forall r m, In (r, Some m) regs -> NoDup (map fst m)) ->
  NoDup (map fst (failback status regs)).
Proof.
  intros status regs H1 H2. unfold failback.
  assert (Q : forall {X Y Z} (f : Y -> Z) (g : X -> list Y) l, map f (flat_map g l) = flat_map (fun x => map f (g x)) l).
  { intros X Y Z f g l. induction l as [|x l IHl]; [reflexivity|]. cbn [flat_map]. rewrite map_app, IHl. reflexivity. }
  rewrite Q. apply NoDup_flat.
  - intros [r [m|]] Hin; cbn [fst snd]; [|constructor]. rewrite Q. apply NoDup_flat.
    + intros e _. pose proof (one_len status r e) as L. destruct (failbackOne status r e) as [|x [|y t]]; cbn in *; [constructor|constructor; [intros []|constructor]|lia].
    + apply NoDup_of_keys. exact (H2 r m Hin).
    + intros x y b Hx Hy Bx By. apply (keys_inj m); auto; [exact (H2 r m Hin)|].
      apply in_map_iff in Bx. destruct Bx as (c & Ec & Hc). apply in_map_iff in By. destruct By as (d & Ed & Hd).
      apply failback_one in Hc. apply failback_one in Hd.
      assert (fst c = (r, fst x)) by (destruct Hc as [(_ & _ & ->)|(_ & _ & ->)]; reflexivity).
      assert (fst d = (r, fst y)) by (destruct Hd as [(_ & _ & ->)|(_ & _ & ->)]; reflexivity). congruence.
  - apply NoDup_of_keys. exact H1.
  - intros [r1 o1] [r2 o2] b Hx Hy Bx By. apply (keys_inj regs); auto. cbn [fst snd] in *.
    destruct o1 as [m1|]; [|destruct Bx]. destruct o2 as [m2|]; [|destruct By].
    rewrite Q in Bx, By. apply in_flat_map in Bx. destruct Bx as (x & _ & Bx). apply in_flat_map in By. destruct By as (y & _ & By).
    apply in_map_iff in Bx. destruct Bx as (c & Ec & Hc). apply in_map_iff in By. destruct By as (d & Ed & Hd).
    apply failback_one in Hc. apply failback_one in Hd.
    assert (fst c = (r1, fst x)) by (destruct Hc as [(_ & _ & ->)|(_ & _ & ->)]; reflexivity).
    assert (fst d = (r2, fst y)) by (destruct Hd as [(_ & _ & ->)|(_ & _ & ->)]; reflexivity). congruence.
Qed.
