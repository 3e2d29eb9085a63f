(* MgProps.v *)
From Coq Require Import Lia Permutation.
From Verif Require Import Base GoStrings GoStrings2 UrlModel CoreModel MetaModel ClusterModel ClusterSpec AccModel MgModel MgSpec MgProofs.

(* ------------------------------------------------------------ who answers *)

(* a handler of the environment goes before one registered in the program, and that before the agent's own *)
Theorem C96_table : forall manage envs env path, NoDup (akeys manage) -> Forall (fun e => NoDup (akeys (snd e))) envs ->
  aget bs_eqb (handlersOf manage envs env) path =
  match env_handler envs env path with
  | Some h => Some h
  | None => match aget bs_eqb manage path with Some h => Some h | None => aget bs_eqb defaultTable path end
  end.
Proof. exact table_get. Qed.
Print Assumptions C96_table.
(* the agent's own paths *)
Lemma own_check : forallb (fun e => match aget bs_eqb defaultTable (s2b (fst e)) with Some h => match h, snd e with
    | HStatus, HStatus | HInfo, HInfo | HDebug, HDebug | HSwitch, HSwitch | HLog, HLog | HDyn, HDyn | HMeta, HMeta | HReload, HReload | HRuntime, HRuntime | HRefers, HRefers => true | _, _ => false end | None => false end) own_paths = true /\
  forallb (fun e => existsb (fun f => bs_eqb (fst e) (s2b (fst f))) own_paths) defaultTable = true.
Proof. split; vm_compute; reflexivity. Qed.
Theorem C96_own : forall path h, aget bs_eqb defaultTable path = Some h <-> exists q, In (q, h) own_paths /\ path = s2b q.
Proof.
  intros path h. destruct own_check as (A & B). rewrite forallb_forall in A, B.
  assert (G : forall q k, In (q, k) own_paths -> aget bs_eqb defaultTable (s2b q) = Some k).
  { intros q k Hq. specialize (A _ Hq). cbn [fst snd] in A. destruct (aget bs_eqb defaultTable (s2b q)) as [x|]; [|discriminate]. destruct x, k; try discriminate; reflexivity. }
  split.
  - intros E. pose proof (aget_In bs_eqb bs_eqb_spec _ _ _ E) as Hi. specialize (B _ Hi). apply existsb_exists in B. destruct B as ([q k] & Hq & Q). cbn [fst] in Q.
    apply bs_eqb_spec in Q. subst path. exists q. split; [|reflexivity]. rewrite (G _ _ Hq) in E. injection E as <-. exact Hq.
  - intros (q & Hq & ->). exact (G _ _ Hq).
Qed.
Print Assumptions C96_own.
(* handlers registered in the program: the last one for the path; the empty path is refused.  The same for the tables of the environment *)
Theorem C96_registered : forall (regs : list (bs * handler)) path,
  let m := fold_left (fun m e => registerManage m (fst e) (snd e)) regs [] in
  NoDup (akeys m) /\ aget bs_eqb m path = if bs_eqb path [] then None else last_some (fun e : bs * handler => if bs_eqb path (fst e) then Some (snd e) else None) regs.
Proof.
  intros regs path m. subst m.
  assert (H : forall rs m, NoDup (akeys m) -> NoDup (akeys (fold_left (fun m e => registerManage m (fst e) (snd e)) rs m)) /\
    aget bs_eqb (fold_left (fun m e => registerManage m (fst e) (snd e)) rs m) path =
    if bs_eqb path [] then aget bs_eqb m path else match last_some (fun e : bs * handler => if bs_eqb path (fst e) then Some (snd e) else None) rs with Some h => Some h | None => aget bs_eqb m path end).
  { induction rs as [|[k h] rs IH]; intros m N; cbn [fold_left last_some fst snd]; [split; [exact N|destruct (bs_eqb path []); reflexivity]|].
    assert (N' : NoDup (akeys (registerManage m k h))). { unfold registerManage. destruct (bs_eqb k []); [exact N|]. apply NoDup_aset; [exact bs_eqb_spec|exact N]. }
    destruct (IH _ N') as [X Y]. split; [exact X|]. rewrite Y. unfold registerManage. destruct (bs_eqb path []) eqn:P.
    - apply bs_eqb_spec in P. subst path. destruct (bs_eqb k []) eqn:K; [reflexivity|]. rewrite (aget_aset bs_eqb bs_eqb_spec), bs_eqb_sym, K. reflexivity.
    - destruct (last_some _ rs); [reflexivity|]. destruct (bs_eqb k []) eqn:K.
      + apply bs_eqb_spec in K. subst k. rewrite P. reflexivity.
      + rewrite (aget_aset bs_eqb bs_eqb_spec). destruct (bs_eqb path k); reflexivity. }
  destruct (H regs [] (NoDup_nil _)) as [X Y]. split; [exact X|]. rewrite Y. destruct (bs_eqb path []); [reflexivity|]. destruct (last_some _ regs); reflexivity.
Qed.
Print Assumptions C96_registered.
Theorem C96_registered_env : forall (regs : list (bs * table)) name,
  aget bs_eqb (fold_left (fun m e => registerEnv m (fst e) (snd e)) regs []) name =
  if bs_eqb name [] then None else last_some (fun e : bs * table => if bs_eqb name (fst e) then Some (snd e) else None) regs.
Proof.
  intros regs name.
  assert (H : forall rs m, aget bs_eqb (fold_left (fun m e => registerEnv m (fst e) (snd e)) rs m) name =
    if bs_eqb name [] then aget bs_eqb m name else match last_some (fun e : bs * table => if bs_eqb name (fst e) then Some (snd e) else None) rs with Some h => Some h | None => aget bs_eqb m name end).
  { induction rs as [|[k h] rs IH]; intros m; cbn [fold_left last_some fst snd]; [destruct (bs_eqb name []); reflexivity|].
    rewrite IH. unfold registerEnv. destruct (bs_eqb name []) eqn:P.
    - apply bs_eqb_spec in P. subst name. destruct (bs_eqb k []) eqn:K; [reflexivity|]. rewrite (aget_aset bs_eqb bs_eqb_spec), bs_eqb_sym, K. reflexivity.
    - destruct (last_some _ rs); [reflexivity|]. destruct (bs_eqb k []) eqn:K.
      + apply bs_eqb_spec in K. subst k. rewrite P. reflexivity.
      + rewrite (aget_aset bs_eqb bs_eqb_spec). destruct (bs_eqb name k); reflexivity. }
  rewrite H. destruct (bs_eqb name []); [reflexivity|]. destruct (last_some _ regs); reflexivity.
Qed.
Print Assumptions C96_registered_env.
(* the path itself, or else the longest pattern ending in / that begins it *)
Theorem C96_exact : forall t path h, aget bs_eqb t path = Some h -> route t path = Some h.
Proof. exact route_exact. Qed.
Print Assumptions C96_exact.
Theorem C96_subtree : forall t path, aget bs_eqb t path = None ->
  match route t path with
  | Some h => exists pat, In (pat, h) t /\ subtree_of path pat /\ forall pat' h', In (pat', h') t -> subtree_of path pat' -> length pat' <= length pat
  | None => forall pat h, In (pat, h) t -> ~ subtree_of path pat
  end.
Proof. exact route_subtree. Qed.
Print Assumptions C96_subtree.
(* a path nobody else has is answered with the agent's status as the HTTP status *)
Theorem C96_probe : forall v s r rest, v_table v = defaultTable -> q_path r = s2b "/" ++ rest -> aget bs_eqb defaultTable (q_path r) = None ->
  (forall b, q_path r <> s2b "/debug/pprof/" ++ b) -> exists t, answer v true s r = (s, [WCode (g_status s); WText t]) /\
  (g_status s = 200%Z -> t = s2b "OK") /\ (g_status s = 503%Z -> t = s2b "Service Unavailable").
Proof.
  intros v s r rest T E N D. exists (httpText (g_status s)). split; [|split; intros ->; reflexivity].
  unfold answer. rewrite T, (default_other _ rest E N D). exact (status_other _ _ _ N).
Qed.
Print Assumptions C96_probe.

(* ------------------------------------------------------------ what a request can do *)

Theorem C96_denied : forall v s r, fst (answer v false s r) = s /\
  (route (v_table v) (q_path r) <> None -> snd (answer v false s r) = [WText (s2b "need permission!")]).
Proof. exact answer_denied. Qed.
Print Assumptions C96_denied.
(* a request changes at most the one setting its path is for, whatever the table of handlers *)
Theorem C96_frame : forall v g s r, let s' := fst (answer v g s r) in
  g_regs s' = g_regs s /\ g_stats s' = g_stats s /\ forall a, area_of (q_path r) <> Some a -> same a s s'.
Proof. exact answer_frame. Qed.
Print Assumptions C96_frame.
(* a panic of a user's handler stays in its answer *)
Theorem C96_user : forall v s r n, route (v_table v) (q_path r) = Some (HUser n) ->
  answer v true s r = (s, if v_panics v n r then [WPanic] else [WOther (HUser n)]).
Proof. exact answer_user. Qed.
Print Assumptions C96_user.

(* ------------------------------------------------------------ the settings after any history *)

Theorem C96_status : forall v s os, owns v "/200" HStatus -> owns v "/503" HStatus ->
  g_status (mgrun v s os) = or_now (last_some status_cmd os) (g_status s).
Proof. intros v s os H1 H2. apply (history v g_status status_cmd (fun _ => True)); [intros; apply status_step; assumption|apply all_true]. Qed.
Print Assumptions C96_status.
(* every registry was last told what the last command said *)
Theorem C96_told : forall v os s k, owns v "/200" HStatus -> owns v "/503" HStatus -> In k (g_regs s) ->
  last_some (toldTo k) (g_told (mgrun v s os)) = match last_some status_cmd os with Some c => Some (c =? 200)%Z | None => last_some (toldTo k) (g_told s) end.
Proof. exact told_history. Qed.
Print Assumptions C96_told.

Theorem C96_debug : forall v s os r, owns v "/debug/pprof/sw" HDebug ->
  route (v_table v) (q_path r) = Some HDebug -> q_path r <> s2b "/debug/pprof/sw" ->
  snd (answer v true (mgrun v s os) r) = if or_now (last_some debug_cmd os) (g_debug s) then [WDebug (q_path r)] else [].
Proof.
  intros v s os r H1 H2 H3.
  rewrite <- (history v g_debug debug_cmd (fun _ => True) (fun s o _ => debug_step v s o H1) os s (all_true os)).
  unfold answer. rewrite H2. cbn [serve]. unfold serveDebug. destruct (bs_eqb (q_path r) (p "/debug/pprof/sw")) eqn:E; [apply bs_eqb_spec in E; contradiction|].
  destruct (g_debug (mgrun v s os)); reflexivity.
Qed.
Print Assumptions C96_debug.

Theorem C96_switch : forall v s os1 n b os2, owns v "/switcher/set" HSwitch -> n <> [] -> switch_value (mgrun v s os1) n = None ->
  switch_value (mgrun v s (os1 ++ ORegister n b :: os2)) n = Some (or_now (last_some (switch_cmd n) os2) b).
Proof. exact switch_history. Qed.
Print Assumptions C96_switch.
Theorem C96_switch_unregistered : forall v os s n, owns v "/switcher/set" HSwitch -> switch_value s n = None ->
  (forall b, ~ In (ORegister n b) os) -> switch_value (mgrun v s os) n = None.
Proof. exact switch_unregistered. Qed.
Print Assumptions C96_switch_unregistered.
(* what is answered *)
Theorem C96_switch_answers : forall v s r, owns v "/switcher/set" HSwitch -> owns v "/switcher/get" HSwitch ->
  formValue r (s2b "name") <> [] ->
  (q_path r = s2b "/switcher/get" -> snd (answer v true s r) =
     [WText (match switch_value s (formValue r (s2b "name")) with
             | Some b => s2b "Switcher value for " ++ formValue r (s2b "name") ++ s2b " is " ++ (if b then s2b "true" else s2b "false") ++ s2b "!"
             | None => s2b "Not a registered switcher, name: " ++ formValue r (s2b "name") end)]) /\
  (q_path r = s2b "/switcher/set" ->
     (snd (answer v true s r) = [WText (s2b "Set switcher " ++ formValue r (s2b "name") ++ s2b " value to " ++ formValue r (s2b "value") ++ s2b " !")] <->
      exists b, parseBool (formValue r (s2b "value")) = Some b /\ switch_value s (formValue r (s2b "name")) <> None)).
Proof.
  intros v s r H1 H2 Hn.
  assert (N : bs_eqb (formValue r (p "name")) [] = false) by (destruct (bs_eqb _ []) eqn:E; [apply bs_eqb_spec in E; contradiction|reflexivity]).
  split; intros E; unfold answer.
  - rewrite (owns_route _ _ _ _ H2 E). cbn [serve]. unfold serveSwitch. rewrite E. cbv zeta.
    change (bs_eqb (s2b "/switcher/get") (p "/switcher/set")) with false. change (bs_eqb (s2b "/switcher/get") (p "/switcher/get")) with true. cbv iota.
    rewrite N. unfold switch_value. change (p "name") with (s2b "name"). destruct (aget bs_eqb (swMap (g_sw s)) (formValue r (s2b "name"))); reflexivity.
  - rewrite (owns_route _ _ _ _ H1 E). cbn [serve]. unfold serveSwitch. rewrite E. cbv zeta. change (bs_eqb (s2b "/switcher/set") (p "/switcher/set")) with true. cbv iota.
    rewrite N. unfold switch_value. change (p "name") with (s2b "name"). change (p "value") with (s2b "value").
    destruct (bs_eqb (formValue r (s2b "value")) []) eqn:V.
    { apply bs_eqb_spec in V. rewrite V. split; [intros X; exfalso; apply (f_equal (fun w => match w with [WText t] => nth 0 t x00 | _ => x00 end)) in X; vm_compute in X; discriminate|intros (b & X & _); vm_compute in X; discriminate]. }
    destruct (parseBool (formValue r (s2b "value"))) as [b|] eqn:P.
    + destruct (aget bs_eqb (swMap (g_sw s)) (formValue r (s2b "name"))) eqn:G.
      * split; [intros _; exists b; split; [reflexivity|discriminate]|reflexivity].
      * split; [intros X; exfalso; apply (f_equal (fun w => match w with [WText t] => hd x00 t | _ => x00 end)) in X; vm_compute in X; discriminate|intros (c & _ & X); cbn in X; congruence].
    + split; [intros X; exfalso; apply (f_equal (fun w => match w with [WText t] => hd x00 t | _ => x00 end)) in X; vm_compute in X; discriminate|intros (c & X & _); discriminate].
Qed.
Print Assumptions C96_switch_answers.

(* what is answered besides *)
Theorem C96_answers : forall v s r,
  (q_path r = s2b "/200" \/ q_path r = s2b "/503" -> route (v_table v) (q_path r) = Some HStatus -> snd (answer v true s r) = [WText (s2b "ok.")]) /\
  (q_path r = s2b "/version" -> route (v_table v) (q_path r) = Some HStatus -> snd (answer v true s r) = [WText (s2b "1.2.0")]) /\
  (q_path r = s2b "/debug/pprof/sw" -> route (v_table v) (q_path r) = Some HDebug ->
     snd (answer v true s r) = match debug_cmd (OReq true r) with Some true => [WText (s2b "T")] | Some false => [WText (s2b "F")] | None => [] end) /\
  (q_path r = s2b "/switcher/getAll" -> route (v_table v) (q_path r) = Some HSwitch ->
     exists l, snd (answer v true s r) = [WSwitches l] /\ forall n, aget bs_eqb l n = switch_value s n) /\
  (q_path r = s2b "/meta/getAll" -> route (v_table v) (q_path r) = Some HMeta -> exists m, snd (answer v true s r) = [WMeta m] /\ forall k, aget bs_eqb m k = meta_value s k) /\
  (q_path r = s2b "/meta/update" \/ q_path r = s2b "/meta/delete" -> route (v_table v) (q_path r) = Some HMeta -> snd (answer v true s r) = [WOk]) /\
  (q_path r = s2b "/refers/filter/get" -> route (v_table v) (q_path r) = Some HRefers -> snd (answer v true s r) = [WRules (g_rules s)]) /\
  (q_path r = s2b "/logConfig/get" -> route (v_table v) (q_path r) = Some HLog -> snd (answer v true s r) = [WLevels (levelString (g_level s)) (g_access s) (g_metrics s)]) /\
  (q_path r = s2b "/registry/status" -> route (v_table v) (q_path r) = Some HStatus ->
     exists st, snd (answer v true s r) = [WRegistry st (concat (g_stats s))] /\ whole (g_status s =? 200)%Z (concat (g_stats s)) st).
Proof.
  intros v s r. unfold answer. split; [|split; [|split; [|split; [|split; [|split; [|split; [|split]]]]]]].
  - intros [E|E] ->; cbn [serve]; unfold serveStatus; rewrite E; reflexivity.
  - intros E ->; cbn [serve]; unfold serveStatus; rewrite E; reflexivity.
  - intros E ->. cbn [serve]. unfold serveDebug, debug_cmd, asks. rewrite E. cbn [snd].
    change (bs_eqb (s2b "/debug/pprof/sw") (p "/debug/pprof/sw")) with true. change (bs_eqb (s2b "/debug/pprof/sw") (s2b "/debug/pprof/sw")) with true. cbv iota.
    destruct (bs_eqb (q_ctr r) (s2b "op")); [reflexivity|]. destruct (bs_eqb (q_ctr r) (s2b "cp")); reflexivity.
  - intros E ->. cbn [serve]. unfold serveSwitch. rewrite E. eexists. split; [reflexivity|]. intros n. unfold switch_value.
    induction (swMap (g_sw s)) as [|[k x] l IH]; [reflexivity|]. cbn [map aget fst snd]. destruct (bs_eqb n k); [reflexivity|exact IH].
  - intros E ->. cbn [serve]. unfold serveMeta. rewrite E. eexists. split; [reflexivity|]. reflexivity.
  - intros [E|E] ->; cbn [serve]; unfold serveMeta; rewrite E; reflexivity.
  - intros E ->. cbn [serve]. unfold serveRefers. rewrite E. reflexivity.
  - intros E ->. cbn [serve]. unfold serveLog. rewrite E. reflexivity.
  - intros E ->. cbn [serve]. unfold serveStatus. rewrite E. eexists. split; [reflexivity|]. exact (whole_ok _ _).
Qed.
Print Assumptions C96_answers.
(* the answer to a change of the logger names what was changed, or is an error and nothing was *)
Theorem C96_log_answers : forall v s r, q_path r = s2b "/logConfig/set" -> route (v_table v) (q_path r) = Some HLog ->
  let say (code : Z) (text : bs) := exists rest, snd (answer v true s r) = [WLog code (text ++ rest)] in
  match formValue r (s2b "level"), formValue r (s2b "access"), formValue r (s2b "metrics") with
  | [], [], [] => answer v true s r = (s, [])
  | [], [], m => match parseBool m with Some _ => say 200%Z (s2b "set metricsLog status:" ++ m) | None => say 500%Z (s2b "set metricsLog status failed. err:") /\ fst (answer v true s r) = s end
  | [], a, _ => match parseBool a with Some _ => say 200%Z (s2b "set accessLog status:" ++ a) | None => say 500%Z (s2b "set accessLog status failed. err:") /\ fst (answer v true s r) = s end
  | l, _, _ => match levelSet l with Some _ => say 200%Z (s2b "set log level:" ++ l) | None => say 500%Z (s2b "set log level failed. err:") /\ fst (answer v true s r) = s end
  end.
Proof.
  intros v s r E R say. subst say. cbv beta. unfold answer. rewrite R. cbn [serve]. unfold serveLog. rewrite E. cbv zeta.
  change (bs_eqb (s2b "/logConfig/set") (p "/logConfig/get")) with false. change (bs_eqb (s2b "/logConfig/set") (p "/logConfig/set")) with true. cbv iota.
  change (p "level") with (s2b "level"). change (p "access") with (s2b "access"). change (p "metrics") with (s2b "metrics").
  destruct (formValue r (s2b "level")) as [|c l].
  - change (negb (bs_eqb [] [])) with false. cbv iota. destruct (formValue r (s2b "access")) as [|d a].
    + change (negb (bs_eqb [] [])) with false. cbv iota. destruct (formValue r (s2b "metrics")) as [|e m]; [reflexivity|].
      change (negb (bs_eqb (e :: m) [])) with true. cbv iota. unfold setLogStatus. destruct (parseBool (e :: m)).
      * exists []. rewrite app_nil_r. reflexivity.
      * split; [exists []; reflexivity|reflexivity].
    + change (negb (bs_eqb (d :: a) [])) with true. cbv iota. unfold setLogStatus. destruct (parseBool (d :: a)).
      * exists []. rewrite app_nil_r. reflexivity.
      * split; [exists []; reflexivity|reflexivity].
  - change (negb (bs_eqb (c :: l) [])) with true. cbv iota. destruct (levelSet (c :: l)).
    + exists []. rewrite app_nil_r. reflexivity.
    + split; [eexists; reflexivity|reflexivity].
Qed.
Print Assumptions C96_log_answers.
(* the file the status is kept in says 200 after either command: an agent taken out of service comes back in service when it is restarted with recovery *)
Theorem C96_status_file_refuted : forall v s r, v_write v = true -> q_path r = s2b "/503" -> route (v_table v) (q_path r) = Some HStatus ->
  g_status (fst (answer v true s r)) = 503%Z /\ g_file (fst (answer v true s r)) = Some (s2b "200").
Proof. intros v s r W E R. unfold answer. rewrite R. cbn [serve]. unfold serveStatus. rewrite E, W. split; reflexivity. Qed.
Print Assumptions C96_status_file_refuted.
Theorem C96_status_file : forall v s r, g_file (fst (answer v true s r)) = g_file s \/ (v_write v = true /\ route (v_table v) (q_path r) = Some HStatus /\ (q_path r = s2b "/200" \/ q_path r = s2b "/503")).
Proof.
  intros v s r. destruct (route (v_table v) (q_path r)) as [h|] eqn:R; [|left; unfold answer; rewrite R; reflexivity].
  destruct (area_of (q_path r)) as [a|] eqn:A.
  - destruct a; try (left; exact (proj1 (proj2 (other_area v true s r ArStatus ltac:(rewrite A; discriminate))))).
    destruct h; try (left; unfold answer; rewrite R; apply area_in in A; destruct A as [A|A]; cbn [serve];
      unfold serveDebug, serveSwitch, serveLog, serveMeta, serveRuntime, serveRefers; rewrite ?A; try reflexivity; destruct (g_debug s); reflexivity).
    destruct (v_write v) eqn:W; [right; split; [reflexivity|]; split; [reflexivity|]; apply area_in in A; exact A|].
    left. unfold answer. rewrite R. cbn [serve]. unfold serveStatus. rewrite W.
    repeat match goal with |- context [if ?x then _ else _] => destruct x end; reflexivity.
  - left. exact (proj1 (proj2 (other_area v true s r ArStatus ltac:(rewrite A; discriminate)))).
Qed.
Print Assumptions C96_status_file.

Theorem C96_log : forall v s os, owns v "/logConfig/set" HLog ->
  g_level (mgrun v s os) = or_now (last_some level_cmd os) (g_level s) /\
  g_access (mgrun v s os) = or_now (last_some access_cmd os) (g_access s) /\
  g_metrics (mgrun v s os) = or_now (last_some metrics_cmd os) (g_metrics s).
Proof.
  intros v s os H. split; [|split].
  - apply (history v g_level level_cmd (fun _ => True)); [intros s0 o _; apply (log_step v s0 o H)|apply all_true].
  - apply (history v g_access access_cmd (fun _ => True)); [intros s0 o _; apply (log_step v s0 o H)|apply all_true].
  - apply (history v g_metrics metrics_cmd (fun _ => True)); [intros s0 o _; apply (log_step v s0 o H)|apply all_true].
Qed.
Print Assumptions C96_log.

Theorem C96_meta : forall v s os k r, owns v "/meta/update" HMeta -> owns v "/meta/delete" HMeta -> owns v "/meta/get" HMeta -> Forall form_ok os ->
  meta_value (mgrun v s os) k = or_now (last_some (meta_cmd k) os) (meta_value s k) /\
  (q_path r = s2b "/meta/get" -> formValue r (s2b "key") = k ->
     snd (answer v true (mgrun v s os) r) = [WMeta [(k, or_now (or_now (last_some (meta_cmd k) os) (meta_value s k)) [])]]).
Proof.
  intros v s os k r H1 H2 H3 F.
  assert (E : meta_value (mgrun v s os) k = or_now (last_some (meta_cmd k) os) (meta_value s k)).
  { apply (history v (fun s => meta_value s k) (meta_cmd k) form_ok); [intros s0 o Ho; apply meta_step; assumption|exact F]. }
  split; [exact E|]. intros P K. unfold answer. rewrite (owns_route _ _ _ _ H3 P). cbn [serve]. unfold serveMeta. rewrite P.
  change (bs_eqb (s2b "/meta/get") (p "/meta/update")) with false. change (bs_eqb (s2b "/meta/get") (p "/meta/delete")) with false.
  change (bs_eqb (s2b "/meta/get") (p "/meta/get")) with true. cbv iota. change (p "key") with (s2b "key"). rewrite K. cbn [snd].
  fold (meta_value (mgrun v s os) k). rewrite E. reflexivity.
Qed.
Print Assumptions C96_meta.

(* ------------------------------------------------------------ registry status, runtime info, rules, counters *)

Theorem C96_registry_status : forall agent l, whole (agent =? 200)%Z l (wholeStatus agent l).
Proof. exact whole_ok. Qed.
Print Assumptions C96_registry_status.
Theorem C96_registry_order : forall agent l l', Permutation l l' -> wholeStatus agent l = wholeStatus agent l'.
Proof. exact whole_perm. Qed.
Print Assumptions C96_registry_order.
(* it can be good although a checked service is not registered: only "failed" and "not-register" are looked for *)
Theorem C96_registry_status_refuted : ~ (forall l, wholeStatus 200 l = s2b "register-success" -> forall k, In k l -> rs_check k = true -> rs_status k = s2b "register-success").
Proof.
  intros H. specialize (H [mkRstat [] [] unregisterFailed true] eq_refl _ (or_introl eq_refl) eq_refl). vm_compute in H. discriminate.
Qed.
Print Assumptions C96_registry_status_refuted.

Theorem C96_runtime : forall s r, q_path r = s2b "/runtime/info" -> exists l, serveRuntime s r = (s, [WRuntime l]) /\
  forall k x, aget bs_eqb l k = Some x <->
    (k = s2b "result" /\ x = RText (s2b "ok")) \/ (k = s2b "instanceType" /\ x = RText (s2b "motan-agent")) \/
    (In k runtimeKeys /\ (formValue r (s2b "keys") = [] \/ In k (splitOn x2c (formValue r (s2b "keys")))) /\ x = RShown k).
Proof. exact runtime_answer. Qed.
Print Assumptions C96_runtime.

Theorem C96_refers : forall nl parse sw s r, q_path r = s2b "/refers/filter/set" ->
  match parse (formValue r (s2b "config")) with
  | Some rules => formValue r (s2b "config") <> [] ->
      g_rules (fst (serveRefers nl parse sw s r)) = rules
      /\ (forall k c', In (k, c') (g_clusters (fst (serveRefers nl parse sw s r))) ->
            exists c, In (k, c) (g_clusters s) /\ clUrl c' = clUrl c /\ clFilter c' = parseRefersFilters nl rules (clUrl c))
      /\ map fst (g_clusters (fst (serveRefers nl parse sw s r))) = map fst (g_clusters s)
      /\ snd (serveRefers nl parse sw s r) = (if verifyConfigs rules then [] else [WFail (s2b "invalid config")]) ++ [WOk]
      /\ (verifyConfigs rules = true <-> Forall valid_config rules)
  | None => fst (serveRefers nl parse sw s r) = s /\
            snd (serveRefers nl parse sw s r) = [WFail (match formValue r (s2b "config") with [] => s2b "empty config" | _ => s2b "parse config failed" end)]
  end.
Proof. exact refers_answer. Qed.
Print Assumptions C96_refers.
(* rules found to be invalid are put in force all the same, and the failure is followed by a second answer that says ok *)
Theorem C96_invalid_rules_refuted : forall nl sw, exists parse s r rules,
  verifyConfigs rules = false /\ g_rules s <> rules /\ parse (formValue r (s2b "config")) = Some rules /\
  g_rules (fst (serveRefers nl parse sw s r)) = rules /\ snd (serveRefers nl parse sw s r) = [WFail (s2b "invalid config"); WOk].
Proof.
  intros nl sw. exists (fun _ => Some [mkFc [] [] (s2b "drop") (s2b "10.")]).
  exists (mkMg 200 None [] [] [] swInit 0 true true [] false [] []).
  exists (mkReq (s2b "/refers/filter/set") [(s2b "config", [s2b "[...]"])] []). exists [mkFc [] [] (s2b "drop") (s2b "10.")].
  repeat split; discriminate.
Qed.
Print Assumptions C96_invalid_rules_refuted.
(* a request that sets the level and switches the access log off does only the first *)
Theorem C96_one_log_setting_refuted : forall v s, owns v "/logConfig/set" HLog ->
  let r := mkReq (s2b "/logConfig/set") [(s2b "level", [s2b "warn"]); (s2b "access", [s2b "false"])] [] in
  g_level (fst (answer v true s r)) = 1%Z /\ g_access (fst (answer v true s r)) = g_access s.
Proof.
  intros v s H r. unfold answer. rewrite (owns_route v "/logConfig/set" HLog r H eq_refl). split; reflexivity.
Qed.
Print Assumptions C96_one_log_setting_refuted.

Theorem C96_counts : forall l, statusOf l = (wrapI64 (sumZ (countsIn (flat_map shown l))), flat_map shown l).
Proof. exact status_counts. Qed.
Print Assumptions C96_counts.
Theorem C96_method : forall pre m, ~ In x3a m -> methodOf (pre ++ x3a :: m ++ totalSuffix) = m /\ methodOf (m ++ totalSuffix) = m.
Proof. intros pre m H. split; [exact (method_of pre m H)|exact (method_plain m H)]. Qed.
Print Assumptions C96_method.
(* the calls the agent itself made to a service of the same group and name are counted as calls of the exported service *)
Theorem C96_client_calls_refuted : exists counts, (forall k c, In (k, c) counts -> hasPrefix k (s2b "motan-client-agent:") = true) /\
  fst (statusOf [(s2b "g", s2b "s", Some counts)]) = 7%Z.
Proof.
  exists [(s2b "motan-client-agent:app:get.total_count", 7%Z)]. split; [|reflexivity]. intros k c [H|[]]. injection H as <- <-. reflexivity.
Qed.
Print Assumptions C96_client_calls_refuted.

(* ------------------------------------------------------------ failback *)

(* one tick calls exactly the failed ones: to register again while the agent is available, to unregister again while it is not *)
Theorem C97_tick : forall status regs reg svc b, In (reg, svc, b) (failback status regs) <->
  exists m st, In (reg, Some m) regs /\ In (svc, st) m /\
    ((status = 200%Z /\ st = s2b "register-failed" /\ b = true) \/ (status = 503%Z /\ st = s2b "unregister-failed" /\ b = false)).
Proof. exact failback_in. Qed.
Print Assumptions C97_tick.
(* and each of them once *)
Theorem C97_once : forall status regs, NoDup (map fst regs) -> (forall r m, In (r, Some m) regs -> NoDup (map fst m)) ->
  NoDup (map fst (failback status regs)).
Proof. exact failback_once. Qed.
Print Assumptions C97_once.

(* ------------------------------------------------------------ a case *)

Definition exV : env := mkEnv (handlersOf [(s2b "/mine", HUser 7)] [(s2b "extra", [(s2b "/meta/getAll", HUser 8)])] (s2b "none, extra"))
  (mkNet (fun _ => None) (fun _ => None) (fun _ _ => false)) (fun _ => None) true (fun n _ => n =? 7) [].
Definition exS : mg := mkMg 503 None [s2b "zk"; s2b "direct"] [] [] swInit 0 true true [] false [] [].
Definition get (path : string) (f : list (string * string)) : req := mkReq (s2b path) (map (fun kv => (s2b (fst kv), [s2b (snd kv)])) f) [].
Definition exOs : list mgop :=
  [OReq true (get "/switcher/set" [("name", "sw1"); ("value", "true")]%string); ORegister (s2b "sw1") false; OReq true (get "/200" []);
   OReq true (get "/switcher/set" [("name", "sw1"); ("value", "1")]%string); OReq false (get "/503" []); OReq true (get "/logConfig/set" [("access", "F")]%string);
   OReq true (get "/meta/update" [("k", "v"); ("k2", "v2")]%string); OReq true (get "/meta/delete" [("key", "k2")]%string);
   OReq true (mkReq (s2b "/debug/pprof/sw") [] (s2b "op"))].
Example C96_example :
  owns exV "/200" HStatus /\ owns exV "/503" HStatus /\ owns exV "/debug/pprof/sw" HDebug /\ owns exV "/switcher/set" HSwitch /\ owns exV "/switcher/get" HSwitch
  /\ owns exV "/logConfig/set" HLog /\ owns exV "/meta/update" HMeta /\ owns exV "/meta/delete" HMeta /\ owns exV "/meta/get" HMeta /\ Forall form_ok exOs
  /\ switch_value (mgrun exV exS (firstn 1 exOs)) (s2b "sw1") = None
  /\ (let s := mgrun exV exS exOs in
      g_status s = 200%Z /\ g_told s = [(s2b "zk", true); (s2b "direct", true)] /\ switch_value s (s2b "sw1") = Some true /\ g_access s = false /\ g_metrics s = true
      /\ g_meta s = [(s2b "k", s2b "v")] /\ snd (answer exV true s (get "/debug/stat/system" [])) = [WDebug (s2b "/debug/stat/system")]
      /\ snd (answer exV true s (get "/mine" [])) = [WPanic] /\ snd (answer exV true s (get "/meta/getAll" [])) = [WOther (HUser 8)]
      /\ snd (answer exV true s (get "/health/check" [])) = [WCode 200; WText (s2b "OK")]).
Proof.
  cbv zeta. repeat match goal with |- _ /\ _ => split end; try (vm_compute; reflexivity).
  unfold exOs. repeat apply Forall_cons; try apply Forall_nil; cbn [form_ok]; try exact Logic.I; apply distinct_nodup; vm_compute; reflexivity.
Qed.
Example C97_example : failback 200 [(s2b "zk", Some [(s2b "a", registerFailed); (s2b "b", registerSuccess); (s2b "c", unregisterFailed)]); (s2b "direct", None)]
  = [(s2b "zk", s2b "a", true)].
Proof. reflexivity. Qed.
