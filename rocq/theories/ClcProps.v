(* ClcProps.v: C110, client contexts. *)
From Verif Require Import Base Strconv GoStrings GoStrings2 UrlModel UrlSpec UrlProofs ConfModel ConfSpec ConfProofs CtxModel CtxSpec CtxProofs BootModel BootSpec ClcModel ClcSpec ClcProofs ClcProofs2 ClcProofs3.
Require Import Coq.Sorting.Permutation.

(* A file that was taken once is answered with the same context ever after, whatever it has become; two files, or a configuration given
   directly, never share a context; the file is read once for each call until it is taken, and not again. *)
Theorem C110_cached (e : envr) (os : list cop) (s : cst) (tr : list (cop * cout)) (p q : nat) (f : bs) (c c' : option cmap) (i : nat) (x : cout) :
  crun e cst0 os = Some (s, tr) -> p < q -> nth_error tr p = Some (CGet f c, OCtx i) -> nth_error tr q = Some (CGet f c', x) -> x = OCtx i.
Proof. exact (cached e os s tr p q f c c' i x). Qed.
Theorem C110_apart (e : envr) (os : list cop) (s : cst) (tr : list (cop * cout)) (p q : nat) (o o' : cop) (i : nat) :
  crun e cst0 os = Some (s, tr) -> p < q -> nth_error tr p = Some (o, OCtx i) -> nth_error tr q = Some (o', OCtx i) ->
  exists f c c', o = CGet f c /\ o' = CGet f c'.
Proof. exact (apart e os s tr p q o o' i). Qed.
Theorem C110_reads (e : envr) (os : list cop) (s : cst) (tr : list (cop * cout)) (f : bs) :
  crun e cst0 os = Some (s, tr) -> length (filter (bs_eqb f) (cReads s)) = tries f tr.
Proof. exact (reads e os s tr f). Qed.
(* Which configurations a client can be made of (without services of its own); with any other the call panics and no context is kept. *)
Theorem C110_accepts (e : envr) (s : cst) (f : bs) (conf : cmap) (s' : cst) (x : cout) :
  section_of conf "motan-service" = [] -> aget bs_eqb (cFiles s) f = None -> cstep e s (CGet f (Some conf)) = Some (s', x) ->
  (client_ok conf <-> x = OCtx (length (cAll s))) /\ (~ client_ok conf <-> x = OPanic).
Proof. exact (accepts e s f conf s' x). Qed.
(* GetClient: nothing before Start; then the services of the configuration the context was made of, and only these, each with the url the
   configuration says, its own cluster and the factory of the last Start. *)
Theorem C110_clients (e : envr) (calls : list bs) (os : list cop) (s : cst) (tr : list (cop * cout)) (i : nat) (conf : cmap) (q : nat) (k : bs) (x : cout) :
  maps os -> crun e cst0 os = Some (s, tr) -> made_of tr i conf -> nth_error tr q = Some (CClient i k, x) ->
  (last_start i (firstn q tr) = None -> x = OClient None) /\
  (forall f, last_start i (firstn q tr) = Some f -> eSubSuffix e = [] -> (forall l, Permutation (eOrd e l) l) -> eExt e = fold_left addRelevantFilter calls [] ->
     (refer_info conf k = None -> x = OClient None) /\
     (forall info, refer_info conf k = Some info -> exists u n, x = OClient (Some (u, n, f)) /\ nth_error (cClus s) n = Some (mkClu u f) /\ refer_is e calls conf k info u)).
Proof. exact (clients e calls os s tr i conf q k x). Qed.
(* Every Start makes one cluster for each service. *)
Theorem C110_clusters (e : envr) (os : list cop) (s : cst) (tr : list (cop * cout)) (R : nat -> nat) : maps os -> crun e cst0 os = Some (s, tr) -> eSubSuffix e = [] ->
  (forall i conf, made_of tr i conf -> R i = length (section_of conf "motan-refer")) -> length (cClus s) = starts_of R tr.
Proof. exact (clusters e os s tr R). Qed.
(* The switchers of a new context's configuration get their values unless the process has them already: those of the section "switchers"
   first, then those of "switcher"; a switcher that has a value keeps it. *)
Theorem C110_switchers (e : envr) (s : cst) (o : cop) (s' : cst) (i : nat) (conf : cmap) (n : bs) : n <> [] ->
  cstep e s o = Some (s', OCtx i) -> cAll s' <> cAll s -> op_conf o = Some conf ->
  aget bs_eqb (cSw s') n = match aget bs_eqb (cSw s) n with Some v => Some v | None => switches conf n end.
Proof. exact (step_switch e s o s' i conf n). Qed.
Theorem C110_switchers_kept (e : envr) (os : list cop) (s s' : cst) (tr : list (cop * cout)) (n : bs) (w : bool) :
  crun e s os = Some (s', tr) -> aget bs_eqb (cSw s) n = Some w -> aget bs_eqb (cSw s') n = Some w.
Proof. exact (run_switch_keep e os s s' tr n w). Qed.
(* The log directory: the one configured, or the current one; the log is opened unless it is stdout. *)
Theorem C110_log_dir (e : envr) (s : cst) (f : bs) (conf : cmap) (s' : cst) (i : nat) :
  aget bs_eqb (cFiles s) f = None -> cstep e s (CGet f (Some conf)) = Some (s', OCtx i) ->
  let d := first_text [conf_str (Some (section_of conf "motan-client")) (s2b "log_dir"); s2b "."] in
  exists fs, cFlags s' = cFlags s ++ fs /\ (forall v, In (s2b "log_dir", v) fs <-> v = d /\ d <> s2b "stdout") /\
    cLogs s' = cLogs s + (if bs_eqb d (s2b "stdout") then 0 else 1).
Proof. exact (log_flags e s f conf s' i). Qed.
Print Assumptions C110_cached.
Print Assumptions C110_apart.
Print Assumptions C110_reads.
Print Assumptions C110_accepts.
Print Assumptions C110_clients.
Print Assumptions C110_clusters.
Print Assumptions C110_switchers.
Print Assumptions C110_switchers_kept.
Print Assumptions C110_log_dir.

Definition kk (s : string) : ckey := KStr (s2b s).
Definition ex_env : envr := mkEnv (s2b "trace") [] [] [] [] (fun l => l) (fun _ => []).
Definition ex_conf : cmap :=
  [(kk "motan-client", CMap [(kk "log_dir", CStr (s2b "./logs")); (kk "application", CStr (s2b "app"))]);
   (kk "motan-registry", CMap [(kk "direct", CMap [(kk "protocol", CStr (s2b "direct"))])]);
   (kk "motan-basicRefer", CMap [(kk "basic", CMap [(kk "group", CStr (s2b "g")); (kk "requestTimeout", CInt 1000)])]);
   (kk "motan-refer", CMap [(kk "hello", CMap [(kk "path", CStr (s2b "HelloService")); (kk "basicRefer", CStr (s2b "basic")); (kk "protocol", CStr (s2b "motanV1Compatible"))])]);
   (kk "switcher", CMap [(kk "feature.x", CBool true)])].
Definition ex_ops : list cop := [CGet (s2b "a.yaml") None; CGet (s2b "a.yaml") (Some ex_conf); CClient 0 (s2b "hello"); CStart 0 (Some 7%N); CClient 0 (s2b "hello");
  CStart 0 None; CGet (s2b "a.yaml") None; CClient 0 (s2b "hello")].
Example C110_nonvacuous : exists s u u', crun ex_env cst0 ex_ops = Some (s, combine ex_ops
  [ONil; OCtx 0; OClient None; ODone; OClient (Some (u, 0, FGiven 7%N)); ODone; OCtx 0; OClient (Some (u', 1, FDefault))]) /\
  uPath u = s2b "HelloService" /\ uProtocol u = s2b "motan" /\ uGroup u = s2b "g" /\ param u (s2b "filter") = Some (s2b "trace") /\ param u (s2b "requestTimeout") = Some (s2b "1000") /\
  aget bs_eqb (cSw s) (s2b "feature.x") = Some true /\ aget bs_eqb (cFlags s) (s2b "log_dir") = Some (s2b "./logs") /\ section_of ex_conf "motan-service" = [].
Proof. do 3 eexists. split; [vm_compute; reflexivity|]. repeat split. Qed.
Example C110_maps : maps ex_ops.
Proof.
  assert (C : conf_map ex_conf).
  { intros k m H. repeat (destruct H as [E|H]; [injection E as <- <-; split; [apply (@nodupb_NoDup _ ckey_eqb ckey_eqb_spec); vm_compute; reflexivity|];
      intros k' m' H'; repeat (destruct H' as [E'|H']; [try discriminate E'; injection E' as <- <-; apply (@nodupb_NoDup _ ckey_eqb ckey_eqb_spec); vm_compute; reflexivity|]); destruct H'|]). destruct H. }
  intros o c H E. repeat (destruct H as [<-|H]; [try discriminate E; injection E as <-; exact C|]). destruct H.
Qed.
Example C110_made : exists s tr, crun ex_env cst0 ex_ops = Some (s, tr) /\ made_of tr 0 ex_conf /\ nth_error tr 7 <> None.
Proof.
  do 2 eexists. split; [vm_compute; reflexivity|]. split; [|discriminate]. exists 1, (CGet (s2b "a.yaml") (Some ex_conf)). split; [reflexivity|]. split; [reflexivity|].
  intros q o L. destruct q as [|q]; [discriminate|lia].
Qed.
(* "a service has one cluster": starting a context again makes new ones, and the old ones, which nothing uses any more, are never closed *)
Theorem C110_restart_refuted : exists os s tr u f f', crun ex_env cst0 os = Some (s, tr) /\ cClus s = [mkClu u f; mkClu u f'] /\
  nth_error tr 3 = Some (CClient 0 (s2b "hello"), OClient (Some (u, 1, f'))).
Proof.
  exists [CGet (s2b "a.yaml") (Some ex_conf); CStart 0 None; CStart 0 None; CClient 0 (s2b "hello")]. do 5 eexists. split; [vm_compute; reflexivity|]. split; [reflexivity|]. reflexivity.
Qed.
(* "placeholders of a client's configuration are replaced by its dynamic parameters", as they are for an agent: they stay as they are *)
Theorem C110_placeholders_refuted : exists os s tr u, crun ex_env cst0 os = Some (s, tr) /\
  os = [CGet (s2b "a.yaml") (Some [(kk "dynamic-param", CMap [(kk "h", CStr (s2b "10.0.0.1"))]); (kk "motan-refer", CMap [(kk "hello", CMap [(kk "host", CStr (s2b "${h}"))])])]); CStart 0 None; CClient 0 (s2b "hello")] /\
  nth_error tr 2 = Some (CClient 0 (s2b "hello"), OClient (Some (u, 0, FDefault))) /\ uHost u = s2b "${h}".
Proof. do 4 eexists. split; [|split; [reflexivity|]]. vm_compute. reflexivity. split; reflexivity. Qed.
(* "the suffix for groups an agent also subscribes to concerns agents": a client without any agent section gets a second client for it *)
Theorem C110_suffix_refuted : exists e os s tr u, section_of ex_conf "motan-agent" = [] /\
  crun e cst0 os = Some (s, tr) /\ os = [CGet (s2b "a.yaml") (Some ex_conf); CStart 0 None; CClient 0 (s2b "auto_hellog-sub")] /\
  nth_error tr 2 = Some (CClient 0 (s2b "auto_hellog-sub"), OClient (Some (u, 1, FDefault))) /\ uGroup u = s2b "g-sub".
Proof. exists (mkEnv [] [] [] [] (s2b "-sub") (fun l => l) (fun _ => [])). do 4 eexists. split; [reflexivity|]. split; [|split; [reflexivity|]]. vm_compute. reflexivity. split; reflexivity. Qed.
(* "a configuration that cannot be used is reported": a number as log directory ends the program *)
Theorem C110_log_dir_refuted : exists s, cstep ex_env cst0 (CGet (s2b "a.yaml") (Some [(kk "motan-client", CMap [(kk "log_dir", CInt 1)])])) = Some (s, OPanic).
Proof. eexists. vm_compute. reflexivity. Qed.
