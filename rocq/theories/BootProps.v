(* BootProps.v: C105, the settings an agent starts with. *)
From Verif Require Import Base Strconv GoStrings GoStrings2 UrlModel UrlSpec ConfModel CtxModel BootModel BootSpec BootProofs.

(* An agent starts exactly when every setting it reads has the right type (settings that a flag or the environment replaces are not read)
   and its runtime directory can be made. *)
Theorem C105_starts : forall c sec sw, (exists st, initParam c sec sw = Some st) <-> readable c sec sw.
Proof. exact starts. Qed.
Print Assumptions C105_starts.

(* Ports and files: the flag, else the configuration, else the default; for the management port the environment replaces the configuration. *)
Theorem C105_settings : forall c sec sw st, initParam c sec sw = Some st ->
  sPort st = first_set [fPort c; conf_int sec (s2b "port"); 9981%Z] /\
  sMport st = first_set [fMport c; match cEnvMport c with Some t => num_or_0 t | None => conf_int sec (s2b "mport") end; 8002%Z] /\
  sEport st = first_set [fEport c; conf_int sec (s2b "eport"); 9982%Z] /\
  sHport st = first_set [fHport c; conf_int sec (s2b "hport"); 9983%Z] /\
  sPid st = first_text [fPid c; conf_str sec (s2b "pidfile"); s2b "./agent.pid"] /\
  sRun st = first_text [conf_str sec (s2b "runtime_dir"); s2b "./agent_runtime"] /\
  (In (s2b "-log_dir") (cArgs c) -> sLogDir st = first_text [fLogDir c; s2b "."]) /\
  (~ In (s2b "-log_dir") (cArgs c) -> sLogDir st = first_text [conf_str sec (s2b "log_dir"); s2b "."]) /\
  sPool st = (if Z_lt_dec 0 (conf_int sec (s2b "processPoolSize")) then Some (conf_int sec (s2b "processPoolSize")) else None) /\
  sAsync st = match conf_bool sec (s2b "motanEpAsyncInit") with Some b => b | None => true end.
Proof. exact settings_are. Qed.
Print Assumptions C105_settings.

(* Logging: what the configuration says replaces the flags of the command line; the log directory is used unless it is "stdout".
   Every switcher of the configuration is registered with its value. *)
Theorem C105_logs : forall c sec sw st, initParam c sec sw = Some st ->
  (forall k, In k [s2b "log_async"; s2b "log_structured"; s2b "rotate_per_hour"; s2b "log_filter_caller"] -> flag_set st k = bool_text (conf_bool sec k)) /\
  flag_set st (s2b "log_level") = (match conf_str sec (s2b "log_level") with [] => None | s => Some s end) /\
  flag_set st (s2b "log_buffer_size") = (match conf_num sec (s2b "log_buffer_size") with Some z => Some (fmtZ z) | None => None end) /\
  flag_set st (s2b "log_dir") = (if bs_eq_dec (sLogDir st) (s2b "stdout") then None else Some (sLogDir st)) /\
  (sLogInit st = true <-> sLogDir st <> s2b "stdout") /\
  (forall m, sw = Some m -> m = map (fun p => (KStr (fst p), CBool (snd p))) (sSwitch st)) /\ (sw = None -> sSwitch st = []).
Proof. exact log_settings. Qed.
Print Assumptions C105_logs.

Theorem C105_snapshots : forall sec z, snapshotDir sec = Some z <->
  conf_is is_str sec (s2b "snapshot_dir") /\ z = first_text [conf_str sec (s2b "snapshot_dir"); s2b "./snapshot"].
Proof.
  intros sec z. unfold snapshotDir. rewrite strOf_first. cbn [first_text]. split; intros [H1 H2]; (split; [|exact H2]); [exact (H1 eq_refl)|intros _; exact H1].
Qed.
Print Assumptions C105_snapshots.

(* The agent's own url: its group is its application, else its group, else "default_agent_group", and so are its application and, if it
   has none, its path; its port is the configured management port; its node type is "agent"; all else is as configured. *)
Theorem C105_agent_url : forall u m u' app, uParams u = Some m -> initAgentURL u = Some (u', app) ->
  let name := first_text [match param u (s2b "application") with Some a => a | None => uGroup u end; s2b "default_agent_group"] in
  uProtocol u' = uProtocol u /\ uHost u' = uHost u /\ uGroup u' = name /\ uPath u' = first_text [uPath u; name] /\
  uPort u' = (match param u (s2b "mport") with Some t => match parseInt64 t with (z, NumOk) => z | _ => uPort u end | None => uPort u end) /\
  (forall k, param u' k = if bs_eq_dec k (s2b "nodeType") then Some (s2b "agent") else if bs_eq_dec k (s2b "application") then Some name else param u k) /\
  app = match param u (s2b "application") with Some a => a | None => uGroup u end.
Proof. exact agent_url. Qed.
Print Assumptions C105_agent_url.

(* A domain has an http cluster exactly when an http client with that domain, whose registry (if configured) exists, is configured, and
   the cluster is of such a client. *)
Theorem C105_http : forall app regs ext l,
  (forall id u, In (id, u) l -> http_ok regs ext u -> aget bs_eqb (initHttp app regs ext l []) (str_or u (s2b "domain") []) <> None) /\
  (forall d id, aget bs_eqb (initHttp app regs ext l []) d = Some id -> exists u, In (id, u) l /\ http_ok regs ext u /\ str_or u (s2b "domain") [] = d).
Proof.
  intros app regs ext l. split; [intros id u I O; exact (initHttp_has app regs ext l [] id u I O)|].
  intros d id H. apply initHttp_gen in H as [H|H]; [exact H|discriminate H].
Qed.
Print Assumptions C105_http.

(* The management port listens on the first free port of the range, if a range is configured, and else on the management port. *)
Theorem C105_manage : forall u mport unixOk free p t, str_or u (s2b "managementUnixSock") [] = [] -> manageListen u mport unixOk free = LPort p t -> t = p /\
  ((str_or u (s2b "managementPortRange") [] = [] /\ p = mport /\ free p = true) \/
   exists a b r x y, filter nonblank (map trimSpace (splitStr (s2b "-") (str_or u (s2b "managementPortRange") []))) = a :: b :: r /\
     parseInt64 a = (x, NumOk) /\ parseInt64 b = (y, NumOk) /\ (x <= p <= y)%Z /\ free p = true /\ forall q, (x <= q < p)%Z -> free q = false).
Proof. exact manage_port. Qed.
Print Assumptions C105_manage.
Theorem C105_manage_free : forall u mport unixOk free a b r x y p, str_or u (s2b "managementUnixSock") [] = [] ->
  str_or u (s2b "managementPortRange") [] <> [] ->
  filter nonblank (map trimSpace (splitStr (s2b "-") (str_or u (s2b "managementPortRange") []))) = a :: b :: r ->
  parseInt64 a = (x, NumOk) -> parseInt64 b = (y, NumOk) -> (x <= p <= y)%Z -> free p = true -> exists q, manageListen u mport unixOk free = LPort q q.
Proof. exact manage_free. Qed.
Print Assumptions C105_manage_free.
Theorem C105_manage_unix : forall u mport unixOk free addr, str_or u (s2b "managementUnixSock") [] = addr -> addr <> [] ->
  manageListen u mport unixOk free = if unixOk then LUnix addr 0 else LNone.
Proof. exact manage_unix. Qed.
Print Assumptions C105_manage_unix.

(* ------------------------------------------------------------ examples *)
Definition ex_sec : option cmap :=
  Some [(KStr (s2b "port"), CInt 9000); (KStr (s2b "mport"), CInt 8102); (KStr (s2b "log_dir"), CStr (s2b "/var/log")); (KStr (s2b "pidfile"), CNil);
        (KStr (s2b "log_async"), CBool false); (KStr (s2b "application"), CStr (s2b "shop")); (KStr (s2b "group"), CStr (s2b "g"))].
Definition ex_cli : cli := mkCli 0 0 9500 0 [] [] [s2b "agent"] None true.
Example C105_example : exists st, initParam ex_cli ex_sec (Some [(KStr (s2b "s"), CBool true)]) = Some st /\ sPort st = 9000%Z /\ sMport st = 8102%Z /\
  sEport st = 9500%Z /\ sHport st = 9983%Z /\ sPid st = s2b "./agent.pid" /\ sLogDir st = s2b "/var/log" /\ flag_set st (s2b "log_async") = Some (s2b "false").
Proof. eexists. vm_compute. repeat split. Qed.
Example C105_manage_example :
  manageListen (mkUrl [] [] 0 [] [] (Some [(s2b "managementPortRange", s2b "8000 - 8010")])) 8002 false (fun p => Z.ltb 8003 p) = LPort 8004 8004.
Proof. vm_compute. reflexivity. Qed.

(* ------------------------------------------------------------ what does not hold *)
(* a management port in the environment that is no number hides the configured one *)
Theorem C105_env_refuted : exists c sec st, initParam c sec None = Some st /\ fMport c = 0%Z /\ conf_int sec (s2b "mport") = 8102%Z /\ sMport st = 8002%Z.
Proof. exists (mkCli 0 0 0 0 [] [] [] (Some (s2b "eight")) true), ex_sec. eexists. split; [vm_compute; reflexivity|]. repeat split. Qed.
Print Assumptions C105_env_refuted.
(* a log directory given as -log_dir=... is ignored *)
Theorem C105_log_dir_refuted : exists c sec st, In (s2b "-log_dir=/data") (cArgs c) /\ fLogDir c = s2b "/data" /\ initParam c sec None = Some st /\
  sLogDir st = s2b "/var/log".
Proof. exists (mkCli 0 0 0 0 [] (s2b "/data") [s2b "agent"; s2b "-log_dir=/data"] None true), ex_sec. eexists. split; [cbn; tauto|]. split; [reflexivity|]. split; [vm_compute; reflexivity|]. reflexivity. Qed.
Print Assumptions C105_log_dir_refuted.
(* the port the agent registers need not be the one its management port listens on *)
Theorem C105_announced_refuted : exists c m st u u' app, initParam c (Some m) None = Some st /\ confToURL (fun _ => []) m = Some u /\
  initAgentURL u = Some (u', app) /\ manageListen u' (sMport st) false (fun _ => true) = LPort 7000 7000 /\ uPort u' = 8102%Z.
Proof.
  exists (mkCli 0 7000 0 0 [] [] [] None true), (match ex_sec with Some m => m | None => [] end). do 4 eexists.
  split; [vm_compute; reflexivity|]. split; [vm_compute; reflexivity|]. split; [vm_compute; reflexivity|]. split; vm_compute; reflexivity.
Qed.
Print Assumptions C105_announced_refuted.
(* without any name the agent calls itself "default_agent_group" in its url, but the process stays without an application; an application
   configured as empty hides the configured group *)
Theorem C105_name_refuted : exists u u' app v v' app', uParams u = Some [] /\ initAgentURL u = Some (u', app) /\ uGroup u' = s2b "default_agent_group" /\ app = [] /\
  uGroup v = s2b "g" /\ initAgentURL v = Some (v', app') /\ uGroup v' = s2b "default_agent_group".
Proof.
  exists (mkUrl [] [] 0 [] [] (Some [])). do 2 eexists. exists (mkUrl [] [] 0 [] (s2b "g") (Some [(s2b "application", [])])). do 2 eexists.
  split; [reflexivity|]. split; [vm_compute; reflexivity|]. split; [reflexivity|]. split; [reflexivity|]. split; [reflexivity|]. split; [vm_compute; reflexivity|]. reflexivity.
Qed.
Print Assumptions C105_name_refuted.
(* of two http clients for one domain the one the map happens to give last is used *)
Theorem C105_domain_refuted : exists regs ext x y d, initHttp [] regs ext [x; y] [] = [(d, fst y)] /\ initHttp [] regs ext [y; x] [] = [(d, fst x)] /\ fst x <> fst y.
Proof.
  pose (u := mkUrl [] [] 0 [] [] (Some [(s2b "domain", s2b "api.example.com")])).
  exists (fun _ => None), (fun _ => true), (s2b "a", u), (s2b "b", u), (s2b "api.example.com"). split; [vm_compute; reflexivity|]. split; [vm_compute; reflexivity|discriminate].
Qed.
Print Assumptions C105_domain_refuted.
