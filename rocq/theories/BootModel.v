(* BootModel.v: model of how an agent reads its settings when it starts (agent.go 346-461 initParam, 462-475 initHTTPClusters, 627-640
   SetSanpshotConf, 642-668 initAgentURL, 1055-1107 initLog and registerSwitchers, 1193-1244 the listener of startMServer).

   The configuration is the value tree of ConfModel.v.  The command line is given by the values of the flags, the arguments and the
   environment variable "mport"; whether the runtime directory can be made, which ports are free and whether a unix socket can be
   listened on are parameters.  None = panic: StartMotanAgent does not recover, the process ends.
   Not modelled: the pid file, the metrics reporter and the status sampler started between these steps. *)
From Verif Require Import Base Strconv GoStrings GoStrings2 UrlModel ConfModel.

Record cli := mkCli { fPort : Z; fMport : Z; fEport : Z; fHport : Z; fPid : bs; fLogDir : bs; cArgs : list bs; cEnvMport : option bs; cMkdir : bool }.

(* section != nil && section[k] != nil *)
Definition sget (sec : option cmap) (k : bs) : option cval :=
  match sec with
  | None => None
  | Some m => match cget m (KStr k) with None => None | Some CNil => None | Some v => Some v end
  end.
(* the assertions .(int), .(string), .(bool) *)
Definition asInt (v : cval) : option Z := match v with CInt z => Some z | _ => None end.
Definition asStr (v : cval) : option bs := match v with CStr s => Some s | _ => None end.
Definition asBool (v : cval) : option bool := match v with CBool b => Some b | _ => None end.
(* x := d; if section[k] is there { x = section[k].(T) } *)
Definition secInt (sec : option cmap) (k : bs) (d : Z) : option Z := match sget sec k with None => Some d | Some v => asInt v end.
Definition secStr (sec : option cmap) (k : bs) (d : bs) : option bs := match sget sec k with None => Some d | Some v => asStr v end.

Definition obind {A B} (o : option A) (f : A -> option B) : option B := match o with None => None | Some a => f a end.

(* 1055-1086: the flags that initLog sets *)
Definition boolText (b : bool) : bs := if b then s2b "true" else s2b "false".
Definition boolFlag (sec : option cmap) (k : bs) : option (list (bs * bs)) :=
  match sget sec k with None => Some [] | Some v => obind (asBool v) (fun b => Some [(k, boolText b)]) end.
Definition levelFlag (sec : option cmap) : option (list (bs * bs)) :=
  match sget sec (s2b "log_level") with
  | None => Some []
  | Some v => obind (asStr v) (fun s => Some (match s with [] => [] | _ => [(s2b "log_level", s)] end))
  end.
Definition bufFlag (sec : option cmap) : option (list (bs * bs)) :=
  match sget sec (s2b "log_buffer_size") with None => Some [] | Some v => obind (asInt v) (fun z => Some [(s2b "log_buffer_size", fmtZ z)]) end.
(* 1055-1099: the flags set, in order, and whether LogInit is called *)
Definition initLog (logDir : bs) (sec : option cmap) : option (list (bs * bs) * bool) :=
  obind (boolFlag sec (s2b "log_async")) (fun f1 =>
  obind (boolFlag sec (s2b "log_structured")) (fun f2 =>
  obind (boolFlag sec (s2b "rotate_per_hour")) (fun f3 =>
  obind (levelFlag sec) (fun f4 =>
  obind (boolFlag sec (s2b "log_filter_caller")) (fun f5 =>
  obind (bufFlag sec) (fun f6 =>
  let fs := f1 ++ f2 ++ f3 ++ f4 ++ f5 ++ f6 in
  Some (if bs_eqb logDir (s2b "stdout") then (fs, false) else (fs ++ [(s2b "log_dir", logDir)], true)))))))).

(* 1101-1107 registerSwitchers *)
Fixpoint switchers (m : cmap) : option (list (bs * bool)) :=
  match m with
  | [] => Some []
  | (KStr n, CBool b) :: r => obind (switchers r) (fun l => Some ((n, b) :: l))
  | _ => None
  end.

(* 347-368: the log directory *)
Definition logDirOf (c : cli) (sec : option cmap) : option bs :=
  obind (if existsb (bs_eqb (s2b "-log_dir")) (cArgs c) then Some (fLogDir c) else secStr sec (s2b "log_dir") []) (fun d =>
  Some (match d with [] => s2b "." | _ => d end)).
(* 380-386, 403-417: a port: the flag, the section, the default *)
Definition portOf (flag : Z) (sec : option cmap) (k : bs) (d : Z) : option Z :=
  obind (if (flag =? 0)%Z then secInt sec k 0 else Some flag) (fun p => Some (if (p =? 0)%Z then d else p)).
(* 388-401: the management port *)
Definition mportOf (c : cli) (sec : option cmap) : option Z :=
  obind (if (fMport c =? 0)%Z then
           match cEnvMport c with
           | Some t => Some (match parseInt64 t with (z, NumOk) => z | _ => 0%Z end)
           | None => secInt sec (s2b "mport") 0
           end
         else Some (fMport c)) (fun p => Some (if (p =? 0)%Z then 8002%Z else p)).
(* 419-437: a file name *)
Definition strOf (flag : bs) (sec : option cmap) (k d : bs) : option bs :=
  obind (match flag with [] => secStr sec k [] | _ => Some flag end) (fun p => Some (match p with [] => d | _ => p end)).

Record settings := mkSet { sLogDir : bs; sPort : Z; sMport : Z; sEport : Z; sHport : Z; sPid : bs; sRun : bs; sPool : option Z; sAsync : bool;
                           sFlags : list (bs * bs); sLogInit : bool; sSwitch : list (bs * bool) }.

(* 346-461 initParam *)
Definition initParam (c : cli) (sec sw : option cmap) : option settings :=
  obind (logDirOf c sec) (fun logDir =>
  obind (initLog logDir sec) (fun lg =>
  obind (switchers (match sw with Some m => m | None => [] end)) (fun swl =>
  obind (secInt sec (s2b "processPoolSize") 0) (fun pool =>
  obind (portOf (fPort c) sec (s2b "port") 9981) (fun port =>
  obind (mportOf c sec) (fun mport =>
  obind (portOf (fEport c) sec (s2b "eport") 9982) (fun eport =>
  obind (portOf (fHport c) sec (s2b "hport") 9983) (fun hport =>
  obind (strOf (fPid c) sec (s2b "pidfile") (s2b "./agent.pid")) (fun pid =>
  obind (strOf [] sec (s2b "runtime_dir") (s2b "./agent_runtime")) (fun run =>
  if cMkdir c then
    Some (mkSet logDir port mport eport hport pid run (if (0 <? pool)%Z then Some pool else None)
            (match sget sec (s2b "motanEpAsyncInit") with Some (CBool b) => b | _ => true end) (fst lg) (snd lg) swl)
  else None)))))))))).

(* 627-640 SetSanpshotConf: the directory of the snapshots *)
Definition snapshotDir (sec : option cmap) : option bs := strOf [] sec (s2b "snapshot_dir") (s2b "./snapshot").

(* 642-668 initAgentURL: the agent's url and the application the process is known by (SetApplication, 649) *)
Definition initAgentURL (u : url) : option (url * bs) :=
  match uParams u with
  | None => None
  | Some m =>
      let '(g, m1) := match aget bs_eqb m (s2b "application") with
                      | Some a => (a, m)
                      | None => (uGroup u, aset bs_eqb m (s2b "application") (uGroup u))
                      end in
      let app := match aget bs_eqb m1 (s2b "application") with Some a => a | None => [] end in
      let '(g2, m2) := match g with
                       | [] => (s2b "default_agent_group", aset bs_eqb m1 (s2b "application") (s2b "default_agent_group"))
                       | _ => (g, m1)
                       end in
      let path := match uPath u with [] => g2 | p => p end in
      let port := match aget bs_eqb m2 (s2b "mport") with
                  | Some t => match parseInt64 t with (z, NumOk) => z | _ => uPort u end
                  | None => uPort u
                  end in
      Some (mkUrl (uProtocol u) (uHost u) port path g2 (Some (aset bs_eqb m2 (s2b "nodeType") (s2b "agent"))), app)
  end.

(* 462-475 initHTTPClusters over the http clients in the order they are ranged over, and the part of cluster/httpCluster.go 73-96 that
   decides whether there is a cluster: [regs] is the table of registries, [ext] whether the extension gives one for it *)
Definition httpFill (app : bs) (u : url) : url :=
  match getParam u (s2b "application") [] with [] => withParams u (pset (uParams u) (s2b "application") app) | _ => u end.
Definition newHttp (regs : bs -> option url) (ext : url -> bool) (u : url) : bool :=
  match getParam u (s2b "domain") [] with
  | [] => false
  | _ => match regs (getParam u (s2b "registry") []) with Some r => ext r | None => true end
  end.
Fixpoint initHttp (app : bs) (regs : bs -> option url) (ext : url -> bool) (l : list (bs * url)) (m : list (bs * bs)) : list (bs * bs) :=
  match l with
  | [] => m
  | (id, u) :: r =>
      let u' := httpFill app u in
      initHttp app regs ext r (if newHttp regs ext u' then aset bs_eqb m (getParam u' (s2b "domain") []) id else m)
  end.

(* 1193-1244: where the management port listens, and what SetMport is told.  The loop of 1222-1230 ends at the second number of the
   range; with the largest int64 as the second number, and no free port, the Go loop would wrap around *)
Inductive mlisten := LUnix (addr : bs) (told : Z) | LPort (p : Z) (told : Z) | LNone.
Definition firstFree (free : Z -> bool) (a b : Z) : option Z :=
  find free (map (fun i => (a + Z.of_nat i)%Z) (seq 0 (Z.to_nat (b - a + 1)))).
Definition manageListen (u : url) (mport : Z) (unixOk : bool) (free : Z -> bool) : mlisten :=
  match getParam u (s2b "managementUnixSock") [] with
  | (_ :: _) as addr => if unixOk then LUnix addr 0 else LNone
  | [] =>
      match getParam u (s2b "managementPortRange") [] with
      | (_ :: _) as rng =>
          match trimSplit rng (s2b "-") with
          | a :: b :: _ =>
              match parseInt64 a, parseInt64 b with
              | (x, NumOk), (y, NumOk) => match firstFree free x y with Some p => LPort p p | None => LNone end
              | _, _ => LNone
              end
          | _ => LNone
          end
      | [] => if free mport then LPort mport mport else LNone
      end
  end.
