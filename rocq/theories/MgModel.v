(* MgModel.v: the management port of the agent: which handler answers a request (agent.go 1161-1191, 1250-1275, default.go 36-108) and
   what the handlers of manageHandler.go do to the agent.

   A request is its path, the values of its form (r.Form, a map: keys once, each with its values) and the header ctr.  Paths are taken as
   already cleaned (net/http redirects others).  The JSON and the information shown are left symbolic: an answer is the list of the things
   written.  Handlers of users are opaque: they may panic and do not touch what is modelled here.  Of the default handlers those of
   /registry/register... (see DynModel), /getConfig, /getReferService, /getAllService and /reload/clusters (see AgentModel) only have their
   place in the table.  Each request is one step: the handlers hold no lock across two of the settings modelled here. *)
From Verif Require Import Base GoStrings GoStrings2 UrlModel CoreModel MetaModel ClusterModel AccModel.

Inductive handler := HStatus | HInfo | HDebug | HSwitch | HLog | HDyn | HMeta | HReload | HRuntime | HRefers | HUser (n : nat).
Definition table := list (bs * handler).

(* ------------------------------------------------------------ which handler *)

(* default.go 36-108 *)
Definition defaultTable : table :=
  map (fun p => (s2b p, HStatus)) ["/"; "/200"; "/503"; "/version"; "/status"; "/registry/status"]%string ++
  map (fun p => (s2b p, HInfo)) ["/getConfig"; "/getReferService"; "/getAllService"]%string ++
  map (fun p => (s2b p, HDebug))
    ["/debug/pprof/"; "/debug/pprof/cmdline"; "/debug/pprof/profile"; "/debug/pprof/symbol"; "/debug/pprof/trace"; "/debug/mesh/trace";
     "/debug/pprof/sw"; "/debug/stat/system"; "/debug/stat/process"; "/debug/stat/openFiles"; "/debug/stat/connections";
     "/debug/pprof/allocs"; "/debug/pprof/block"; "/debug/pprof/goroutine"; "/debug/pprof/mutex"; "/debug/pprof/heap"]%string ++
  map (fun p => (s2b p, HSwitch)) ["/switcher/set"; "/switcher/get"; "/switcher/getAll"]%string ++
  map (fun p => (s2b p, HLog)) ["/logConfig/get"; "/logConfig/set"]%string ++
  map (fun p => (s2b p, HDyn)) ["/registry/register"; "/registry/unregister"; "/registry/subscribe"; "/registry/list"; "/registry/info"]%string ++
  map (fun p => (s2b p, HMeta)) ["/meta/update"; "/meta/delete"; "/meta/get"; "/meta/getAll"]%string ++
  [(s2b "/reload/clusters", HReload); (s2b "/runtime/info", HRuntime)] ++
  map (fun p => (s2b p, HRefers)) ["/refers/filter/get"; "/refers/filter/set"]%string.
(* agent.go 1174-1180, 1185-1187: for k, v := range src { handlers[k] = v } *)
Definition overlay (t src : table) : table := fold_left (fun m kv => aset bs_eqb m (fst kv) (snd kv)) src t.
(* agent.go 1161-1165 RegisterManageHandler and 1167-1171 RegisterEnvHandlers, with handlers that are not nil *)
Definition registerManage (m : table) (path : bs) (h : handler) : table := if bs_eqb path [] then m else aset bs_eqb m path h.
Definition registerEnv (m : list (bs * table)) (name : bs) (t : table) : list (bs * table) := if bs_eqb name [] then m else aset bs_eqb m name t.
(* agent.go 1174-1189 *)
Definition handlersOf (manage : table) (envs : list (bs * table)) (env : bs) : table :=
  fold_left (fun t k => match aget bs_eqb envs (trimSpace k) with Some v => overlay t v | None => t end)
            (splitOn x2c env) (overlay (overlay [] defaultTable) manage).
(* net/http ServeMux: the pattern itself, or else the longest pattern that ends in / and begins the path *)
Definition subtree (path : bs) (best : option (bs * handler)) (e : bs * handler) : option (bs * handler) :=
  if hasSuffix (fst e) (s2b "/") && hasPrefix path (fst e)
  then match best with
       | Some b => if length (fst b) <? length (fst e) then Some e else best
       | None => Some e
       end
  else best.
Definition route (t : table) (path : bs) : option handler :=
  match aget bs_eqb t path with
  | Some h => Some h
  | None => match fold_left (subtree path) t None with Some e => Some (snd e) | None => None end
  end.

(* ------------------------------------------------------------ the agent *)

(* core/motan.go 225-231: what a registry says of a service *)
Record rstat := mkRstat { rs_group : bs; rs_path : bs; rs_status : bs; rs_check : bool }.
Record mg := mkMg {
  g_status : Z;                         (* Agent.status *)
  g_file : option bs;                   (* the status file *)
  g_regs : list bs;                     (* serviceRegistries *)
  g_told : list (bs * bool);            (* the calls Available(nil), Unavailable(nil) made to the registries *)
  g_stats : list (list rstat);          (* GetRegistryStatus, 266-278 *)
  g_sw : swState;
  g_level : Z; g_access : bool; g_metrics : bool;   (* the logger *)
  g_meta : meta;
  g_debug : bool;                       (* DebugHandler.enable *)
  g_rules : list fconfig;               (* RefersFilterHandler.config *)
  g_clusters : list (bs * cl) }.        (* clusterMap *)
Definition set_status s a f t := mkMg a f (g_regs s) t (g_stats s) (g_sw s) (g_level s) (g_access s) (g_metrics s) (g_meta s) (g_debug s) (g_rules s) (g_clusters s).
Definition set_sw s x := mkMg (g_status s) (g_file s) (g_regs s) (g_told s) (g_stats s) x (g_level s) (g_access s) (g_metrics s) (g_meta s) (g_debug s) (g_rules s) (g_clusters s).
Definition set_log s l a m := mkMg (g_status s) (g_file s) (g_regs s) (g_told s) (g_stats s) (g_sw s) l a m (g_meta s) (g_debug s) (g_rules s) (g_clusters s).
Definition set_meta s x := mkMg (g_status s) (g_file s) (g_regs s) (g_told s) (g_stats s) (g_sw s) (g_level s) (g_access s) (g_metrics s) x (g_debug s) (g_rules s) (g_clusters s).
Definition set_debug s x := mkMg (g_status s) (g_file s) (g_regs s) (g_told s) (g_stats s) (g_sw s) (g_level s) (g_access s) (g_metrics s) (g_meta s) x (g_rules s) (g_clusters s).
Definition set_rules s r c := mkMg (g_status s) (g_file s) (g_regs s) (g_told s) (g_stats s) (g_sw s) (g_level s) (g_access s) (g_metrics s) (g_meta s) (g_debug s) r c.
Definition set_stats s x := mkMg (g_status s) (g_file s) (g_regs s) (g_told s) x (g_sw s) (g_level s) (g_access s) (g_metrics s) (g_meta s) (g_debug s) (g_rules s) (g_clusters s).

Record req := mkReq { q_path : bs; q_form : list (bs * list bs); q_ctr : bs }.
(* net/http Request.FormValue *)
Definition formValue (r : req) (k : bs) : bs := match aget bs_eqb (q_form r) k with Some (v :: _) => v | _ => [] end.

Inductive rinfo := RText (t : bs) | RShown (k : bs).
Inductive wr :=
| WText (t : bs)                                     (* plain text *)
| WCode (n : Z)                                      (* WriteHeader *)
| WLog (code : Z) (body : bs)                        (* logResponse *)
| WLevels (level : bs) (access metrics : bool)       (* logResponse with resBody *)
| WOk | WFail (msg : bs)                             (* JSONSuccess "ok", JSONError *)
| WMeta (m : meta) | WSwitches (l : list (bs * bool)) | WRules (l : list fconfig)
| WRegistry (status : bs) (l : list rstat)           (* getRegistryStatus *)
| WStatus (code : Z)                                 (* getStatus: see statusOf *)
| WRuntime (l : list (bs * rinfo))
| WDebug (path : bs)                                 (* profiles, traces, statistics *)
| WOther (h : handler)                               (* handlers modelled elsewhere or not at all *)
| WPanic.                                            (* "process request err: " and the panic, 1268-1272 *)

Definition p (x : string) : bs := s2b x.
Definition httpText (n : Z) : bs := if (n =? 200)%Z then s2b "OK" else if (n =? 503)%Z then s2b "Service Unavailable" else [].

(* 81-137 getRegistryStatus: the status of the whole *)
Definition registerSuccess := s2b "register-success". Definition registerFailed := s2b "register-failed".
Definition unregisterSuccess := s2b "unregister-success". Definition unregisterFailed := s2b "unregister-failed".
Definition notRegister := s2b "not-register".
Definition oneStatus (ok : bool) (res : bs) (k : rstat) : bs :=
  if rs_check k then
    let failed := if ok then registerFailed else unregisterFailed in
    if bs_eqb (rs_status k) failed then rs_status k
    else if bs_eqb (rs_status k) notRegister && negb (bs_eqb res failed) then rs_status k
    else res
  else res.
Definition wholeStatus (agent : Z) (stats : list rstat) : bs :=
  let ok := (agent =? 200)%Z in fold_left (oneStatus ok) stats (if ok then registerSuccess else unregisterSuccess).

(* 57-79 StatusHandler; saveStatus (agent.go 322-329) always writes 200, if the file can be written *)
Definition serveStatus (canWrite : bool) (s : mg) (r : req) : mg * list wr :=
  let save f := if canWrite then Some (s2b "200") else f in
  if bs_eqb (q_path r) (p "/200") then (set_status s 200 (save (g_file s)) (g_told s ++ map (fun k => (k, true)) (g_regs s)), [WText (s2b "ok.")])
  else if bs_eqb (q_path r) (p "/503") then (set_status s 503 (save (g_file s)) (g_told s ++ map (fun k => (k, false)) (g_regs s)), [WText (s2b "ok.")])
  else if bs_eqb (q_path r) (p "/version") then (s, [WText (s2b "1.2.0")]) (* version.go 4 *)
  else if bs_eqb (q_path r) (p "/status") then (s, [WStatus (g_status s)])
  else if bs_eqb (q_path r) (p "/registry/status") then (s, [WRegistry (wholeStatus (g_status s) (concat (g_stats s))) (concat (g_stats s))])
  else (s, [WCode (g_status s); WText (httpText (g_status s))]).

(* 270-315 DebugHandler *)
Definition serveDebug (s : mg) (r : req) : mg * list wr :=
  if bs_eqb (q_path r) (p "/debug/pprof/sw") then
    if bs_eqb (q_ctr r) (s2b "op") then (set_debug s true, [WText (s2b "T")])
    else if bs_eqb (q_ctr r) (s2b "cp") then (set_debug s false, [WText (s2b "F")])
    else (s, [])
  else if g_debug s then (s, [WDebug (q_path r)]) else (s, []).

(* 644-688 SwitcherHandler *)
Definition boolText (b : bool) : bs := if b then s2b "true" else s2b "false".
Definition serveSwitch (s : mg) (r : req) : mg * list wr :=
  let name := formValue r (p "name") in
  let value := formValue r (p "value") in
  if bs_eqb (q_path r) (p "/switcher/set") then
    if bs_eqb name [] then (s, [WText (s2b "Please specify a switcher name!")])
    else if bs_eqb value [] then (s, [WText (s2b "Please specify a switcher value!")])
    else match parseBool value with
         | None => (s, [WText (s2b "Invalid switcher value(must be Bool): " ++ value)])
         | Some b =>
             match aget bs_eqb (swMap (g_sw s)) name with
             | None => (s, [WText (s2b "Not a registered switcher, name: " ++ name)])
             | Some x => (set_sw s (swSetValue (g_sw s) name x b), [WText (s2b "Set switcher " ++ name ++ s2b " value to " ++ value ++ s2b " !")])
             end
         end
  else if bs_eqb (q_path r) (p "/switcher/get") then
    if bs_eqb name [] then (s, [WText (s2b "Please specify a switcher name!")])
    else match aget bs_eqb (swMap (g_sw s)) name with
         | None => (s, [WText (s2b "Not a registered switcher, name: " ++ name)])
         | Some x => (s, [WText (s2b "Switcher value for " ++ name ++ s2b " is " ++ boolText (swValue x) ++ s2b "!")])
         end
  else if bs_eqb (q_path r) (p "/switcher/getAll") then (s, [WSwitches (map (fun e => (fst e, swValue (snd e))) (swMap (g_sw s)))])
  else (s, []).

(* 696-749 LogHandler, setLogStatus; the texts of errors are left out *)
Definition setLogStatus (s : mg) (access : bool) (available : bs) : mg * list wr :=
  let name := if access then s2b "accessLog" else s2b "metricsLog" in
  match parseBool available with
  | Some b => (if access then set_log s (g_level s) b (g_metrics s) else set_log s (g_level s) (g_access s) b,
               [WLog 200 (s2b "set " ++ name ++ s2b " status:" ++ available)])
  | None => (s, [WLog 500 (s2b "set " ++ name ++ s2b " status failed. err:")])
  end.
Definition serveLog (s : mg) (r : req) : mg * list wr :=
  if bs_eqb (q_path r) (p "/logConfig/get") then (s, [WLevels (levelString (g_level s)) (g_access s) (g_metrics s)])
  else if bs_eqb (q_path r) (p "/logConfig/set") then
    let l := formValue r (p "level") in let a := formValue r (p "access") in let m := formValue r (p "metrics") in
    if negb (bs_eqb l []) then
      match levelSet l with
      | Some n => (set_log s n (g_access s) (g_metrics s), [WLog 200 (s2b "set log level:" ++ l)])
      | None => (s, [WLog 500 (s2b "set log level failed. err:unrecognized level:" ++ l)])
      end
    else if negb (bs_eqb a []) then setLogStatus s true a
    else if negb (bs_eqb m []) then setLogStatus s false m
    else (s, [])
  else (s, []).

(* 755-778 MetaInfo *)
Definition serveMeta (s : mg) (r : req) : mg * list wr :=
  if bs_eqb (q_path r) (p "/meta/update") then
    (set_meta s (fold_left (fun m kv => match snd kv with v :: _ => dynStep m (MPut (fst kv) v) | [] => m end) (q_form r) (g_meta s)), [WOk])
  else if bs_eqb (q_path r) (p "/meta/delete") then (set_meta s (dynStep (g_meta s) (MDel (formValue r (p "key")))), [WOk])
  else if bs_eqb (q_path r) (p "/meta/get") then
    (s, [WMeta [(formValue r (p "key"), match aget bs_eqb (g_meta s) (formValue r (p "key")) with Some v => v | None => [] end)]])
  else if bs_eqb (q_path r) (p "/meta/getAll") then (s, [WMeta (g_meta s)])
  else (s, []).

(* 803-812 and 819-835 *)
Definition runtimeKeys : list bs := map s2b ["clusters"; "httpClusters"; "exporters"; "servers"; "extensionFactory"; "basic"]%string.
(* 837-860, 913-919 RuntimeHandler *)
Definition serveRuntime (s : mg) (r : req) : mg * list wr :=
  if bs_eqb (q_path r) (p "/runtime/info") then
    let ks := formValue r (p "keys") in
    let keys := if bs_eqb ks [] then runtimeKeys else splitOn x2c ks in
    (s, [WRuntime (fold_left (fun m k => if existsb (bs_eqb k) runtimeKeys then aset bs_eqb m k (RShown k) else m) keys
                             [(s2b "result", RText (s2b "ok")); (s2b "instanceType", RText (s2b "motan-agent"))])])
  else (s, []).

(* 931-971 RefersFilterHandler; [parse] is json.Unmarshal, [sw] the shuffles made for the clusters *)
Definition serveRefers (nl : netlib) (parse : bs -> option (list fconfig)) (sw : list (nat * nat)) (s : mg) (r : req) : mg * list wr :=
  if bs_eqb (q_path r) (p "/refers/filter/get") then (s, [WRules (g_rules s)])
  else if bs_eqb (q_path r) (p "/refers/filter/set") then
    let c := formValue r (p "config") in
    if bs_eqb c [] then (s, [WFail (s2b "empty config")])
    else match parse c with
         | None => (s, [WFail (s2b "parse config failed")])
         | Some rules =>
             (set_rules s rules (map (fun kc => (fst kc, clSetFilter nl (snd kc) (parseRefersFilters nl rules (clUrl (snd kc))) sw sw)) (g_clusters s)),
              (if verifyConfigs rules then [] else [WFail (s2b "invalid config")]) ++ [WOk])
         end
  else (s, []).

(* ------------------------------------------------------------ one request *)

(* what the agent is given: its handlers, the package net, json, whether the status file can be written, whether a user's handler panics *)
Record env := mkEnv { v_table : table; v_net : netlib; v_parse : bs -> option (list fconfig); v_write : bool;
                      v_panics : nat -> req -> bool; v_shuffle : list (nat * nat) }.
Definition serve (v : env) (h : handler) (s : mg) (r : req) : mg * list wr :=
  match h with
  | HStatus => serveStatus (v_write v) s r
  | HDebug => serveDebug s r
  | HSwitch => serveSwitch s r
  | HLog => serveLog s r
  | HMeta => serveMeta s r
  | HRuntime => serveRuntime s r
  | HRefers => serveRefers (v_net v) (v_parse v) (v_shuffle v) s r
  | HUser n => (s, if v_panics v n r then [WPanic] else [WOther h])
  | h => (s, [WOther h])
  end.
(* agent.go 1250-1275 mhandle; [granted] is PermissionCheck(r) *)
Definition answer (v : env) (granted : bool) (s : mg) (r : req) : mg * list wr :=
  match route (v_table v) (q_path r) with
  | None => (s, [WCode 404])
  | Some h => if granted then serve v h s r else (s, [WText (s2b "need permission!")])
  end.

(* the life of the agent as seen from here *)
Inductive mgop :=
| OReq (granted : bool) (r : req)
| ORegister (name : bs) (b : bool)            (* a switcher is registered *)
| OStats (l : list (list rstat)).             (* the registries' view changes *)
Definition mgstep (v : env) (s : mg) (o : mgop) : mg :=
  match o with
  | OReq g r => fst (answer v g s r)
  | ORegister n b => set_sw s (swRegister (g_sw s) n b [])
  | OStats l => set_stats s l
  end.
Definition mgrun (v : env) (s : mg) (os : list mgop) : mg := fold_left (mgstep v) os s.

(* ------------------------------------------------------------ /status *)

(* 139-203 getStatus: the services exported, each with the counters of its last snapshot if it has any *)
Definition totalSuffix : bs := s2b ".total_count".
Definition lastColon (k : bs) : option nat := match splitOn x3a k with [_] => None | l => Some (length k - length (last l [])) end.
Definition methodOf (k : bs) : bs :=
  let m := firstn (length k - length totalSuffix) k in
  match lastColon k with Some i => skipn i m | None => m end.
Definition methodsOf (counts : list (bs * Z)) : list (bs * Z) :=
  map (fun kc => (methodOf (fst kc), snd kc)) (filter (fun kc => hasSuffix (fst kc) totalSuffix) counts).
Definition statusOf (exported : list (bs * bs * option (list (bs * Z)))) : Z * list (bs * bs * list (bs * Z)) :=
  fold_left (fun acc e => match snd e with
                          | None => acc
                          | Some counts => (fold_left (fun t kc => wrapI64 (t + snd kc)) (methodsOf counts) (fst acc),
                                            snd acc ++ [(fst (fst e), snd (fst e), methodsOf counts)])
                          end) exported (0%Z, []).

(* ------------------------------------------------------------ the failback loop *)

(* agent.go 239-262, server.go 276-301: one tick.  Registries that keep a status have one status per service, in map order; the calls made
   are (registry, service, available) *)
Definition failbackOne (status : Z) (reg : bs) (e : bs * bs) : list (bs * bs * bool) :=
  if (status =? 200)%Z && bs_eqb (snd e) registerFailed then [(reg, fst e, true)]
  else if (status =? 503)%Z && bs_eqb (snd e) unregisterFailed then [(reg, fst e, false)]
  else [].
Definition failback (status : Z) (regs : list (bs * option (list (bs * bs)))) : list (bs * bs * bool) :=
  flat_map (fun r => match snd r with Some m => flat_map (failbackOne status (fst r)) m | None => [] end) regs.
