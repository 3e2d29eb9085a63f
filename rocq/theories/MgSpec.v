(* MgSpec.v: what the operator of the management port expects. *)
From Verif Require Import Base GoStrings GoStrings2 UrlModel CoreModel MetaModel ClusterModel AccModel MgModel.

(* the most recent of the things something is said of *)
Fixpoint last_some {A B} (f : A -> option B) (l : list A) : option B :=
  match l with [] => None | x :: r => match last_some f r with Some b => Some b | None => f x end end.
Definition or_now {B} (o : option B) (b : B) : B := match o with Some x => x | None => b end.

(* a request for this path that was let through *)
Definition asks (path : string) (o : mgop) : option req :=
  match o with OReq true r => if bs_eqb (q_path r) (s2b path) then Some r else None | _ => None end.
(* the commands *)
Definition status_cmd (o : mgop) : option Z :=
  match asks "/200" o, asks "/503" o with Some _, _ => Some 200%Z | _, Some _ => Some 503%Z | _, _ => None end.
Definition debug_cmd (o : mgop) : option bool :=
  match asks "/debug/pprof/sw" o with
  | Some r => if bs_eqb (q_ctr r) (s2b "op") then Some true else if bs_eqb (q_ctr r) (s2b "cp") then Some false else None
  | None => None
  end.
Definition switch_cmd (n : bs) (o : mgop) : option bool :=
  match asks "/switcher/set" o with
  | Some r => if bs_eqb (formValue r (s2b "name")) n then parseBool (formValue r (s2b "value")) else None
  | None => None
  end.
(* only one setting of the logger is changed by a request: the level goes before access, access before metrics *)
Definition level_cmd (o : mgop) : option Z :=
  match asks "/logConfig/set" o with
  | Some r => match formValue r (s2b "level") with [] => None | l => levelSet l end
  | None => None
  end.
Definition access_cmd (o : mgop) : option bool :=
  match asks "/logConfig/set" o with
  | Some r => match formValue r (s2b "level") with [] => parseBool (formValue r (s2b "access")) | _ => None end
  | None => None
  end.
Definition metrics_cmd (o : mgop) : option bool :=
  match asks "/logConfig/set" o with
  | Some r => match formValue r (s2b "level"), formValue r (s2b "access") with [], [] => parseBool (formValue r (s2b "metrics")) | _, _ => None end
  | None => None
  end.
(* Some (Some v): the key gets v; Some None: it is deleted *)
Definition meta_cmd (k : bs) (o : mgop) : option (option bs) :=
  match asks "/meta/update" o with
  | Some r => match aget bs_eqb (q_form r) k with Some (v :: _) => Some (Some v) | _ => None end
  | None => match asks "/meta/delete" o with
            | Some r => if bs_eqb (formValue r (s2b "key")) k then Some None else None
            | None => None
            end
  end.

Definition form_ok (o : mgop) : Prop := match o with OReq _ r => NoDup (akeys (q_form r)) | _ => True end.
(* the agent's own handler has this path *)
Definition owns (v : env) (path : string) (h : handler) : Prop := aget bs_eqb (v_table v) (s2b path) = Some h.
Definition switch_value (s : mg) (n : bs) : option bool := option_map swValue (aget bs_eqb (swMap (g_sw s)) n).
Definition meta_value (s : mg) (k : bs) : option bs := aget bs_eqb (g_meta s) k.

(* the settings *)
Inductive area : Set := ArStatus | ArDebug | ArSwitch | ArLog | ArMeta | ArRules.
Definition same (a : area) (s s' : mg) : Prop :=
  match a with
  | ArStatus => g_status s' = g_status s /\ g_file s' = g_file s /\ g_told s' = g_told s
  | ArDebug => g_debug s' = g_debug s
  | ArSwitch => g_sw s' = g_sw s
  | ArLog => g_level s' = g_level s /\ g_access s' = g_access s /\ g_metrics s' = g_metrics s
  | ArMeta => g_meta s' = g_meta s
  | ArRules => g_rules s' = g_rules s /\ g_clusters s' = g_clusters s
  end.
(* the paths that can change something *)
Definition area_of (path : bs) : option area :=
  match find (fun e => bs_eqb (s2b (fst e)) path)
    [("/200", ArStatus); ("/503", ArStatus); ("/debug/pprof/sw", ArDebug); ("/switcher/set", ArSwitch); ("/logConfig/set", ArLog);
     ("/meta/update", ArMeta); ("/meta/delete", ArMeta); ("/refers/filter/set", ArRules)]%string with
  | Some e => Some (snd e) | None => None end.

(* the registry status of the whole: among the services to be checked *)
Definition failed_as (ok : bool) : bs := if ok then s2b "register-failed" else s2b "unregister-failed".
Definition checked (l : list rstat) (status : bs) : Prop := exists k, In k l /\ rs_check k = true /\ rs_status k = status.
Inductive whole : bool -> list rstat -> bs -> Prop :=
| whole_failed (ok : bool) (l : list rstat) : checked l (failed_as ok) -> whole ok l (failed_as ok)
| whole_missing (ok : bool) (l : list rstat) : ~ checked l (failed_as ok) -> checked l (s2b "not-register") -> whole ok l (s2b "not-register")
| whole_good (ok : bool) (l : list rstat) : ~ checked l (failed_as ok) -> ~ checked l (s2b "not-register") ->
    whole ok l (if ok then s2b "register-success" else s2b "unregister-success").

Definition subtree_of (path pat : bs) : Prop := (exists a, pat = a ++ s2b "/") /\ exists b, path = pat ++ b.
(* the users' handlers of an environment variable, a comma separated list of names: the last one that has the path *)
Definition env_handler (envs : list (bs * table)) (env path : bs) : option handler :=
  last_some (fun k => match aget bs_eqb envs (trimSpace k) with Some t => aget bs_eqb t path | None => None end) (splitOn x2c env).

Definition sumZ (l : list Z) : Z := fold_right Z.add 0%Z l.
(* /status shows the services that have counters, with their methods *)
Definition shown (e : bs * bs * option (list (bs * Z))) : list (bs * bs * list (bs * Z)) :=
  match snd e with Some counts => [(fst (fst e), snd (fst e), methodsOf counts)] | None => [] end.
Definition countsIn (l : list (bs * bs * list (bs * Z))) : list Z := flat_map (fun e => map snd (snd e)) l.
(* what a registry was told last *)
Definition toldTo (k : bs) (e : bs * bool) : option bool := if bs_eqb (fst e) k then Some (snd e) else None.
(* the paths the agent serves by itself *)
Definition own_paths : list (string * handler) :=
  [("/", HStatus); ("/200", HStatus); ("/503", HStatus); ("/debug/mesh/trace", HDebug); ("/debug/pprof/", HDebug); ("/debug/pprof/allocs", HDebug);
   ("/debug/pprof/block", HDebug); ("/debug/pprof/cmdline", HDebug); ("/debug/pprof/goroutine", HDebug); ("/debug/pprof/heap", HDebug);
   ("/debug/pprof/mutex", HDebug); ("/debug/pprof/profile", HDebug); ("/debug/pprof/sw", HDebug); ("/debug/pprof/symbol", HDebug); ("/debug/pprof/trace",
   HDebug); ("/debug/stat/connections", HDebug); ("/debug/stat/openFiles", HDebug); ("/debug/stat/process", HDebug); ("/debug/stat/system", HDebug);
   ("/getAllService", HInfo); ("/getConfig", HInfo); ("/getReferService", HInfo); ("/logConfig/get", HLog); ("/logConfig/set", HLog); ("/meta/delete",
   HMeta); ("/meta/get", HMeta); ("/meta/getAll", HMeta); ("/meta/update", HMeta); ("/refers/filter/get", HRefers); ("/refers/filter/set", HRefers);
   ("/registry/info", HDyn); ("/registry/list", HDyn); ("/registry/register", HDyn); ("/registry/status", HStatus); ("/registry/subscribe", HDyn);
   ("/registry/unregister", HDyn); ("/reload/clusters", HReload); ("/runtime/info", HRuntime); ("/status", HStatus); ("/switcher/get", HSwitch);
   ("/switcher/getAll", HSwitch); ("/switcher/set", HSwitch); ("/version", HStatus)]%string.
