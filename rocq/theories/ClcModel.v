(* ClcModel.v: model of client contexts (client.go 15-28, 101-168) and of how a context reads a configuration that is already parsed
   (core/globalContext.go 203-259 with Config set, 398-410, 612-639; core/switcher.go 27-56).

   A configuration is the value tree of ConfModel.v; reading and parsing the file is a parameter of the step (None = it cannot be read or
   is no yaml).  The environment and the filters registered by the program are parameters.  Go ranges over maps in an arbitrary order: the
   order of the association lists stands for it.  mapstructure.Decode of the section "switchers" gives an entry for each name when every
   name is a text and every value a truth value or nothing, and an error otherwise.
   Simplified: cluster.NewCluster does not panic and leaves the url alone; the flags set before initLog panics are not recorded; http clients
   and services are read as well but not kept, as only whether they can be read matters here. *)
From Verif Require Import Base Strconv GoStrings GoStrings2 UrlModel ConfModel CtxModel BootModel.

(* the environment: MESH_FILTERS and the filters of AddRelevantFilter, MESH_SERVICE_ADDITIONAL_GROUP, RPC_REG_GROUP_SUFFIX,
   MESH_MULTI_SUB_GROUP_SUFFIX; the order in which a set of filters is written; how a float is printed *)
Record envr := mkEnv { eFilters : bs; eExt : list bs; eGroup : bs; eRegSuffix : bs; eSubSuffix : bs; eOrd : list bs -> list bs; eFloat : N -> bs }.

Definition orNone (o : option cmap) : cmap := match o with Some m => m | None => [] end.
(* 398-407, 123-132: a section that is missing is read as an empty one *)
Definition hostURL (e : envr) (conf : cmap) (k : bs) : option url := confToURL (eFloat e) (orNone (getSection conf k)).
Definition sectionURLs (e : envr) (conf : cmap) (k : bs) : option (list (bs * curl)) := confToURLs (eFloat e) (orNone (getSection conf k)).
(* 412-468 *)
Definition basicURLs (e : envr) (agent : url) (conf : cmap) (basics : list (bs * curl)) (key sec : bs) : option (list (bs * curl)) :=
  obind (sectionURLs e conf sec) (fun us => basicConfToURLs (eOrd e) (Some agent) (eFilters e) (eExt e) basics key us).

(* the part of a context a client uses: the registries, the client's own url, the services it refers to *)
Record ctx := mkCtx { xRegs : list (bs * curl); xClient : url; xRefers : list (bs * curl) }.
(* 247-253; the url of the agent is there whether or not there is a section for it (400-401).  None = panic *)
Definition newContext (e : envr) (conf : cmap) : option ctx :=
  obind (sectionURLs e conf (s2b "motan-registry")) (fun regs =>
  obind (hostURL e conf (s2b "motan-agent")) (fun agent =>
  obind (hostURL e conf (s2b "motan-client")) (fun client =>
  obind (hostURL e conf (s2b "motan-server")) (fun _ =>
  obind (sectionURLs e conf (s2b "motan-basicRefer")) (fun basics =>
  obind (basicURLs e agent conf basics (s2b "basicRefer") (s2b "motan-refer")) (fun refers =>
  obind (sectionURLs e conf (s2b "motan-basicService")) (fun sbasics =>
  obind (basicURLs e agent conf sbasics (s2b "basicService") (s2b "motan-service")) (fun svcs =>
  obind (parseServices (eGroup e) (eRegSuffix e) svcs) (fun _ =>
  obind (basicURLs e agent conf basics (s2b "basicRefer") (s2b "http-client")) (fun _ =>
  Some (mkCtx regs client (parseRefers true (eSubSuffix e) refers)))))))))))).

(* core/switcher.go 39-56: a name that is empty or taken is ignored *)
Definition register (sw : list (bs * bool)) (n : bs) (v : bool) : list (bs * bool) :=
  match n with [] => sw | _ => match aget bs_eqb sw n with Some _ => sw | None => aset bs_eqb sw n v end end.
Definition registerAll (sw l : list (bs * bool)) : list (bs * bool) := fold_left (fun sw nv => register sw (fst nv) (snd nv)) l sw.
(* what mapstructure.Decode makes of the section *)
Fixpoint decoded (m : cmap) : option (list (bs * bool)) :=
  match m with
  | [] => Some []
  | (KStr n, CBool b) :: r => obind (decoded r) (fun l => Some ((n, b) :: l))
  | (KStr n, CNil) :: r => obind (decoded r) (fun l => Some ((n, false) :: l))
  | _ => None
  end.
(* core/switcher.go 27-37 initSwitcher *)
Definition initSwitcher (sw : list (bs * bool)) (conf : cmap) : list (bs * bool) :=
  match getSection conf (s2b "switchers") with
  | Some m => match decoded m with Some l => registerAll sw l | None => sw end
  | None => sw
  end.
(* agent.go 1101-1107 registerSwitchers: what was registered before a panic stays; false = panic *)
Fixpoint registerSwitchers (sw : list (bs * bool)) (m : cmap) : list (bs * bool) * bool :=
  match m with
  | [] => (sw, true)
  | (KStr n, CBool b) :: r => registerSwitchers (register sw n b) r
  | _ => (sw, false)
  end.

(* which extension factory: the one the program passed, or the default one *)
Inductive fac := FDefault | FGiven (n : N).
(* a cluster: the url it was made for and its factory *)
Record clu := mkClu { kUrl : url; kFac : fac }.
(* client.go 20-28: a context, and its clients: the url of each and the number of its cluster *)
Record mctx := mkMctx { mConf : cmap; mCtx : ctx; mClients : list (bs * (url * nat * fac)) }.
(* the contexts by file name (15-18), all contexts made, the process's switchers, all clusters ever made (none is destroyed), the files
   read, the flags set and how often LogInit was called *)
Record cst := mkCst { cFiles : list (bs * nat); cAll : list mctx; cSw : list (bs * bool); cClus : list clu; cReads : list bs;
                      cFlags : list (bs * bs); cLogs : nat }.
Definition cst0 : cst := mkCst [] [] [] [] [] [] 0.

Inductive cout := OCtx (i : nat) | ONil | OPanic | OClient (c : option (url * nat * fac)) | ODone.

(* 101-119 NewClientContextFromConfig, with 144-152 Initialize; OPanic leaves no context *)
Definition newClientContext (e : envr) (s : cst) (conf : cmap) : cst * cout :=
  match newContext e conf with
  | None => (s, OPanic)
  | Some x =>
      let sw1 := initSwitcher (cSw s) conf in
      let sec := getSection conf (s2b "motan-client") in
      match obind (secStr sec (s2b "log_dir") []) (fun d => initLog (match d with [] => s2b "." | _ => d end) sec) with
      | None => (mkCst (cFiles s) (cAll s) sw1 (cClus s) (cReads s) (cFlags s) (cLogs s), OPanic)
      | Some (fs, li) =>
          let logs := if li then S (cLogs s) else cLogs s in
          match registerSwitchers sw1 (orNone (getSection conf (s2b "switcher"))) with
          | (sw2, false) => (mkCst (cFiles s) (cAll s) sw2 (cClus s) (cReads s) (cFlags s ++ fs) logs, OPanic)
          | (sw2, true) => (mkCst (cFiles s) (cAll s ++ [mkMctx conf x []]) sw2 (cClus s) (cReads s) (cFlags s ++ fs) logs, OCtx (length (cAll s)))
          end
      end
  end.

Inductive cop :=
| CGet (file : bs) (content : option cmap)   (* GetClientContextWithFlagParse(file, _), and what the file would be read as *)
| CNew (conf : cmap)                          (* NewClientContextFromConfig(conf) *)
| CStart (i : nat) (f : option N)             (* context i: Start(factory), None = nil *)
| CClient (i : nat) (k : bs)                  (* context i: GetClient(k) *)
| CInit (i : nat).                            (* context i: Initialize() again *)

(* 160-163: one cluster for each refer *)
Definition startRefers (f : fac) (refers : list (bs * curl)) (clients : list (bs * (url * nat * fac))) (clus : list clu) :=
  fold_left (fun (st : list (bs * (url * nat * fac)) * list clu) (kc : bs * curl) =>
               (aset bs_eqb (fst st) (fst kc) (cUrl (snd kc), length (snd st), f), snd st ++ [mkClu (cUrl (snd kc)) f])) refers (clients, clus).

Definition cstep (e : envr) (s : cst) (o : cop) : option (cst * cout) :=
  match o with
  | CGet file content => (* 125-142 *)
      match aget bs_eqb (cFiles s) file with
      | Some i => Some (s, OCtx i)
      | None =>
          let s1 := mkCst (cFiles s) (cAll s) (cSw s) (cClus s) (cReads s ++ [file]) (cFlags s) (cLogs s) in
          match content with
          | None => Some (s1, ONil)
          | Some conf =>
              match newClientContext e s1 conf with
              | (s2, OCtx i) => Some (mkCst (aset bs_eqb (cFiles s2) file i) (cAll s2) (cSw s2) (cClus s2) (cReads s2) (cFlags s2) (cLogs s2), OCtx i)
              | r => Some r
              end
          end
      end
  | CNew conf => Some (newClientContext e s conf)
  | CStart i f => (* 154-164 *)
      match nth_error (cAll s) i with
      | None => None
      | Some m =>
          let fc := match f with None => FDefault | Some n => FGiven n end in
          let st := startRefers fc (xRefers (mCtx m)) (mClients m) (cClus s) in
          Some (mkCst (cFiles s) (list_set (cAll s) i (mkMctx (mConf m) (mCtx m) (fst st))) (cSw s) (snd st) (cReads s) (cFlags s) (cLogs s), ODone)
      end
  | CClient i k => (* 166-168 *)
      match nth_error (cAll s) i with None => None | Some m => Some (s, OClient (aget bs_eqb (mClients m) k)) end
  | CInit i => (* 144-152: it is initialized already *)
      match nth_error (cAll s) i with None => None | Some _ => Some (s, ODone) end
  end.
(* a history: each step with what it returned and the state after it *)
Fixpoint crun (e : envr) (s : cst) (os : list cop) : option (cst * list (cop * cout)) :=
  match os with
  | [] => Some (s, [])
  | o :: r => match cstep e s o with
              | Some (s', x) => match crun e s' r with Some (s'', xs) => Some (s'', (o, x) :: xs) | None => None end
              | None => None
              end
  end.
