(* MeshModel.v: model of registry/meshRegistry.go, with the mesh agent it talks to over http.
   An http exchange is an event of the environment: whether the agent carried the request out, and what came back.  The request body
   is json.Marshal of a URL; it stands here for the URL itself.  Sleeping between tries is left out: it only delays. *)
From Verif Require Import Base UrlModel UrlSpec.

(* what came back: http.Post failed, the body could not be read as json, or it holds this code (0 when it has none) *)
Inductive mans := AFail | AUnread | ACode (c : Z).
Inductive mkind := KReg | KUnreg | KSub.
(* 26-34 MeshRegistry; the locks are held (true) while a call has not returned *)
Record mesh := mkMesh { msUrl : url; msPort : Z; msProxy : bs; msReg : list (bs * url); msSub : list (bs * url); msRegLock : bool; msSubLock : bool }.
(* the registry object, the services registered at the agent, and every request sent so far *)
Record mworld := mkMworld { mwMesh : mesh; mwAgent : list bs; mwLog : list (mkind * url) }.

(* 42-73 Initialize.  One of three answers to /registry/info: http.Get failed, nothing readable about the port, or a port.
   [info] is shared by the three rounds, so a port once read stays.  None = panic *)
Inductive minfo := IFail | INoPort | IPort (p : Z).
Definition portAfter (cur : Z) (i : minfo) : Z := match i with IPort p => p | _ => cur end.
(* after http.Get failed r.meshPort is not assigned, otherwise it is info's port *)
Definition meshInit (u : url) (i1 i2 i3 : minfo) : option mesh :=
  let h := match uHost u with [] => s2b "localhost" | h => h end in
  let p := if (uPort u =? 0)%Z then 8002%Z else uPort u in
  let u' := mkUrl (uProtocol u) h p (uPath u) (uGroup u) (uParams u) in
  match getParam u' (s2b "proxyRegistry") [] with
  | [] => None
  | proxy => Some (mkMesh u' (fold_left portAfter [i1; i2; i3] 0%Z) proxy [] [] false false)
  end.

(* 188-192 initRegistryRequest: Copy (314-322 of core/url.go), then PutParam *)
Definition meshRequest (m : mesh) (u : url) : url :=
  cUrl (putParam (copyUrl (fresh u)) (s2b "proxyRegistry") (msProxy m)).
(* what the agent does with a request it carries out *)
Definition agentDoes (k : mkind) (id : bs) (l : list bs) : list bs :=
  match k with
  | KReg => if existsb (bs_eqb id) l then l else l ++ [id]
  | KUnreg => filter (fun x => negb (bs_eqb x id)) l
  | KSub => l
  end.
(* 92-114, 137-159: post until an answer has been read; None = still trying *)
Fixpoint postLoop (k : mkind) (u : url) (net : list (bool * mans)) (w : list bs * list (mkind * url)) : option Z * (list bs * list (mkind * url)) :=
  match net with
  | [] => (None, w)
  | (done, a) :: r =>
      let w' := (if done then agentDoes k (identity_of u) (fst w) else fst w, snd w ++ [(k, u)]) in
      match a with ACode c => (Some c, w') | _ => postLoop k u r w' end
  end.
Definition withReg (m : mesh) (r : list (bs * url)) (lock : bool) : mesh := mkMesh (msUrl m) (msPort m) (msProxy m) r (msSub m) lock (msSubLock m).
Definition withSub (m : mesh) (s : list (bs * url)) (lock : bool) : mesh := mkMesh (msUrl m) (msPort m) (msProxy m) (msReg m) s (msRegLock m) lock.

Inductive mop := MRegister (u : url) (net : list (bool * mans)) | MUnregister (u : url) (done : bool) (a : mans) | MSubscribe (u : url) (net : list (bool * mans)).
Definition mstep (w : mworld) (o : mop) : mworld :=
  let m := mwMesh w in
  match o with
  (* 129-160 Register *)
  | MRegister u net =>
      if msRegLock m then w
      else match aget bs_eqb (msReg m) (identity_of u) with
           | Some _ => w
           | None => let '(c, (ag, log)) := postLoop KReg (meshRequest m u) net (mwAgent w, mwLog w) in
                     mkMworld (match c with
                               | Some c => withReg m (if (c =? 200)%Z then aset bs_eqb (msReg m) (identity_of u) u else msReg m) false
                               | None => withReg m (msReg m) true
                               end) ag log
           end
  (* 162-186 UnRegister *)
  | MUnregister u done a =>
      if msRegLock m then w
      else match aget bs_eqb (msReg m) (identity_of u) with
           | None => w
           | Some _ => let ru := meshRequest m u in
                       mkMworld (match a with
                                 | ACode c => if (c =? 200)%Z then withReg m (adel bs_eqb (msReg m) (identity_of u)) false else m
                                 | _ => m
                                 end)
                                (if done then agentDoes KUnreg (identity_of ru) (mwAgent w) else mwAgent w) (mwLog w ++ [(KUnreg, ru)])
           end
  (* 87-115 Subscribe; 117-118 Unsubscribe does nothing *)
  | MSubscribe u net =>
      if msSubLock m then w
      else match aget bs_eqb (msSub m) (identity_of u) with
           | Some _ => w
           | None => let '(c, (ag, log)) := postLoop KSub (meshRequest m u) net (mwAgent w, mwLog w) in
                     mkMworld (match c with
                               | Some c => withSub m (if (c =? 200)%Z then aset bs_eqb (msSub m) (identity_of u) u else msSub m) false
                               | None => withSub m (msSub m) true
                               end) ag log
           end
  end.
Definition mruns (w : mworld) (os : list mop) : mworld := fold_left mstep os w.
(* 120-125 Discover *)
Definition meshDiscover (m : mesh) (u : url) : list url :=
  let c := cUrl (copyUrl (fresh u)) in [mkUrl (uProtocol c) (uHost (msUrl m)) (msPort m) (uPath c) (uGroup c) (uParams c)].
(* 217-225 GetRegisteredServices *)
Definition meshServices (m : mesh) : list url := map snd (msReg m).
