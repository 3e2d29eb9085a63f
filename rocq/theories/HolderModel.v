(* HolderModel.v: model of the clusters behind an http domain (cluster/httpCluster.go): each service gets its cluster when it is first
   asked for.

   Atomic steps: a section under RWMutex lock or under the lock of a holder, a read of [initialized], a read of [cluster].
   Destroy keeps the write lock over all its steps.  A cluster is the number of the NewCluster call that made it; cClSvc is the
   path of the URL it was made with (the rest of the URL is the domain's). *)
From Verif Require Import Base.

Record holder := mkHo { hoSvc : bs; hoInit : bool; hoCl : option nat }.
Record clu := mkClu { cSvc : bs; cDead : nat (* how often it was destroyed *) }.
(* 167-188 getMotanCluster, 26-40 getCluster *)
Inductive jpc := JStart | JWrite | JHold (h : nat) | JRead (h : nat) | JSlow (h : nat) | JDone (c : option nat).
Record job := mkJob { jSvc : bs; jPc : jpc }.
Record hst := mkHst {
  hKilling : option (list nat);   (* Destroy is running, these holders are left *)
  hMap : list (bs * nat);         (* upstreamClusters *)
  hHold : list holder; hClu : list clu; hJobs : list job }.
Definition hinit : hst := mkHst None [] [] [] [].

Inductive hop := HCall (svc : bs) | HStep (j : nat) | HDestroy | HKill (i : nat) | HEnd.
Definition setJob (s : hst) (j : nat) (x : job) : hst := mkHst (hKilling s) (hMap s) (hHold s) (hClu s) (list_set (hJobs s) j x).
Definition setHold (s : hst) (h : nat) (o : holder) : hst := mkHst (hKilling s) (hMap s) (list_set (hHold s) h o) (hClu s) (hJobs s).
Definition setClu (s : hst) (c : nat) (x : clu) : hst := mkHst (hKilling s) (hMap s) (hHold s) (list_set (hClu s) c x) (hJobs s).
Definition jstep (s : hst) (j : nat) (x : job) : option hst :=
  let go p := mkJob (jSvc x) p in
  match jPc x with
  | JStart =>
      match hKilling s with
      | Some _ => None
      | None => Some (setJob s j (go (match aget bs_eqb (hMap s) (jSvc x) with Some h => JHold h | None => JWrite end)))
      end
  | JWrite =>
      match hKilling s with
      | Some _ => None
      | None =>
          match aget bs_eqb (hMap s) (jSvc x) with
          | Some h => Some (setJob s j (go (JHold h)))
          | None =>
              let h := length (hHold s) in
              Some (setJob (mkHst None (aset bs_eqb (hMap s) (jSvc x) h) (hHold s ++ [mkHo (jSvc x) false None]) (hClu s) (hJobs s)) j (go (JHold h)))
          end
      end
  | JHold h => match nth_error (hHold s) h with Some o => Some (setJob s j (go (if hoInit o then JRead h else JSlow h))) | None => None end
  | JRead h => match nth_error (hHold s) h with Some o => Some (setJob s j (go (JDone (hoCl o)))) | None => None end
  | JSlow h =>
      match nth_error (hHold s) h with
      | Some o =>
          if hoInit o then Some (setJob s j (go (JDone (hoCl o))))
          else let c := length (hClu s) in
               Some (setJob (mkHst (hKilling s) (hMap s) (list_set (hHold s) h (mkHo (hoSvc o) true (Some c))) (hClu s ++ [mkClu (hoSvc o) 0]) (hJobs s))
                            j (go (JDone (Some c))))
      | None => None
      end
  | JDone _ => None
  end.
(* 42-50 destroy of a holder *)
Definition killHolder (s : hst) (h : nat) : hst :=
  match nth_error (hHold s) h with
  | Some o =>
      if hoInit o then
        let s1 := setHold s h (mkHo (hoSvc o) false (hoCl o)) in
        match hoCl o with
        | Some c => match nth_error (hClu s1) c with Some x => setClu s1 c (mkClu (cSvc x) (S (cDead x))) | None => s1 end
        | None => s1
        end
      else s
  | None => s
  end.
Definition hstep (s : hst) (o : hop) : option hst :=
  match o with
  | HCall svc => Some (mkHst (hKilling s) (hMap s) (hHold s) (hClu s) (hJobs s ++ [mkJob svc JStart]))
  | HStep j => match nth_error (hJobs s) j with Some x => jstep s j x | None => None end
  | HDestroy => (* 204-211 *)
      match hKilling s with
      | Some _ => None
      | None => Some (mkHst (Some (map snd (hMap s))) (hMap s) (hHold s) (hClu s) (hJobs s))
      end
  | HKill i =>
      match hKilling s with
      | Some l =>
          match nth_error l i with
          | Some h => let s1 := killHolder s h in
                      Some (mkHst (Some (firstn i l ++ skipn (S i) l)) (hMap s1) (hHold s1) (hClu s1) (hJobs s1))
          | None => None
          end
      | None => None
      end
  | HEnd => match hKilling s with Some [] => Some (mkHst None [] (hHold s) (hClu s) (hJobs s)) | _ => None end
  end.
Fixpoint hruns (s : hst) (os : list hop) : option hst :=
  match os with [] => Some s | o :: r => match hstep s o with Some s' => hruns s' r | None => None end end.
