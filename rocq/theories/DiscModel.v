(* DiscModel.v: model of the caches for a registry's services and groups (core/motan.go 34-43, 1101-1228).

   Atomic steps: a section under a lock that nobody else can look into, a load or store of an atomic value, a send to or a receive
   from refreshTaskPool.  A registry is its identity (GetURL().GetIdentity()).  The cached list of services is left out: only the map
   made from it is ever asked (1226-1235).  Times are in seconds, given by the steps and never go back; a cache that was never filled
   has the zero time, which is older than any limit (Sub saturates). *)
From Verif Require Import Base.

Definition maxAge : Z := 3600. (* 51-52 *)
Definition poolCap : nat := 100. (* 21 *)
Record info := mkInfo { iReg : bs; iGrp : bs; iTime : option Z; iMap : list bs }.
(* the worker of init (34-43) inside refreshServices (1180-1198) *)
Inductive work := WIdle | WQuery (i : nat) | WMap (i : nat) (l : list bs) | WTime (i : nat).
Record answered := mkAns { aReg : bs; aGrp : bs; aList : list bs; aTime : Z }.
Record dst := mkDst {
  dNow : Z;
  dKeys : list (bs * nat);   (* cachedInfos *)
  dInfo : list info;
  dQueue : list nat;         (* refreshTaskPool *)
  dWork : work;
  dLog : list answered }.    (* what the registries have answered, newest first *)
Definition dinit : dst := mkDst 0 [] [] [] WIdle [].

(* 1208 *)
Definition key (reg grp : bs) : bs := reg ++ s2b "_" ++ grp.
Definition stale (now : Z) (t : option Z) : bool := match t with None => true | Some u => (maxAge <=? now - u)%Z end.

Inductive dop :=
| DCreate (reg grp : bs) (res : option (list bs)) (now : Z)   (* 1210-1218: the key is new; the registry is asked *)
| DAsk (reg grp : bs) (now : Z)                               (* 1170-1177 *)
| DTake (now : Z)                                             (* the worker takes a task, 1181-1187 *)
| DAnswer (res : option (list bs)) (now : Z)                  (* 1188-1191 *)
| DMap (now : Z)                                              (* 1193-1197 *)
| DTime (now : Z).                                            (* 1198 *)
Definition opNow (o : dop) : Z := match o with DCreate _ _ _ n | DAsk _ _ n | DTake n | DAnswer _ n | DMap n | DTime n => n end.
Definition dstep1 (s : dst) (o : dop) : option dst :=
  match o with
  | DCreate reg grp res now =>
      match aget bs_eqb (dKeys s) (key reg grp) with
      | Some _ => None
      | None =>
          let i := match res with Some l => mkInfo reg grp (Some now) l | None => mkInfo reg grp None [] end in
          Some (mkDst now (aset bs_eqb (dKeys s) (key reg grp) (length (dInfo s))) (dInfo s ++ [i]) (dQueue s) (dWork s)
                      (match res with Some l => mkAns reg grp l now :: dLog s | None => dLog s end))
      end
  | DAsk reg grp now =>
      match aget bs_eqb (dKeys s) (key reg grp) with
      | Some k =>
          match nth_error (dInfo s) k with
          | Some i =>
              let q := if stale now (iTime i) && (length (dQueue s) <? poolCap)%nat then dQueue s ++ [k] else dQueue s in
              Some (mkDst now (dKeys s) (dInfo s) q (dWork s) (dLog s))
          | None => None
          end
      | None => None
      end
  | DTake now =>
      match dWork s, dQueue s with
      | WIdle, k :: q =>
          match nth_error (dInfo s) k with
          | Some i => Some (mkDst now (dKeys s) (dInfo s) q (if stale now (iTime i) then WQuery k else WIdle) (dLog s))
          | None => None
          end
      | _, _ => None
      end
  | DAnswer res now =>
      match dWork s with
      | WQuery k =>
          match res, nth_error (dInfo s) k with
          | None, _ => Some (mkDst now (dKeys s) (dInfo s) (dQueue s) WIdle (dLog s))
          | Some l, Some i => Some (mkDst now (dKeys s) (dInfo s) (dQueue s) (WMap k l) (mkAns (iReg i) (iGrp i) l now :: dLog s))
          | Some _, None => None
          end
      | _ => None
      end
  | DMap now =>
      match dWork s with
      | WMap k l =>
          match nth_error (dInfo s) k with
          | Some i => Some (mkDst now (dKeys s) (list_set (dInfo s) k (mkInfo (iReg i) (iGrp i) (iTime i) l)) (dQueue s) (WTime k) (dLog s))
          | None => None
          end
      | _ => None
      end
  | DTime now =>
      match dWork s with
      | WTime k =>
          match nth_error (dInfo s) k with
          | Some i => Some (mkDst now (dKeys s) (list_set (dInfo s) k (mkInfo (iReg i) (iGrp i) (Some now) (iMap i))) (dQueue s) WIdle (dLog s))
          | None => None
          end
      | _ => None
      end
  end.
Definition dstep (s : dst) (o : dop) : option dst := if (opNow o <? dNow s)%Z then None else dstep1 s o.
Fixpoint druns (s : dst) (os : list dop) : option dst :=
  match os with [] => Some s | o :: r => match dstep s o with Some s' => druns s' r | None => None end end.
(* 1226-1235 ServiceInGroup, for a key that is there *)
Definition inGroup (s : dst) (reg grp svc : bs) : option bool :=
  match aget bs_eqb (dKeys s) (key reg grp) with
  | Some k => match nth_error (dInfo s) k with Some i => Some (existsb (bs_eqb svc) (iMap i)) | None => None end
  | None => None
  end.

(* 1101-1147 the groups of one registry *)
Inductive gpc := GWait | GDone (l : list bs).
Record gst := mkGst { gNow : Z; gTime : option Z; gList : list bs; gAsks : list gpc; gLog : list (list bs * Z) }.
Definition ginit : gst := mkGst 0 None [] [] [].
Inductive gop := GAsk (now : Z) | GQuery (t : nat) (res : option (list bs)) (now : Z).
Definition old (now : Z) (t : option Z) : bool := match t with None => true | Some u => (maxAge <? now - u)%Z end. (* 1117: > *)
Definition gstep (s : gst) (o : gop) : option gst :=
  match o with
  | GAsk now =>
      if (now <? gNow s)%Z then None else
      Some (mkGst now (gTime s) (gList s) (gAsks s ++ [if old now (gTime s) then GWait else GDone (gList s)]) (gLog s))
  | GQuery t res now =>
      if (now <? gNow s)%Z then None else
      match nth_error (gAsks s) t with
      | Some GWait =>
          match res with
          | None => Some (mkGst now (gTime s) (gList s) (list_set (gAsks s) t (GDone (gList s))) (gLog s))
          | Some l => Some (mkGst now (Some now) l (list_set (gAsks s) t (GDone l)) ((l, now) :: gLog s))
          end
      | _ => None
      end
  end.
Fixpoint gruns (s : gst) (os : list gop) : option gst :=
  match os with [] => Some s | o :: r => match gstep s o with Some s' => gruns s' r | None => None end end.
