(* MetaModel.v: model of meta/meta.go: meta values from the environment, dynamic meta values and the cache of other servers' meta.

   The caches are patrickmn/go-cache maps: an item is found until its expiration time has passed; the janitor only removes items that
   are not found any more and is left out.  Times are in seconds and never go back. *)
From Verif Require Import Base GoStrings GoStrings2.

Definition meta := list (bs * bs).
Definition defaultPrefix : bs := s2b "META_".
(* 61-66: one variable of the environment.  A variable without "=" would panic; os.Environ has none *)
Definition envOne (prefix : bs) (m : meta) (env : bs) : meta :=
  if hasPrefix env prefix then
    match splitStr (s2b "=") env with
    | k :: v :: _ => aset bs_eqb m k v
    | _ => m
    end
  else m.
Definition envMeta (prefix : bs) (envs : list bs) : meta := fold_left (envOne prefix) envs [].
(* 74-80 *)
Inductive dynop := MPut (k v : bs) | MDel (k : bs).
Definition dynStep (m : meta) (o : dynop) : meta := match o with MPut k v => aset bs_eqb m k v | MDel k => adel bs_eqb m k end.
Definition dynMeta (os : list dynop) : meta := fold_left dynStep os [].
(* 86-95; the order in which the maps are visited does not matter, their keys are distinct *)
Definition putAll (src dst : meta) : meta := fold_left (fun m kv => aset bs_eqb m (fst kv) (snd kv)) src dst.
Definition merged (env dyn : meta) : meta := putAll dyn (putAll env []).
(* 97-107 *)
Definition metaValue (prefix : bs) (m : meta) (suffix : bs) : bs :=
  match aget bs_eqb m (prefix ++ suffix) with
  | Some v => v
  | None => match aget bs_eqb m (defaultPrefix ++ suffix) with Some v => v | None => [] end
  end.
(* 124-135 *)
Definition staticMeta (prefix : bs) (params : meta) : meta :=
  fold_left (fun m kv => if hasPrefix (fst kv) defaultPrefix || hasPrefix (fst kv) prefix then aset bs_eqb m (fst kv) (snd kv) else m) params [].

(* an endpoint: the key of its address (179-181: host:port) and what isSupport looks at (183-192) *)
Record mep := mkMep { eKey : bs; eDyn : bool; eSer : bs; eProto : bs }.
Definition supports (e : mep) : bool :=
  eDyn e && negb (existsb (bs_eqb (eSer e)) [s2b "protobuf"; s2b "grpc-pb"; s2b "grpc-pb-json"]) && bs_eqb (eProto e) (s2b "motan2").
(* what the call of the meta service gives (145-166): the error "service not support", another error (also: not decodable), a map (or the
   empty map for anything else) *)
Inductive mcall := CNot | CErr | CMap (m : meta).
Inductive mout := OMeta (m : meta) | ONot | OErr.
(* 109-120, 137-167: one ask *)
Inductive mpc := PSup | PCall | PWait | PSet (m : meta) | PDone (o : mout).
Record mask := mkMask { kEp : mep; kPc : mpc }.
Inductive mev := VCall (e : mep) (t : Z) | VAns (key : bs) (m : meta) (t : Z) | VSet (key : bs) (m : meta) (t : Z) | VNot (key : bs) (t : Z).
Record mst := mkMst {
  mNow : Z;
  mCache : list (bs * (meta * Z));   (* metaCache: value and expiration *)
  mNot : list (bs * Z);              (* notSupportCache *)
  mAsks : list mask;
  mLog : list mev }.                 (* what happened, newest first *)
Definition minit : mst := mkMst 0 [] [] [] [].
Definition notAge : Z := 30.
Inductive mop :=
| KAsk (e : mep) (now : Z)                    (* 110-113 *)
| KSup (t : nat) (now : Z)                    (* 138-140, 183-192 *)
| KCall (t : nat) (avail : bool) (now : Z)    (* 141-144 *)
| KAns (t : nat) (r : mcall) (now : Z)        (* 144-166 *)
| KSet (t : nat) (now : Z)                    (* 118 *)
| KClear (now : Z).                           (* 199-202 *)
Definition kNow (o : mop) : Z := match o with KAsk _ n | KSup _ n | KCall _ _ n | KAns _ _ n | KSet _ n | KClear n => n end.
Definition fresh (now exp : Z) : bool := negb (exp <? now)%Z.
Definition kstep1 (age : Z) (s : mst) (o : mop) : option mst :=
  let next t (a : mask) p := list_set (mAsks s) t (mkMask (kEp a) p) in
  match o with
  | KAsk e now =>
      let p := match aget bs_eqb (mCache s) (eKey e) with
               | Some (m, exp) => if fresh now exp then PDone (OMeta m) else PSup
               | None => PSup
               end in
      Some (mkMst now (mCache s) (mNot s) (mAsks s ++ [mkMask e p]) (mLog s))
  | KSup t now =>
      match nth_error (mAsks s) t with
      | Some a =>
          match kPc a with
          | PSup =>
              if match aget bs_eqb (mNot s) (eKey (kEp a)) with Some exp => fresh now exp | None => false end
              then Some (mkMst now (mCache s) (mNot s) (next t a (PDone ONot)) (mLog s))
              else if supports (kEp a) then Some (mkMst now (mCache s) (mNot s) (next t a PCall) (mLog s))
              else Some (mkMst now (mCache s) (aset bs_eqb (mNot s) (eKey (kEp a)) (now + notAge)%Z) (next t a (PDone ONot)) (VNot (eKey (kEp a)) now :: mLog s))
          | _ => None
          end
      | None => None
      end
  | KCall t avail now =>
      match nth_error (mAsks s) t with
      | Some a =>
          match kPc a with
          | PCall => if avail then Some (mkMst now (mCache s) (mNot s) (next t a PWait) (VCall (kEp a) now :: mLog s))
                     else Some (mkMst now (mCache s) (mNot s) (next t a (PDone OErr)) (mLog s))
          | _ => None
          end
      | None => None
      end
  | KAns t r now =>
      match nth_error (mAsks s) t with
      | Some a =>
          match kPc a with
          | PWait =>
              match r with
              | CNot => Some (mkMst now (mCache s) (aset bs_eqb (mNot s) (eKey (kEp a)) (now + notAge)%Z) (next t a (PDone ONot)) (VNot (eKey (kEp a)) now :: mLog s))
              | CErr => Some (mkMst now (mCache s) (mNot s) (next t a (PDone OErr)) (mLog s))
              | CMap m => Some (mkMst now (mCache s) (mNot s) (next t a (PSet m)) (VAns (eKey (kEp a)) m now :: mLog s))
              end
          | _ => None
          end
      | None => None
      end
  | KSet t now =>
      match nth_error (mAsks s) t with
      | Some a =>
          match kPc a with
          | PSet m => Some (mkMst now (aset bs_eqb (mCache s) (eKey (kEp a)) (m, now + age)%Z) (mNot s) (next t a (PDone (OMeta m))) (VSet (eKey (kEp a)) m now :: mLog s))
          | _ => None
          end
      | None => None
      end
  | KClear now => Some (mkMst now [] [] (mAsks s) (mLog s))
  end.
Definition kstep (age : Z) (s : mst) (o : mop) : option mst := if (kNow o <? mNow s)%Z then None else kstep1 age s o.
Fixpoint kruns (age : Z) (s : mst) (os : list mop) : option mst :=
  match os with [] => Some s | o :: r => match kstep age s o with Some s' => kruns age s' r | None => None end end.
