(* ZkSpec.v: what the registry should hold, for C46; what discovery should answer, for C74. *)
From Verif Require Import Base Strconv GoStrings GoStrings2 UrlModel UrlSpec ZkModel.

(* the wish of the callers: which services are registered, and which of them were last made available; and whether all services
   were ever made available by one call *)
Record wish := mkWish { wReg : list (bs * (url * bool)); wAll : bool }.
Definition wnone : wish := mkWish [] false.
Definition set_all (b : bool) (l : list (bs * (url * bool))) : list (bs * (url * bool)) := map (fun e => (fst e, (fst (snd e), b))) l.
(* calls made while the registry says it is not available are dropped *)
Definition wstep (connected : bool) (w : wish) (o : zop) : wish :=
  if connected then
    match o with
    | ZRegister u => match aget bs_eqb (wReg w) (ident u) with Some _ => w | None => mkWish (aset bs_eqb (wReg w) (ident u) (u, false)) (wAll w) end
    | ZUnRegister u => mkWish (adel bs_eqb (wReg w) (ident u)) (wAll w)
    | ZAvailable (Some u) => mkWish (aset bs_eqb (wReg w) (ident u) (u, true)) (wAll w)
    | ZAvailable None => mkWish (set_all true (wReg w)) true
    | ZUnavailable (Some u) => mkWish (aset bs_eqb (wReg w) (ident u) (u, false)) (wAll w)
    | ZUnavailable None => mkWish (set_all false (wReg w)) (wAll w)
    | _ => w
    end
  else w.

(* a URL of which the node tells the service and the address *)
Definition plain (u : url) : Prop := ~ In x2f (uGroup u) /\ ~ In x2f (addr u) /\ isAgent u = false.
Definition same_place (u v : url) : Prop := uGroup u = uGroup v /\ uPath u = uPath v /\ addr u = addr v.

(* calls that the claim is proved for:
   services with different identities have different places;
   availability is set of registered services;
   a service is unregistered only after it was made unavailable, and while the connection is up;
   when a session is recovered, all services are available or availability was never set for all services by one call *)
Definition orderly (s : zst) (w : wish) (o : zop) : Prop :=
  match o with
  | ZRegister u => plain u /\ forall k v b, aget bs_eqb (wReg w) k = Some (v, b) -> same_place u v -> ident u = k
  | ZUnRegister u => zUp s = true /\ (aget bs_eqb (wReg w) (ident u) = None \/ aget bs_eqb (wReg w) (ident u) = Some (u, false))
  | ZAvailable (Some u) | ZUnavailable (Some u) => exists b, aget bs_eqb (wReg w) (ident u) = Some (u, b)
  | ZHandle => wAll w = false \/ forall k v b, aget bs_eqb (wReg w) k = Some (v, b) -> b = true
  | _ => True
  end.
Inductive follows : zst -> wish -> list zop -> zst -> wish -> Prop :=
| fo_nil s w : follows s w [] s w
| fo_cons s w o s1 os s2 w2 : zstep s o = Some s1 -> orderly s w o -> follows s1 (wstep (zFlag s) w o) os s2 w2 -> follows s w (o :: os) s2 w2.

(* where the node of a service is *)
Definition node_at (kind : bs) (u : url) : bs := s2b "/motan/" ++ uGroup u ++ s2b "/" ++ uPath u ++ s2b "/" ++ kind ++ s2b "/" ++ addr u.
(* this session's node *)
Definition mine (s : zst) (p : bs) (d : bs) : Prop := aget bs_eqb (zTree s) p = Some (true, d).
(* connected, with nothing left to recover *)
Definition settled (s : zst) : Prop := zUp s = true /\ zQueue s = [].

(* ---- C74 *)
(* an address of the direct registry: host and port, or a socket *)
Definition host_port (a h : bs) (p : Z) : Prop :=
  ~ (exists t, a = s2b "unix://" ++ t) /\ exists ps, trimSplit a (s2b ":") = [h; ps] /\ parseInt64 ps = (p, NumOk).
Definition socket (a : bs) : Prop := exists t, a = s2b "unix://" ++ t.
(* text that the stream header of the Java clients cannot be confused with *)
Definition not_java (d : bs) : Prop := forall r, d <> xac :: xed :: r.
(* the addresses of a comma separated list that are well formed, in order *)
Inductive addresses : list bs -> list (bs * Z) -> Prop :=
| ad_nil : addresses [] []
| ad_host a h p l r : host_port a h p -> addresses l r -> addresses (a :: l) ((h, p) :: r)
| ad_sock a l r : socket a -> addresses l r -> addresses (a :: l) ((a, 0%Z) :: r)
| ad_bad a l r : (forall h p, ~ host_port a h p) -> ~ socket a -> addresses l r -> addresses (a :: l) r.
(* [v] is the service of [u], of the group of the registry if it has one, at this address *)
Definition copy_at (reg u v : url) (hp : bs * Z) : Prop :=
  uHost v = fst hp /\ uPort v = snd hp /\ uProtocol v = uProtocol u /\ uPath v = uPath u /\ (forall k, param v k = param u k) /\
  uGroup v = (if bs_eqb (uGroup reg) [] then uGroup u else uGroup reg).
(* a node written by this library *)
Definition written_by (c : bs * option bs) (u : url) : Prop := snd c = Some (ext_info u).
Definition has_address (u : url) : Prop := uPort u <> 0%Z \/ uHost u <> [].
