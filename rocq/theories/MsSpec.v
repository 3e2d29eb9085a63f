(* MsSpec.v: what a server context does with its configuration, without servers, exporters or maps: which services are exported by
   one Start, where they are served and what the registries are told. *)
From Verif Require Import Base Strconv GoStrings GoStrings2 UrlModel UrlSpec ServerModel ServerSpec MsModel.
From Coq Require Import Permutation.

Definition text (u : url) (k : bs) : bs := match param u k with Some v => v | None => [] end.

(* "proto:port", "port" or nothing; anything else counts as nothing *)
Definition setting (u : url) : bs * bs :=
  match trimSplit (text u (s2b "export")) (s2b ":") with
  | [p] => (s2b "motan2", p)
  | [a; p] => (a, p)
  | _ => (s2b "motan2", s2b "9982")
  end.
(* the place a service shares with others: a unix socket named in proxy.host or unixSock, or else the port as it is written *)
Definition spot (u : url) : option (bs * Z) :=
  if hasPrefix (text u (s2b "proxy.host")) (s2b "unix://") then Some (text u (s2b "proxy.host"), 0%Z)
  else match text u (s2b "unixSock") with
       | [] => match parseInt64 (snd (setting u)) with (z, NumOk) => Some (snd (setting u), z) | _ => None end
       | v => Some (v, 0%Z)
       end.
Definition asked_provider (u : url) : bs :=
  match text u (s2b "provider"), text u (s2b "proxy") with
  | [], [] => s2b "default"
  | [], x => fst (fst (parseExportInfo x))
  | p, _ => p
  end.
(* the url as it is announced: C33_url says what exportUrl adds *)
Definition settled (V : menv) (u : url) : url :=
  mkUrl (fst (setting u)) (match uHost u with [] => v_ip V | h => h end) (match spot u with Some (_, z) => z | None => uPort u end) (uPath u) (uGroup u) (uParams u).
Definition announced (V : menv) (u : url) : url := exportUrl (v_x V) (settled V u).
Definition listens_at (V : menv) (u : url) : laddr :=
  match text u (s2b "unixSock") with
  | [] => Tcp (if bs_eqb (text u (s2b "nodeType")) (s2b "agent") then uHost (settled V u) else []) (uPort (settled V u))
  | v => Unix v
  end.

Section spec.
  Variables (V : menv) (lis : bs -> bool) (urls : list (bs * url)) (impls : list (bs * nat)).

  Definition impl_of (k : bs) : option nat :=
    match aget bs_eqb urls k with Some u => aget bs_eqb impls (text u (s2b "ref")) | None => None end.
  (* could be exported if nobody else was there: implemented, with a readable place, of known kinds *)
  Definition candidate (k : bs) : bool :=
    match aget bs_eqb urls k, impl_of k with
    | Some u, Some _ => match spot u with Some _ => v_prov V (asked_provider u) && v_srv V (fst (setting u)) | None => false end
    | _, _ => false
    end.
  Definition placed (k : bs) (a : bs) : bool :=
    match aget bs_eqb urls k with Some u => match spot u with Some (b, _) => bs_eqb a b | None => false end | None => false end.
  (* the first one at a place opens the server *)
  Definition holder (ord : list bs) (a : bs) : option bs := find (fun k => candidate k && placed k a) ord.
  (* same protocol and same serialization *)
  Definition agree (k h : bs) : bool :=
    match aget bs_eqb urls k, aget bs_eqb urls h with
    | Some u, Some w => bs_eqb (fst (setting u)) (fst (setting w)) && bs_eqb (text u (s2b "serialization")) (text (announced V w) (s2b "serialization"))
    | _, _ => false
    end.
  Definition place_of (k : bs) : option bs :=
    match aget bs_eqb urls k with Some u => option_map fst (spot u) | None => None end.
  Definition opens (ord : list bs) (k : bs) : bool :=
    match place_of k with Some a => match holder ord a with Some h => bs_eqb k h | None => false end | None => false end.
  Definition joins (ord : list bs) (k : bs) : bool :=
    match place_of k with Some a => match holder ord a with Some h => negb (bs_eqb k h) && candidate k && lis h && agree k h | None => false end | None => false end.
  Definition exported (ord : list bs) (k : bs) : bool := opens ord k || joins ord k.

  Definition registrations (k : bs) : list mev :=
    match aget bs_eqb urls k with
    | Some u => match configured (v_x V) (announced V u) with
                | Some rs => map (fun r => Register (v_rid V r) (announced V u)) rs
                | None => []
                end
    | None => []
    end.
  Definition listening (k : bs) : list mev := match aget bs_eqb urls k with Some u => [Listen (listens_at V u) (lis k)] | None => [] end.
  Definition path_is (k p : bs) : bool := match aget bs_eqb urls k with Some u => bs_eqb p (uPath u) | None => false end.
  (* who answers for a path at a place: the last one exported there with that path *)
  Definition serving (ord : list bs) (a p : bs) : option (bs * nat) :=
    match find (fun k => exported ord k && placed k a && path_is k p && match holder ord a with Some h => lis h | None => false end) (rev ord) with
    | Some k => option_map (fun i => (k, i)) (impl_of k)
    | None => None
    end.
End spec.

Definition is_register (e : mev) : bool := match e with Register _ _ => true | _ => false end.
Definition is_listen (e : mev) : bool := match e with Listen _ _ => true | _ => false end.

(* a history of RegisterService calls *)
Definition loaded (urls : list (bs * url)) (calls : list (marg * bs)) : mst :=
  fold_left (fun s c => fst (registerService s (fst c) (snd c))) calls (minit urls).
Definition configured_ref (urls : list (bs * url)) (ref : bs) : Prop :=
  exists k u, In (k, u) urls /\ uParams u <> None /\ text u (s2b "ref") = ref.
Definition call_name (sid type : bs) : bs := match sid with [] => type | _ => sid end.
(* the implementation given last under a name *)
Fixpoint last_given (calls : list (marg * bs)) (ref : bs) (acc : option nat) : option nat :=
  match calls with
  | [] => acc
  | (APtr im type, sid) :: r => last_given r ref (if bs_eqb (call_name sid type) ref then Some im else acc)
  | _ :: r => last_given r ref acc
  end.

(* a configuration all of whose services can be exported together *)
Definition fits (V : menv) (lis : bs -> bool) (urls : list (bs * url)) (impls : list (bs * nat)) : Prop :=
  (forall k u, aget bs_eqb urls k = Some u -> candidate V urls impls k = true /\ lis k = true) /\
  (forall k1 k2 u1 u2 a b z y, aget bs_eqb urls k1 = Some u1 -> aget bs_eqb urls k2 = Some u2 -> k1 <> k2 ->
     spot u1 = Some (a, z) -> spot u2 = Some (b, y) -> a = b ->
     fst (setting u1) = fst (setting u2) /\ text u1 (s2b "serialization") = text (announced V u2) (s2b "serialization") /\ uPath u1 <> uPath u2).
