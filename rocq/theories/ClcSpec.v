(* ClcSpec.v: what a client gets from its configuration, for C110. *)
From Verif Require Import Base Strconv GoStrings GoStrings2 UrlModel UrlSpec ConfModel CtxModel CtxSpec BootModel BootSpec ClcModel.

(* the configurations given to the calls of a history are maps: a name is there once *)
Definition section_of (conf : cmap) (k : string) : cmap :=
  match aget ckey_eqb conf (KStr (s2b k)) with Some (CMap m) => m | _ => [] end.
Definition a_map (m : cmap) : Prop := NoDup (map fst m).
Definition conf_map (conf : cmap) : Prop := forall k m, In (k, CMap m) conf -> a_map m /\ forall k' m', In (k', CMap m') m -> a_map m'.
Definition op_conf (o : cop) : option cmap := match o with CGet _ c => c | CNew c => Some c | _ => None end.
Definition maps (os : list cop) : Prop := forall o c, In o os -> op_conf o = Some c -> conf_map c.

(* how often a file is asked for until it was taken *)
Fixpoint tries (f : bs) (tr : list (cop * cout)) : nat :=
  match tr with
  | [] => 0
  | (CGet g _, x) :: r => if bs_eqb g f then match x with OCtx _ => 1 | _ => S (tries f r) end else tries f r
  | _ :: r => tries f r
  end.
(* the factory of the last Start of context [i] *)
Definition started (i : nat) (o : cop) : option fac :=
  match o with CStart j f => if Nat.eqb j i then Some (match f with None => FDefault | Some n => FGiven n end) else None | _ => None end.
Fixpoint last_start (i : nat) (tr : list (cop * cout)) : option fac :=
  match tr with
  | [] => None
  | (o, _) :: r => match last_start i r with Some f => Some f | None => started i o end
  end.
(* context [i] came of the configuration [conf] *)
Definition made_of (tr : list (cop * cout)) (i : nat) (conf : cmap) : Prop :=
  exists p o, nth_error tr p = Some (o, OCtx i) /\ op_conf o = Some conf /\ forall q o', q < p -> nth_error tr q <> Some (o', OCtx i).

(* what the configuration says of the service a client calls [k] *)
Definition refer_info (conf : cmap) (k : bs) : option cmap :=
  match aget ckey_eqb (section_of conf "motan-refer") (KStr k) with Some (CMap info) => Some info | _ => None end.
(* a value of a section as text *)
Definition said (e : envr) (m : cmap) (k : bs) : option bs := option_map (printed (eFloat e)) (aget ckey_eqb m (KStr k)).
Definition said_or (e : envr) (m : cmap) (k : bs) : bs := match said e m k with Some v => v | None => [] end.
(* the basic section it names, empty if it names none *)
Definition basic_info (e : envr) (conf info : cmap) : cmap :=
  match said_or e info (s2b "basicRefer") with
  | [] => []
  | n => match aget ckey_eqb (section_of conf "motan-basicRefer") (KStr n) with Some (CMap b) => b | _ => [] end
  end.
Definition modern (p : bs) : bs := if bs_eqb p (s2b "motanV1Compatible") then s2b "motan" else p.
(* the url of that service *)
Definition refer_is (e : envr) (calls : list bs) (conf : cmap) (k : bs) (info : cmap) (u : url) : Prop :=
  let b := basic_info e conf info in
  let agent := section_of conf "motan-agent" in
  let raw p := if bs_eqb p (s2b "conf-id") then Some k else match said e info p with Some v => Some v | None => said e b p end in
  uProtocol u = modern (first_of (text_field info "protocol") (text_field b "protocol")) /\
  uHost u = first_of (text_field info "host") (text_field b "host") /\
  uPort u = (if Z.eqb (int_field info "port") 0 then int_field b "port" else int_field info "port") /\
  uPath u = first_of (text_field info "path") (text_field b "path") /\
  uGroup u = first_of (text_field info "group") (text_field b "group") /\
  (forall p, ~ In p reserved -> p <> s2b "filter" -> param u p = raw p) /\
  (exists ag u0, (forall p, ~ In p reserved -> text ag p = said_or e agent p) /\
     (forall p, ~ In p reserved -> param u0 p = raw p) /\
     forall f, In f (names (text u (s2b "filter"))) <-> wanted (Some ag) (eFilters e) calls u0 f).

(* a section whose entries are all sections without entries the code cannot take *)
Definition plain (m : cmap) : Prop := forall k v, In (k, v) m -> ~ bad_entry k v.
Definition plain_sections (m : cmap) : Prop := forall k v, In (k, v) m -> exists n info, k = KStr n /\ v = CMap info /\ plain info.
(* a configuration a client can be made of *)
Definition client_ok (conf : cmap) : Prop :=
  (forall k, In k ["motan-registry"; "motan-basicRefer"; "motan-refer"; "motan-basicService"; "http-client"]%string -> plain_sections (section_of conf k)) /\
  (forall k, In k ["motan-agent"; "motan-client"; "motan-server"]%string -> plain (section_of conf k)) /\
  (forall k v, In (k, v) (section_of conf "switcher") -> exists n b, k = KStr n /\ v = CBool b) /\
  let sec := Some (section_of conf "motan-client") in
  conf_is is_str sec (s2b "log_dir") /\ conf_is is_str sec (s2b "log_level") /\ conf_is is_int sec (s2b "log_buffer_size") /\
  forall k, In k [s2b "log_async"; s2b "log_structured"; s2b "rotate_per_hour"; s2b "log_filter_caller"] -> conf_is is_bool sec k.

(* the value a configuration gives a switcher *)
Definition switches (conf : cmap) (n : bs) : option bool :=
  let a := section_of conf "switchers" in
  let b := section_of conf "switcher" in
  let second := match aget ckey_eqb b (KStr n) with Some (CBool v) => Some v | _ => None end in
  if forallb (fun kv : ckey * cval => match kv with (KStr _, CBool _) | (KStr _, CNil) => true | _ => false end) a then
    match aget ckey_eqb a (KStr n) with Some (CBool v) => Some v | Some CNil => Some false | _ => second end
  else second.

(* number of clusters a history makes: one for each refer at each Start *)
Fixpoint starts_of (refers : nat -> nat) (tr : list (cop * cout)) : nat :=
  match tr with
  | [] => 0
  | (CStart i _, _) :: r => refers i + starts_of refers r
  | _ :: r => starts_of refers r
  end.
