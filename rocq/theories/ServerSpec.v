(* ServerSpec.v: vocabulary for the statements about the server, its message handlers and its exporter. *)
From Verif Require Import Base BytesModel BytesSpec Strconv GoStrings GoStrings2 ProtoModel ProtoSpec ConvModel ConvSpec V1Model V1Spec
  UrlModel UrlSpec ServerModel.
Set Implicit Arguments.

(* ------------------------------------------------------------ answers *)

(* serializations have numbers that fit the header *)
Definition numbers_ok {A} (c : scfg A) : Prop := forall n s, s_ser c n = Some s -> (0 <= s_num s <= 31)%Z.

(* a response as handlers build them: attachments are a map, the serialization number fits, and a message forwarded
   from a backend is a motan2 response whose metadata is a map *)
Definition response_ok {A} (p : mresponse A) : Prop :=
  NoDup (akeys (pAttach p)) /\ (0 <= cSerNum (pCtx p) <= 31)%Z /\
  forall o, cOriginal (pCtx p) = Some o -> GetVersion (mHeader o) = 1%N /\ isRequest (mHeader o) = false /\ NoDup (akeys (mMeta o)).

(* the peer reads exactly one motan2 response with this id out of the bytes *)
Definition motan2_answer (max : N) (rid : N) (b : bs) : Prop :=
  exists m, decodeMsg max b = DecOk m [] /\ hReqID (mHeader m) = rid /\ isRequest (mHeader m) = false.
(* the peer reads exactly one motan1 message with this id out of the bytes *)
Definition motan1_answer (max : N) (rid : N) (b : bs) : Prop :=
  exists m, readV1 max b = ROkV1 m [] /\ vRid m = rid.

(* an exception 500 saying [msg] *)
Definition exc_answer (X : ext) (m : message) (msg : bs) : Prop :=
  GetStatus (mHeader m) = 1%N /\ mBody m = [] /\ mMeta m = [(MException, x_toJSON X (mkExc 500 msg 1))].

(* motan1: the response keeps the id of its request and forwards a frame, or an exception that fits *)
Definition v1_response_ok (max : N) (rid : N) (r : v1resp) : Prop :=
  w_id r = rid /\
  match w_orig r with
  | Some m => exists tag ver flag i stream, v1_frame_ok max tag i stream /\ vOrigin m = v1_frame tag ver flag i stream
  | None => match w_exc r with
            | Some e => let msg := s2b "build v1 exception res. org err:" ++ eMsg e in
                        (N.of_nat (length msg) < 65536)%N /\ (N.of_nat (length (exception_stream msg)) + 16 <= max)%N
            | None => False
            end
  end.

(* ------------------------------------------------------------ a connection *)

(* what a peer sends: motan2 messages and motan1 frames *)
Inductive sent_item := S2 (m : message) | S1 (tag : bs) (ver flag : byte) (rid : N) (stream : bs).
Definition item_bytes (x : sent_item) : bs :=
  match x with S2 m => frame m | S1 tag ver flag rid stream => v1_frame tag ver flag rid stream end.
(* the first four bytes of a motan1 frame carry the magic number and version 0 *)
Definition item_ok (max : N) (x : sent_item) : Prop :=
  match x with
  | S2 m => sendable max m
  | S1 tag ver flag rid stream => v1_frame_ok max tag rid stream /\ exists a b, tag = [xf1; xf1; a; b] /\ (b2n b < 8)%N
  end.
Definition item_job (x : sent_item) : job :=
  match x with
  | S2 m => J2 (received m)
  | S1 tag ver flag rid stream => J1 (mkV1 (v1_frame tag ver flag rid stream) ver flag rid (N.of_nat (length stream)))
  end.
Definition job_id (j : job) : N := match j with J2 m => hReqID (mHeader m) | J1 m => vRid m end.

(* the bytes that arrived during a run *)
Fixpoint arrived {A} (ops : list (cop A)) : bs :=
  match ops with
  | [] => []
  | Arrive b :: r => b ++ arrived r
  | _ :: r => arrived r
  end.

(* the handlers of a run behave: responses as above, answers below the peer's size limit *)
Definition op_ok {A} (c : scfg A) (ip : bs) (peermax : N) (o : cop A) : Prop :=
  match o with
  | EndJob _ pt h2 h1 =>
      (forall q p, h2 q = HRes p -> response_ok p) /\
      (forall m r, processV2 c ip pt h2 m = Write r -> sizes_ok peermax r) /\
      (forall q r, h1 q = HRes r -> v1_response_ok peermax (i_id q) r \/ encodeV1Resp r = None)
  | _ => True
  end.

Definition is_answer (peermax : N) (j : job) (b : bs) : Prop :=
  match j with
  | J2 m => motan2_answer peermax (hReqID (mHeader m)) b
  | J1 m => motan1_answer peermax (vRid m) b
  end.

(* ------------------------------------------------------------ provider tables *)

(* [p] was added for its service, and since then neither was another provider added for it nor [p] removed *)
Definition serves (l : list pop) (service : bs) (p : provider) : Prop :=
  v_path p = service /\
  exists l1 l2, l = l1 ++ AddP p :: l2 /\
    (forall q, In (AddP q) l2 -> v_path q <> service) /\ (forall q, In (RmP q) l2 -> v_id q <> v_id p).
(* provider objects: an identity determines the object *)
Definition objects_ok (l : list pop) : Prop :=
  forall o1 o2 p q, In o1 l -> In o2 l -> (o1 = AddP p \/ o1 = RmP p) -> (o2 = AddP q \/ o2 = RmP q) -> v_id p = v_id q -> p = q.

(* the agent: one provider per group and service; removal is by group and service *)
Definition servesA (l : list pop) (group service : bs) (p : provider) : Prop :=
  v_group p = group /\ v_path p = service /\
  exists l1 l2, l = l1 ++ AddP p :: l2 /\
    (forall o q, In o l2 -> (o = AddP q \/ o = RmP q) -> ~ (v_group q = group /\ v_path q = service)).
(* the group a request is for: its motan2 attachment, else the motan1 one *)
Definition asked_group (q : dreq) : bs :=
  match aget bs_eqb (d_attach q) (s2b "M_g") with
  | Some (c :: g) => c :: g
  | _ => match aget bs_eqb (d_attach q) (s2b "group") with Some g => g | None => [] end
  end.
Definition plain_groups (l : list pop) : Prop :=
  forall o p, In o l -> (o = AddP p \/ o = RmP p) -> ~ In x5f (v_group p).

Definition wants_framework (q : dreq) : Prop := exists v, aget bs_eqb (d_attach q) (s2b "M_fws") = Some v /\ v <> [].

(* ------------------------------------------------------------ exporting *)

(* the registries named in the url's registry list that are known and have an extension, in order *)
Definition configured (X : xenv) (u : url) : option (list nat) :=
  match param u (s2b "registry") with
  | None => None
  | Some names => Some (flat_map (fun r => match x_regs X r with Some (Some n) => [n] | _ => [] end)
                          (filter nonblank (map trimSpace (splitStr (s2b ",") names))))
  end.
(* an export that took effect: its environment, the url given to the registries *)
Record episode := mkEpis { n_env : xenv; n_url : url; n_regs : list nat }.
Definition episode_ok (x : episode) : Prop :=
  configured (n_env x) (n_url x) = Some (n_regs x) /\ param (n_url x) (s2b "nodeType") = Some (s2b "service").
Definition opening (x : episode) : list rcall := map (fun r => Reg r (n_url x)) (n_regs x).
Definition closing (x : episode) : list rcall := map (fun r => UnReg r (n_url x)) (n_regs x) ++ [RmProv].

(* how often a registry was told to register and to unregister *)
Fixpoint regs_of (r : nat) (l : list rcall) : nat :=
  match l with [] => 0 | Reg r' _ :: t => (if Nat.eqb r r' then 1 else 0) + regs_of r t | _ :: t => regs_of r t end.
Fixpoint unregs_of (r : nat) (l : list rcall) : nat :=
  match l with [] => 0 | UnReg r' _ :: t => (if Nat.eqb r r' then 1 else 0) + unregs_of r t | _ :: t => unregs_of r t end.

(* ------------------------------------------------------------ responses the server cannot put on the wire *)

(* no serialization is known for the request, or the value cannot be serialized with it *)
Definition unsendable {A} (asBytes : A -> option bs) (ser : option (serialization A)) (p : mresponse A) : Prop :=
  match pExc p with
  | None => (cSerialized (pCtx p) = false /\ ser = None) \/
            exists v, pValue p = Some v /\ forall b, ~ res_bytes asBytes ser (pCtx p) v b
  | Some _ => ser = None \/ pValue p <> None
  end.

(* ------------------------------------------------------------ what a motan1 handler is given *)
(* the value of a key, the empty string if there is none *)
Definition att_value (m : list (bs * bs)) (k : bs) : bs := match aget bs_eqb m k with Some v => v | None => [] end.
(* the motan2 name's own value, else that of the motan1 name *)
Definition own_or (m : list (bs * bs)) (k k1 : bs) : bs := match att_value m k with [] => att_value m k1 | x :: v => x :: v end.
Definition motan1_seen (m : list (bs * bs)) (ip k : bs) : bs :=
  if bs_eqb k (s2b "host") then ip
  else if bs_eqb k (s2b "M_g") then own_or m (s2b "M_g") (s2b "group")
  else if bs_eqb k (s2b "M_v") then own_or m (s2b "M_v") (s2b "version")
  else if bs_eqb k (s2b "M_s") then own_or m (s2b "M_s") (s2b "application")
  else att_value m k.
