(* RevSpec.v: what C87 says, apart from the model's helpers. *)
From Verif Require Import Base GoStrings Strconv ProtoModel ConvModel UrlModel UrlSpec RevModel.

(* the parameters of the backend's url: the service's, with two defaults *)
Definition backend_param (u : url) (k : bs) : option bs :=
  if bs_eqb k (s2b "connectRetryInterval") then Some (str_or u k (s2b "5000"))
  else if bs_eqb k (s2b "errorCountThreshold") then Some (str_or u k (s2b "0"))
  else param u k.
Definition backend (u : url) (protocol : bs) (port : Z) (e : url) : Prop :=
  uProtocol e = protocol /\ uHost e = str_or u (s2b "proxy.host") (s2b "127.0.0.1") /\ uPort e = port /\
  uPath e = uPath u /\ uGroup e = uGroup u /\ forall k, param e k = backend_param u k.

Definition is_set (att : list (bs * bs)) (k : bs) : Prop := exists v, aget bs_eqb att k = Some v /\ v <> [].
Definition value_or_empty (att : list (bs * bs)) (k : bs) : bs := match aget bs_eqb att k with Some v => v | None => [] end.

(* the provider last registered for a service *)
Fixpoint last_reg (l : list lop) (service : bs) : option nat :=
  match l with
  | [] => None
  | LRegister sv p :: r => match last_reg r service with Some q => Some q | None => if bs_eqb service sv then Some p else None end
  | LRefer _ :: r => last_reg r service
  end.
Definition refers (l : list lop) : list url := flat_map (fun o => match o with LRefer u => [u] | _ => [] end) l.
