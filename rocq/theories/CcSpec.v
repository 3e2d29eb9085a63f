(* CcSpec.v: what callers who share a connection may rely on. *)
From Verif Require Import Base BytesModel Strconv ProtoModel ProtoSpec ConvModel ConvSpec SimpleModel SimpleSpec ServerModel ServerSpec ProvModel ProvSpec CcModel.
From Verif Require StreamModel StreamSpec.

(* what an int64 holds *)
Definition int64 (z : Z) : Prop := (- 2 ^ 63 <= z < 2 ^ 63)%Z.

(* a started call gets a stream number no earlier call got (C13); the time a handler took is an int64 of milliseconds *)
Definition klegal (s : cc) (o : kop) : Prop :=
  match o with
  | KCall (StreamModel.OStart _ _ _ _ sid _ as o) => StreamSpec.legal (cc_st s) o /\ (sid < 2 ^ 64)%N
  | KEnd _ pt => int64 pt
  | _ => True
  end.
Inductive kreach (W : world) : cc -> Prop :=
| kreach0 : kreach W cc0
| kreachS s o s' : kreach W s -> klegal s o -> kstep W s o = Some s' -> kreach W s'.

(* the two sides fit together, the requests are ordinary ones with arguments that can be sent, and neither requests nor answers are
   larger than accepted; framework providers answer with proper responses *)
Definition world_ok (W : world) : Prop :=
  plain_server (w_c W) (w_g W) /\
  (forall i, ordinary (w_req W i) /\ args_ok (qArgs (w_req W i))) /\
  (forall i pt sid, int64 pt -> (sid < 2 ^ 64)%N -> sizes_fit (w_c W) (w_g W) (w_ip W) pt sid (w_req W i)) /\
  (c_max (w_c W) < 2 ^ 32)%N /\ (s_max (g_cfg (w_g W)) < 2 ^ 32)%N /\
  (forall q p, g_fw (w_g W) q = HRes p -> response_ok p).

(* histories in which neither pool refuses a message (a refused message is dropped without an answer, see C31) *)
Definition accepted (o : kop) : Prop := match o with KRead acc | KRecv acc => acc = true | _ => True end.
Inductive kaccepted (W : world) : cc -> Prop :=
| kaccepted0 : kaccepted W cc0
| kacceptedS s o s' : kaccepted W s -> klegal s o -> accepted o -> kstep W s o = Some s' -> kaccepted W s'.

(* the server has not closed the connection, nothing is on its way, every message has been handled on both sides *)
Definition settled_down (s : cc) : Prop :=
  k_closed (cc_srv s) = false /\ cc_up s = [] /\ k_in (cc_srv s) = [] /\ Forall (fun j => snd j = Finished) (k_jobs (cc_srv s)) /\
  cc_down s = [] /\ cc_in s = [] /\ StreamSpec.noHandlerBusy (cc_st s).
