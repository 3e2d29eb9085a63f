(* GrpcModel.v: endpoint/grpcEndpoint.go: a call through a gRPC endpoint, and the same behind the agent. *)
From Verif Require Import Base BytesModel Strconv ProtoModel ConvModel SimpleModel UrlModel ServerModel ProvModel.

(* an argument as the endpoint tells them apart (54-61): a value still serialized, as the agent's server makes it
   (protocol/motanProtocol.go ConvertToRequest), bytes, or anything else *)
Inductive garg := GDes (body : bs) | GBytes (b : bs) | GOther.

(* strings.ToLower of an ASCII key; other keys are not modelled, gRPC refuses them *)
Definition lowerKey (k : bs) : bs := map (fun c => if ((65 <=? b2n c) && (b2n c <=? 90))%N then n2b (b2n c + 32) else c) k.

(* google.golang.org/grpc v1.15 metadata.New, called at 65: every value is appended under its key in lower case.  The list is the
   order in which Go visits the map *)
Fixpoint mdNew (m : list (bs * bs)) : list (bs * list bs) :=
  match m with
  | [] => []
  | (k, v) :: r => let md := mdNew r in
                   aset bs_eqb md (lowerKey k) (v :: match aget bs_eqb md (lowerKey k) with Some l => l | None => [] end)
  end.

(* what the gRPC library is asked to send, 67 with agentCodec.Marshal 110-114: the bytes as they are *)
Record invocation := mkInv { inv_path : bs; inv_md : list (bs * list bs); inv_payload : bs }.
(* what it answers: the bytes of the answer as they are (agentCodec.Unmarshal 116-121), or grpc.Code and grpc.ErrorDesc of an error *)
Inductive greply := GOk (out : bs) | GErr (code : Z) (desc : bs).

(* 16-18 *)
Definition GRPCSerialNum : N := 1.

(* 51-87 Call; HPanic: the index 0 of no arguments (54) *)
Definition grpcCall (invoke : invocation -> greply) (rid : N) (service meth : bs) (args : list garg) (attach : list (bs * bs)) : hret (mresponse value) :=
  match args with
  | [] => HPanic
  | GOther :: _ => HRes (excResponse rid (mkExc 500 (s2b "grpc argument must be []byte") 1))
  | GDes b :: _ | GBytes b :: _ =>
      let ctx := mkCtx false false 0 true (Z.of_N GRPCSerialNum) None in
      match invoke (mkInv (s2b "/" ++ service ++ s2b "/" ++ meth) (mdNew attach) b) with
      | GErr code desc => HRes (mkRes value rid None (Some (mkExc code desc code)) [] ctx)
      | GOk out => HRes (mkRes value rid (Some (VBytes out)) None [] ctx)
      end
  end.

(* cluster/motanCluster.go 68-72: a panic below the cluster becomes an exception *)
Definition guarded (rid : N) (h : hret (mresponse value)) : hret (mresponse value) :=
  match h with HPanic => HRes (excResponse rid (mkExc 500 (s2b "cluster call panic") 1)) | _ => h end.

(* core/motan.go 970-972, agent.go 839-841: the endpoint's address becomes an attachment of the answer.  After a panic (968) nothing
   was stored *)
Definition addressed (addr : bs) (h : hret (mresponse value)) : hret (mresponse value) :=
  match h with
  | HRes p => HRes (mkRes value (pID p) (pValue p) (pExc p) (if bs_empty addr then pAttach p else aset bs_eqb (pAttach p) (s2b "x-forwarded-for") addr) (pCtx p))
  | _ => h
  end.

(* the agent's handler (agent.go 828-843) for a request whose cluster has one gRPC endpoint and filters that pass everything on.  The
   request's only argument is its body, if it has one *)
Definition grpcHandler (invoke : invocation -> greply) (addr : bs) (rq : rrequest) : hret (mresponse value) :=
  guarded (rqID rq) (addressed addr (grpcCall invoke (rqID rq) (rqService rq) (rqMethod rq) (match rqBody rq with Some b => [GDes b] | None => [] end) (rqAttach rq))).

(* serialize/breeze.go 18-49: the breeze library writes a value behind what a buffer holds and reads one off its front; [None] is an
   error.  18-22 returns the bytes also with an error: the caller looks at the error first *)
Record breeze := mkBrz { bz_write : value -> option bs; bz_read : ptype -> bs -> option (value * bs) }.
(* 18-22 *)
Definition bzSerialize (B : breeze) (v : value) : option bs := bz_write B v.
(* 24-27 *)
Definition bzDeSerialize (B : breeze) (t : ptype) (b : bs) : option value := match bz_read B t b with Some (v, _) => Some v | None => None end.
(* 29-38 *)
Fixpoint bzSerializeMulti (B : breeze) (vs : list value) : option bs :=
  match vs with
  | [] => Some []
  | v :: r => match bz_write B v with
              | None => None
              | Some b => match bzSerializeMulti B r with Some rest => Some (b ++ rest) | None => None end
              end
  end.
(* 40-49 *)
Fixpoint bzDeSerializeMulti (B : breeze) (ts : list ptype) (b : bs) : option (list value) :=
  match ts with
  | [] => Some []
  | t :: r => match bz_read B t b with
              | None => None
              | Some (v, rest) => match bzDeSerializeMulti B r rest with Some vs => Some (v :: vs) | None => None end
              end
  end.
