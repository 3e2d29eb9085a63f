(* ConvSpec.v: vocabulary for the statements about request and response conversion. *)
From Verif Require Import Base BytesModel Strconv ProtoModel ProtoSpec ConvModel.

(* gzip is lossless and never produces an empty file *)
Definition gzip_lossless (X : ext) : Prop :=
  forall b z, x_gz X b = Some z -> z <> [] /\ x_ungz X z = Some b.
(* JSON of exception e can be parsed back, is non-empty and has no raw newline (encoding/json escapes them) *)
Definition json_lossless (X : ext) (e : exc) : Prop :=
  x_ofJSON X (x_toJSON X e) = Some (Some e) /\ x_toJSON X e <> [] /\ ~ In newline (x_toJSON X e).

Definition one_line (s : bs) : Prop := ~ In newline s.

(* keys the request conversion itself writes *)
Definition req_reserved : list bs := [s2b "M_p"; s2b "M_m"; s2b "M_pp"; s2b "M_md"].

(* the bytes the arguments of a request are sent as *)
Definition args_bytes {A} (asBytes : A -> option bs) (ser : option (serialization A)) (q : mrequest A) (b : bs) : Prop :=
  (qArgs q = [] /\ b = []) \/
  (qArgs q <> [] /\ cSerialized (qCtx q) = false /\ exists s, ser = Some s /\ s_multi s (qArgs q) = Some b) \/
  (cSerialized (qCtx q) = true /\ exists a, qArgs q = [a] /\ asBytes a = Some b).
(* the serialization number announced *)
Definition num_sent {A} (ser : option (serialization A)) (c : rpcctx) (n : Z) : Prop :=
  (cSerialized c = true /\ n = cSerNum c) \/ (cSerialized c = false /\ exists s, ser = Some s /\ n = s_num s).

(* the bytes the value of a response is sent as *)
Definition res_bytes {A} (asBytes : A -> option bs) (ser : option (serialization A)) (c : rpcctx) (v : A) (b : bs) : Prop :=
  (cSerialized c = true /\ asBytes v = Some b) \/
  (cSerialized c = false /\ exists s, ser = Some s /\ s_one s v = Some b).

(* the sizes respect the receiver's limit, itself below 4 GiB *)
Definition sizes_ok (max : N) (m : message) : Prop :=
  (N.of_nat (length (meta_text (sent_meta m))) <= max)%N /\ (N.of_nat (length (mBody m)) <= max)%N /\ (max < 2 ^ 32)%N.

(* [b] is what the (possibly compressed) body of [m] stands for *)
Definition plain_body (X : ext) (m : message) (b : bs) : Prop :=
  (IsGzip (mHeader m) = false /\ mBody m = b) \/
  (IsGzip (mHeader m) = true /\ mBody m <> [] /\ x_ungz X (mBody m) = Some b).
