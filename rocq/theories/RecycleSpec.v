(* RecycleSpec.v: what the peers should get, for C75. *)
From Verif Require Import Base BytesModel ProtoModel ProtoSpec ConvModel RecycleModel.

(* every request is sent at most once (no retries) *)
Definition single (s : rst) : Prop := forall x, In x (rHnd s) -> hTries x <= 1.
(* sizes the frame can express *)
Definition small (m : message) : Prop :=
  (N.of_nat (length (meta_text (sent_meta m))) < 2 ^ 32)%N /\ (N.of_nat (length (mBody m)) < 2 ^ 32)%N.
(* the bytes are the frame of the message that was to be written *)
Definition right (w : wrote) : Prop := small (wWant w) -> wGot w = frame (wWant w).
(* the message that was to be written: to an endpoint, the client's request under another id and group; to a client, the answer, as a
   fresh message would hold it, with the id of the client's request *)
Definition whose (s : rst) (w : wrote) : Prop :=
  exists x, nth_error (rHnd s) (wHnd w) = Some x /\
    match wTo w with
    | Some _ => exists g sid, wWant w = forward (hCall x) g sid
    | None => exists a, wWant w = setRid (answerFill a clean) (hReqID (mHeader (hCall x)))
    end.
