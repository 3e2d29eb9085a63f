(* FoSpec.v: vocabulary of C119. *)
From Verif Require Import Base BytesModel BytesSpec Strconv ProtoModel ProtoSpec ConvModel ConvSpec SimpleModel SimpleSpec UrlModel UrlSpec
  ServerModel ServerSpec ProvModel ProvSpec FoModel.
From Verif Require HaModel HaSpec.

(* the number of attempts a call may make after the first one *)
Definition retries (u : url) (q : mrequest value) : nat := Z.to_nat (HaSpec.retries_for u (qMethod q) (qDesc q)).

(* the attempt gave something another attempt may follow: an exception that is not a business exception *)
Definition unsuccessful (a : answer) : Prop := exists e, a = Failed e /\ eType e <> 2%Z.

(* how often the method's server wrote an answer in the first [n] attempts, whether or not it came back *)
Fixpoint handled (c : gclient) (sel : nat -> option link) (q : mrequest value) (n : nat) : nat :=
  match n with
  | O => 0
  | S k => handled c sel q k + match sel k with Some l => match serverSide c l q with Some _ => 1 | None => 0 end | None => 0 end
  end.

(* the request can be sent, and the service is exported by the endpoint's server, where calling the method gives [r] *)
Definition serves (c : gclient) (reply : target) (q : mrequest value) (l : link) (r : sresult) : Prop :=
  plain_server c (lk_srv l) /\ (lk_sid l < 2 ^ 64)%N /\ sizes_fit c (lk_srv l) (lk_ip l) (lk_pt l) (lk_sid l) q /\
  exists p, aget bs_eqb (g_table (lk_srv l)) (qService q) = Some p /\ results_ok (g_impl (lk_srv l) (v_id p)) (qArgs q) /\
    r = spec_method (g_impl (lk_srv l) (v_id p)) (firstUpper (g_uni (lk_srv l)) (qMethod q)) (qMethod q) (qArgs q) reply
          (g_etext (lk_srv l) (DBuf ErrEOF)) (s_errText (g_cfg (lk_srv l)) CErrSerialize) /\
    (forall e, r = Fails e -> json_lossless (c_ext c) e).

(* the endpoint's server does not export the service *)
Definition not_exported (c : gclient) (q : mrequest value) (l : link) : Prop :=
  plain_server c (lk_srv l) /\ (lk_sid l < 2 ^ 64)%N /\ sizes_fit c (lk_srv l) (lk_ip l) (lk_pt l) (lk_sid l) q /\
  aget bs_eqb (g_table (lk_srv l)) (qService q) = None /\
  json_lossless (c_ext c) (mkExc 404 (s2b "provider not exist serviceKey=" ++ qService q) 1).

(* the endpoint's server does not answer, does not export the service, or calling the method there fails *)
Definition fails_there (c : gclient) (reply : target) (q : mrequest value) (l : link) : Prop :=
  lk_wire l = NotReached \/ lk_wire l = AnswerLost \/ (exists e, serves c reply q l (Fails e)) \/ not_exported c q l.
