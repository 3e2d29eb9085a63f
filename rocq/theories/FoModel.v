(* FoModel.v: a call through a cluster with failover, down to the servers and back (ha/failoverHA.go, endpoint/motanEndpoint.go 144-211).
   Each attempt is a whole round trip of ProvModel.v, over an endpoint the load balance selects.
   Simplifications: the filters of the cluster pass everything on (FilterModel.v); the endpoints share gzip size and group, which come
   from the refer of the cluster; what a failed attempt stored through the reply pointer before its error is not followed. *)
From Verif Require Import Base BytesModel Strconv ProtoModel ConvModel SimpleModel UrlModel UrlSpec ServerModel ProvModel.
From Verif Require HaModel.

(* What happens to the messages of one attempt: they pass, the request does not reach the server, or the server's answer does not
   come back before the deadline (motanEndpoint.go:151-162, 181-186: no channel, a closed one, or a timeout). *)
Inductive wire_state := Passes | NotReached | AnswerLost.
(* an endpoint and what an attempt over it meets: the server, the client's address and the provider's processing time as it sees them,
   the number of the stream and the text of the channel's error *)
Record link := mkLink { lk_srv : gserver; lk_ip : bs; lk_pt : Z; lk_sid : N; lk_wire : wire_state; lk_err : bs }.

(* what an endpoint's Call returns to the strategy, a panic while reading the answer being one outcome *)
Inductive answer := Gave (v : value) (stored : option value) | Failed (e : exc) | Panicked.

(* motanEndpoint.go:309-315 defaultErrMotanResponse after a failed channel.Call (181-186) *)
Definition channelError (l : link) : answer := Failed (mkExc 400 (s2b "channel call error:" ++ lk_err l) 1).

(* the server's part of an attempt: the answer it writes, if the request reaches it *)
Definition serverSide (c : gclient) (l : link) (q : mrequest value) : option message :=
  match sendRequest c (lk_sid l) q with
  | inr _ => None
  | inl m =>
      match lk_wire l with
      | NotReached => None
      | Passes | AnswerLost =>
          match readOne (s_max (g_cfg (lk_srv l))) (concat (getEncodedBytes None m)) with
          | RGot (J2 m') _ =>
              match processV2 (g_cfg (lk_srv l)) (lk_ip l) (lk_pt l) (gHandler (lk_srv l)) m' with
              | Write r => Some r
              | CloseConn | Silent => None
              end
          | _ => None
          end
      end
  end.

(* motanEndpoint.go:187-211: the answer is converted, its exception passed on, its value deserialized for the reply *)
Definition readReply (c : gclient) (l : link) (rid : N) (reply : target) (b : bs) : answer :=
  match decodeMsg (c_max c) b with
  | DecErr _ _ => channelError l
  | DecOk m _ =>
      match convertToResponse (c_ext c) true (withID (mkMsg (SetProxy false (mHeader m)) (mMeta m) (mBody m)) rid) with
      | inr e => Failed (mkExc 500 (s2b "convert response fail!" ++ c_cerr c e) 1)
      | inl s =>
          match rpExc s with
          | Some e => Failed e
          | None =>
              match rpBody s with
              | None => Gave VNull None
              | Some b => match fst (deserialize b reply) with
                          | DOk v => Gave v (assigned reply v)
                          | DErr e => Failed (mkExc 400 (c_etext c e) 1)
                          | DPanic | DFuel => Panicked
                          end
              end
          end
      end
  end.

(* motanEndpoint.go:144-211 Call *)
Definition callEndpoint (c : gclient) (l : link) (reply : target) (q : mrequest value) : answer :=
  match sendRequest c (lk_sid l) q with
  | inr _ => Failed (mkExc 500 (s2b "convert motan request fail!") 1)
  | inl _ =>
      match serverSide c l q with
      | None => channelError l
      | Some r => match lk_wire l with
                  | Passes => readReply c l (qID q) reply (concat (getEncodedBytes None r))
                  | NotReached | AnswerLost => channelError l
                  end
      end
  end.

(* The response the strategy looks at.  A panic leaves the strategy at once for the recover of the cluster (motanCluster.go:69-72): it
   is given here as a response that ends the loop, with the cluster's text; its type is not looked at by anybody after that. *)
Definition asResp (rid : N) (a : answer) : HaModel.resp :=
  HaModel.mkResp rid [] match a with
                        | Gave _ _ => None
                        | Failed e => Some (HaModel.mkExc (eCode e) (eMsg e) (eType e))
                        | Panicked => Some (HaModel.mkExc 500 (s2b "cluster call panic") HaModel.BizException)
                        end.

(* client.go:49-58: the caller gets the error text or the value *)
Definition told (a : answer) : outcome :=
  match a with
  | Gave v s => Value v s
  | Failed e => Error (eMsg e)
  | Panicked => Error (s2b "cluster call panic")
  end.

(* failoverHA.go:30-59 over the endpoints [sel] the load balance gives attempt after attempt, and what the caller is told; the second
   component is the number of endpoints called *)
Definition failoverTrip (c : gclient) (sel : nat -> option link) (u : url) (reply : target) (q : mrequest value) (noEp : bs) : outcome * nat :=
  let env i := match sel i with None => None | Some l => Some (Some (asResp (qID q) (callEndpoint c l reply q))) end in
  let '(r, n) := HaModel.failoverCall u (qMethod q) (qDesc q) (qID q) noEp env in
  (match HaModel.rExc r with
   | Some e => Error (HaModel.eMsg e)
   | None => match sel (n - 1) with Some l => told (callEndpoint c l reply q) | None => Lost end
   end, n).
