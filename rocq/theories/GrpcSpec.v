(* GrpcSpec.v: what calls through gRPC endpoints and the breeze serialization should do, for C114. *)
From Verif Require Import Base BytesModel Strconv ProtoModel ConvModel SimpleModel UrlModel ServerModel ProvModel GrpcModel.

(* the same key in the eyes of gRPC: equal letter by letter, capitals aside *)
Inductive same_letter (a b : byte) : Prop :=
| Same : a = b -> same_letter a b
| Capital : (65 <= b2n a <= 90)%N -> b2n b = (b2n a + 32)%N -> same_letter a b.
Definition in_lower_case (k l : bs) : Prop := Forall2 same_letter k l /\ Forall (fun c => ~ (65 <= b2n c <= 90)%N) l.

(* metadata [md] say what the attachments [m] say: every value is there under its key in lower case, alone unless another key differs from
   it in capitals only, and nothing else is *)
Record says (md : list (bs * list bs)) (m : list (bs * bs)) : Prop := mkSays {
  said_all : forall k v, In (k, v) m -> exists l vs, in_lower_case k l /\ aget bs_eqb md l = Some vs /\ In v vs;
  said_only : forall l vs v, aget bs_eqb md l = Some vs -> In v vs -> exists k, In (k, v) m /\ in_lower_case k l;
  said_once : list_sum (map (fun kvs : bs * list bs => length (snd kvs)) md) = length m;
  said_alone : forall k v l, NoDup (akeys m) -> In (k, v) m -> in_lower_case k l ->
    (forall k' v', In (k', v') m -> in_lower_case k' l -> k' = k) -> aget bs_eqb md l = Some [v] }.

(* a breeze library that reads what it wrote, whatever follows *)
Definition reads_back (B : breeze) (t : ptype) (v : value) : Prop :=
  forall b rest, bz_write B v = Some b -> bz_read B t (b ++ rest) = Some (v, rest).
