(* RrfSpec.v: vocabulary of C120. *)
From Verif Require Import Base BytesModel BytesSpec Strconv ProtoModel ProtoSpec ConvModel ConvSpec SimpleModel SimpleSpec UrlModel UrlSpec
  ServerModel ServerSpec ProvModel ProvSpec FoModel FoSpec.

(* the endpoint's server answers, and calling the method there gives [v] *)
Definition works_with (c : gclient) (reply : target) (q : mrequest value) (l : link) (v : value) : Prop :=
  lk_wire l = Passes /\ serves c reply q l (Gives v).
(* no other call selects an endpoint while this one makes its attempts *)
Definition undisturbed : nat -> nat := fun _ => 0.
