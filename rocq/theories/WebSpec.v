(* WebSpec.v: what the http proxy should do, for C76. *)
From Verif Require Import Base WebModel.

Definition plain (s : bs) : Prop := ~ In x3a s /\ ~ In x5b s /\ ~ In x5d s.
(* the host header [h] names the host [n]: a name, with or without port, or an address in brackets with port *)
Definition names (h n : bs) : Prop :=
  (plain n /\ (h = n \/ exists p, plain p /\ h = n ++ [x3a] ++ p)) \/
  (~ In x5b n /\ ~ In x5d n /\ exists p, plain p /\ h = [x5b] ++ n ++ [x5d; x3a] ++ p).
(* its address: port 80 is added when there is none *)
Definition address (h a : bs) : Prop := (In x3a h /\ a = h) \/ (~ In x3a h /\ a = h ++ s2b ":80").
Definition domain (cfg : pxcfg) (n : bs) : option serves := aget bs_eqb (pxDomains cfg) n.
(* an ordinary request: not the form for rpc calls, not a tunnel *)
Definition ordinary (r : webreq) : Prop := wPath r <> s2b "/proxy_to_rpc" /\ wConnect r = false /\ exists p, wPath r = x2f :: p.
(* the domain [n] has no service for it and there is no other domain to try *)
Definition unserved (cfg : pxcfg) (n path : bs) : Prop :=
  (domain cfg n = None /\ pxDefault cfg = []) \/ exists f, domain cfg n = Some f /\ f path = None.
