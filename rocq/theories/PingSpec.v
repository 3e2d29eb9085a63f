(* PingSpec.v *)
From Verif Require Import Base PingModel.

(* the answers to this pinger among some packets, and the times they give *)
Definition mine (id : Z) (l : list pkt) : list (option Z) := flat_map (fun p => match p with PEcho i r => if (i =? id)%Z then [r] else [] | _ => [] end) l.
Definition times (l : list (option Z)) : list Z := flat_map (fun r => match r with Some t => [t] | None => [] end) l.
(* steps of the receiving goroutine, other than a failing read *)
Definition recv_op (o : pop) : bool := match o with PCheck | PGet _ | PLate | PPush => true | _ => false end.
Definition reached (count id : Z) (s : ping) : Prop := exists ok os, pingrun (pinginit count id ok) os = Some s.
