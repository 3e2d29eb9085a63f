(* DynSpec.v: what surviving a crash and being unexported mean, for C44, C45 and C73. *)
From Verif Require Import Base GoStrings GoStrings2 UrlModel UrlSpec DynModel.

(* a URL is registered (subscribed) at run time: the answer of /registry/list *)
Definition registered (s : dst) (u : url) : Prop := In u (fst (listing s)).
Definition subscribed (s : dst) (u : url) : Prop := In u (snd (listing s)).
Definition exported (s : dst) (k : bs) : Prop := aget bs_eqb (dExp s) k <> None.
(* some request has changed the entry of this key and has not yet saved *)
Definition changing (s : dst) (k : bs + bs) : Prop := exists j x, nth_error (dJobs s) j = Some x /\ In k (jMod x).
(* the snapshot file is being written just now *)
Definition being_written (s : dst) : Prop := exists j c, dSaving s = Some (j, c, true).
(* all requests have been answered *)
Definition all_answered (s : dst) : Prop := Forall (fun x => jTodo x = []) (dJobs s).
(* every start after a crash is in recover mode *)
Definition recovering (o : dop) : Prop := match o with Crash r _ => r = true | _ => True end.
Definition no_crash (o : dop) : Prop := match o with Crash _ _ => False | _ => True end.
(* no URL to be unregistered has the text "&registry=" in its identity *)
Definition ordinary (o : dop) : Prop :=
  match o with Request (Unregister us) => Forall (fun u => contains (ident u) (s2b "&registry=") = false) us | _ => True end.
(* a key of a service of the configuration *)
Definition configured (s : dst) (k : bs) : Prop := exists u, In u (dStatic s) /\ identReg u = k.

(* ---- status *)
Definition finished (x : bool * spc) : Prop := snd x = SDone.
Definition status_written (x : bool * spc) : Prop := snd x <> STruncated.
