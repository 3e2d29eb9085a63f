(* AgentSpec.v: what routing and reloading mean, for C48, C71 and C72. *)
From Verif Require Import Base GoStrings2 UrlModel UrlSpec AgentModel.

(* the clusters that serve a service, in the order in which they are asked *)
Definition candidates (m : smap) (service : bs) : list item := match aget bs_eqb m service with Some l => l | None => [] end.
Definition in_use (s : ast) (it : item) : Prop := exists service, In it (candidates (aSmap s) service).
Definition quiet (s : ast) : Prop := aReload s = RIdle /\ Forall (fun j => snd j = IDone) (aJobs s).

(* the same URL except perhaps for a filled in application *)
Definition with_app (app : bs) (u u' : url) : Prop :=
  uProtocol u' = uProtocol u /\ uHost u' = uHost u /\ uPort u' = uPort u /\ uPath u' = uPath u /\ uGroup u' = uGroup u /\
  (forall k, k <> s2b "application" -> param u' k = param u k) /\
  param u' (s2b "application") = match param u (s2b "application") with None | Some [] => Some app | Some v => Some v end.
(* the refers of the new configuration for a service, with the application filled in *)
Definition refers_to (app : bs) (refs : list url) (service : bs) (l : list url) : Prop :=
  Forall2 (with_app app) (filter (fun u => bs_eqb (uPath u) service) refs) l.
(* what a reload makes of one reference: the cluster that already serves exactly this URL, or a new one *)
Definition serves_ref (before : ast) (u : url) (it : item) : Prop :=
  ext (iUrl it) = ext u /\
  ((exists l1 l2, candidates (aSmap before) (uPath u) = l1 ++ it :: l2 /\ Forall (fun x => ext (iUrl x) <> ext u) l1) \/
   (iUrl it = u /\ aNext before <= iCluster it /\ Forall (fun x => ext (iUrl x) <> ext u) (candidates (aSmap before) (uPath u)))).
(* a URL's text tells its path: true when URLs are clean *)
Definition text_tells_path (l : list url) : Prop := forall u v, In u l -> In v l -> ext u = ext v -> uPath u = uPath v.
(* the first that is not empty *)
Definition or_else (a b : bs) : bs := match a with [] => b | _ => a end.
