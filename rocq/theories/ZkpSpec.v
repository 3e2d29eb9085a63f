(* ZkpSpec.v: the words of C107. *)
From Verif Require Import Base GoStrings UrlModel UrlSpec ZkModel ZkpModel.

(* the path of node names: "/a/b/c" *)
Definition path (names : list bs) : bs := flat_map (fun s => s2b "/" ++ s) names.
Definition name_ok (s : bs) : Prop := s <> [] /\ ~ In x2f s.
(* every node's parent is there *)
Definition closed (t : ztree) : Prop :=
  forall names s, Forall name_ok names -> names <> [] -> name_ok s -> zhas t (path (names ++ [s])) = true -> zhas t (path names) = true.
(* the first nodes of a path: its ancestors and itself *)
Definition ancestor (names : list bs) (q : bs) : Prop := exists k, 0 < k <= length names /\ q = path (firstn k names).
Definition never (p : bs) : bool := false.
