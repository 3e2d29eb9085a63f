(* MeshSpec.v: vocabulary of C82. *)
From Verif Require Import Base UrlModel UrlSpec MeshModel.

(* the first code that was read from the answers to one call; the call does not return before there is one *)
Fixpoint first_code (net : list (bool * mans)) : option Z :=
  match net with [] => None | (_, ACode c) :: _ => Some c | _ :: r => first_code r end.
Definition returns (o : mop) : Prop :=
  match o with MRegister _ net | MSubscribe _ net => first_code net <> None | MUnregister _ _ _ => True end.
(* requests a call makes: one for each failed or unreadable answer, and one more *)
Fixpoint tries (net : list (bool * mans)) : nat :=
  match net with [] => 0 | (_, ACode _) :: _ => 1 | _ :: r => S (tries r) end.
(* the url under which a service is listed as registered, one call after the other *)
Definition listed_after (id : bs) (cur : option url) (o : mop) : option url :=
  match o with
  | MRegister u net => if bs_eqb (identity_of u) id then match cur with
                                                         | Some v => Some v
                                                         | None => match first_code net with Some 200%Z => Some u | _ => None end
                                                         end else cur
  | MUnregister u _ (ACode 200%Z) => if bs_eqb (identity_of u) id then None else cur
  | _ => cur
  end.
Definition listed (id : bs) (os : list mop) : option url := fold_left (listed_after id) os None.
(* the agent says 200 only about what it has done *)
Definition truthful (o : mop) : Prop :=
  match o with
  | MRegister _ net => forall done, In (done, ACode 200) net -> done = true
  | MUnregister _ done a => a = ACode 200 -> done = true
  | MSubscribe _ _ => True
  end.
(* the answer to an unregistration the agent carried out reaches the caller *)
Definition unregister_answered (o : mop) : Prop := match o with MUnregister _ true a => a = ACode 200 | _ => True end.
(* what is sent: the url as given, with the name of the agent's own registry added *)
Definition sent_as (m : mesh) (u r : url) : Prop :=
  uProtocol r = uProtocol u /\ uHost r = uHost u /\ uPort r = uPort u /\ uPath r = uPath u /\ uGroup r = uGroup u /\
  forall k, pget (uParams r) k = if bs_eqb k (s2b "proxyRegistry") then Some (msProxy m) else pget (uParams u) k.
Definition started (m : mesh) : Prop := msReg m = [] /\ msSub m = [] /\ msRegLock m = false /\ msSubLock m = false.
Definition mesh_after (m : mesh) (os : list mop) : mworld := mruns (mkMworld m [] []) os.
(* the agent has accepted a subscription of this identity *)
Definition accepted (id : bs) (o : mop) : Prop := exists u net, o = MSubscribe u net /\ identity_of u = id /\ first_code net = Some 200%Z.
