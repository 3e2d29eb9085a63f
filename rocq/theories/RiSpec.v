(* RiSpec.v: vocabulary of C111 (the report of /runtime/info tells the truth). *)
From Verif Require Import Base Strconv GoStrings GoStrings2 UrlModel UrlSpec CoreModel CoreSpec ClusterModel CmdModel CmdSpec RiModel.

Definition has (m : list (bs * rv)) (k : string) (v : rv) : Prop := aget bs_eqb m (s2b k) = Some v.
Definition hasnt (m : list (bs * rv)) (k : string) : Prop := aget bs_eqb m (s2b k) = None.
(* the text that names a URL (UrlSpec.v), alone and with the name of its registry *)
Definition id_text (u : url) : bs := identity_of u.
Definition id_reg_text (u : url) : bs := id_text u ++ s2b "&registry=" ++ str_or u (s2b "registry") [].
(* a report gives a URL exactly when there is one *)
Definition shows_url (m : list (bs * rv)) (o : option url) : Prop := match o with Some u => has m "url" (RT (ext_info u)) | None => hasnt m "url" end.
(* a map of reports has exactly one entry for each item of a list, under the key of the item *)
Definition exactly {A} (m : list (bs * rv)) (l : list A) (key : A -> bs) (v : A -> rv) : Prop :=
  NoDup (akeys m) /\ length m = length l /\ forall k x, aget bs_eqb m k = Some x <-> exists a, In a l /\ key a = k /\ v a = x.
(* the referers that answer (or do not), each with its place in the cluster's list *)
Definition placed (c : clus) (up : bool) : list (nat * refer) := filter (fun p => Bool.eqb (rfUp (snd p)) up) (combine (seq 0 (length (clRefers c))) (clRefers c)).
Definition place_key (p : nat * refer) : bs := fmtN (N.of_nat (fst p)) ++ s2b "-" ++ id_text (rfUrl (snd p)).
(* the keys a request names *)
Definition named (keys : bs) (k : bs) : Prop := keys = [] \/ In k (splitOn x2c keys).
(* command texts, and lists given to the cluster, since the wrapper was last cleared, with their times *)
Definition texts_after (acc : list (Z * bs)) (e : Z * wop) : list (Z * bs) :=
  match snd e with WCommand _ t _ | WDiscover _ t _ => acc ++ [(fst e, t)] | WUnsubscribe => [] | _ => acc end.
Definition texts (es : list (Z * wop)) : list (Z * bs) := fold_left texts_after es [].
Fixpoint lists_from (lib : cmdlib) (w : crw) (acc : list (Z * list bs)) (es : list (Z * wop)) : list (Z * list bs) :=
  match es with
  | [] => acc
  | (t, o) :: r =>
      let (w', out) := wStep lib w o in
      lists_from lib w' (match o, out with
                         | WUnsubscribe, _ => []
                         | WDiscover _ _ _, _ => acc
                         | _, Some l => acc ++ [(t, map id_reg_text l)]
                         | _, None => acc end) r
  end.
Definition lists_given (lib : cmdlib) (u : url) (es : list (Z * wop)) : list (Z * list bs) := lists_from lib (newCrw u) [] es.
(* what belongs under a key *)
Definition part (a : agt) (k : bs) (x : rv) : Prop :=
  (k = s2b "clusters" /\ x = RM (getClusterInfo a)) \/ (k = s2b "httpClusters" /\ x = RM (getHttpClusterInfo a)) \/
  (k = s2b "exporters" /\ x = RM (getExporterInfo a)) \/ (k = s2b "servers" /\ exists i, getServersInfo a = Some i /\ x = RM i) \/
  (k = s2b "extensionFactory" /\ x = RM (extFactoryInfo a)) \/ (k = s2b "basic" /\ x = RM (basicInfo a)).
