(* GrpProps.v *)
From Coq Require Import Permutation Lia.
From Verif Require Import Base GoStrings2 UrlModel GrpModel GrpSpec GrpProofs.

(* a group without ${idc} is used as it is *)
Theorem C99_plain : forall lo up rx idc r o1 o2 g, (forall a b, g <> a ++ s2b "${idc}" ++ b) -> subscribeGroup lo up rx idc r o1 o2 g = g.
Proof. exact sub_plain. Qed.
Print Assumptions C99_plain.
(* the groups made from the idc of this process, as it is, in lower case and in upper case: the first that can be used *)
Theorem C99_exact : forall lo up rx idc r o1 o2 g o l u, idc <> [] -> with_idc g idc o -> with_idc g (lo idc) l -> with_idc g (up idc) u ->
  let res := subscribeGroup lo up rx idc r o1 o2 g in
  (usable r o -> res = o) /\ (~ usable r o -> usable r l -> res = l) /\ (~ usable r o -> ~ usable r l -> usable r u -> res = u).
Proof. exact sub_exact. Qed.
Print Assumptions C99_exact.
(* otherwise, among the groups of the registry that match: one with nodes and the smallest time; if none has nodes, the last; if none
   matches, the group as written.  [order] and [o2] are the two maps in any order *)
Theorem C99_fallback : forall lo up rx ping idc r order o2 g a b, g = a ++ s2b "${idc}" ++ b -> no_exact lo up idc r g ->
  let res := subscribeGroup lo up rx idc r order o2 g in
  match rv_groups r with
  | None => res = g
  | Some gs =>
      forall p, with_idc g (s2b "(.*)") p ->
      match rx (s2b "^" ++ p ++ s2b "$") with
      | None => res = g
      | Some mt =>
          let good x := In x gs /\ mt x = true /\ rv_nodes r x <> [] in
          ((exists x, good x) -> (forall x, In x order <-> good x) -> Permutation o2 (measured ping order) -> ~ In [] gs ->
             (forall x t, good x -> rttOf ping x = Some t -> (0 < t)%Z) ->
             good res /\ forall x t, good x -> rttOf ping x = Some t -> exists t', rttOf ping res = Some t' /\ (t' <= t)%Z)
          /\ ((forall x, ~ good x) -> (exists x, In x gs /\ mt x = true) -> the_last gs (fun x => mt x = true) res)
          /\ ((forall x, In x gs -> mt x = false) -> res = g)
      end
  end.
Proof. exact sub_rest. Qed.
Print Assumptions C99_fallback.
(* the time of a group: the mean of three or more round trips without the smallest and the largest *)
Theorem C99_time : forall ping x l, ping x = Some l -> (forall t, In t l -> (0 <= t)%Z) -> (sumL l < 2 ^ 63)%Z ->
  match rttOf ping x with
  | Some m => 3 <= length l /\ trimmed_mean l m /\ exists a b, In a l /\ In b l /\ (a <= m <= b)%Z
  | None => length l < 3
  end.
Proof.
  intros ping x l H Hp Hb. unfold rttOf. rewrite H. destruct (Nat.ltb (length l) 3) eqn:E; [apply Nat.ltb_lt in E; exact E|]. apply Nat.ltb_ge in E.
  pose proof (mean_spec l E Hp Hb) as M. split; [exact E|]. split; [exact M|]. apply (mean_between l _ M E Hp).
Qed.
Print Assumptions C99_time.
(* a group measured at zero is passed over for any other measured after it *)
Theorem C99_zero_refuted : exists order o2 ping, Permutation o2 (measured ping order) /\ ~ In [] order /\ NoDup order /\
  exists x t t', In x order /\ rttOf ping x = Some t /\ rttOf ping (bestGroup order o2) = Some t' /\ (t < t')%Z.
Proof.
  exists [s2b "a"; s2b "b"], [(s2b "a", 0%Z); (s2b "b", 7%Z)], (fun g => Some (if bs_eqb g (s2b "a") then [0; 0; 0]%Z else [7; 7; 7]%Z)).
  split; [vm_compute; apply Permutation_refl|]. split; [intros [H|[H|[]]]; discriminate|]. split; [constructor; [intros [H|[]]; discriminate|constructor; [intros []|constructor]]|].
  exists (s2b "a"), 0%Z, 7%Z. split; [left; reflexivity|]. split; [vm_compute; reflexivity|]. split; [vm_compute; reflexivity|lia].
Qed.
Print Assumptions C99_zero_refuted.

(* the registries: each name in turn; an unknown one is an error, one that cannot be made is left out, the others are subscribed, asked
   and notified, in this order, with the group found there *)
Theorem C99_registries : forall known sg s group, let names := trimSplit s (s2b ",") in let good := filter (okReg known) names in
  let '(evs, rs, g, err) := parseRegistry known sg (Some s) group in
  rs = good /\ evs = flat_map (fun p => [ESub (fst p) (snd p); EDisc (fst p) (snd p); ENotify (fst p) (snd p)]) (groupsAt sg group good)
  /\ g = last (map snd (groupsAt sg group good)) group
  /\ match err with
     | None => forall r, In r names -> known r <> None
     | Some PMissing => False
     | Some (PInvalid r) => the_last names (fun x => known x = None) r
     end.
Proof. exact parse_some. Qed.
Print Assumptions C99_registries.
(* once found, the group is the same at all later registries *)
Theorem C99_one_group : forall lo up rx idc rv o1 o2 r rs g, let sg := fun r => subscribeGroup lo up rx idc (rv r) (o1 r) (o2 r) in
  (forall a b, sg r g <> a ++ s2b "${idc}" ++ b) -> forall p, In p (groupsAt sg g (r :: rs)) -> snd p = sg r g.
Proof. exact one_group. Qed.
Print Assumptions C99_one_group.

(* a cluster that is destroyed undoes each of its subscriptions, once, if the group was the same at every registry *)
Theorem C99_unsubscribe : forall known sg s group g0,
  let res := parseRegistry known sg (Some s) group in
  (forall reg grp, In (reg, grp) (subsOf (fst (fst (fst res)))) -> grp = g0) -> unsubs res = subsOf (fst (fst (fst res))).
Proof.
  intros known sg s group g0 res. pose proof (parse_some known sg s group) as P. cbv zeta in P. unfold res.
  destruct (parseRegistry known sg (Some s) group) as [[[evs rs] g] err]. destruct P as (-> & -> & -> & _). cbn [fst unsubs].
  generalize (filter (okReg known) (trimSplit s (s2b ","))). intro l.
  assert (S1 : forall ps : list (bs * bs), subsOf (flat_map (fun p => [ESub (fst p) (snd p); EDisc (fst p) (snd p); ENotify (fst p) (snd p)]) ps) = ps).
  { induction ps as [|[a b] ps IH]; [reflexivity|]. cbn. f_equal. exact IH. }
  rewrite S1. intro H.
  assert (R : map fst (groupsAt sg group l) = l).
  { clear. revert group. induction l as [|r l IH]; intro g; [reflexivity|]. cbn. rewrite IH. reflexivity. }
  assert (Eq : forall (ps : list (bs * bs)) d, (forall reg grp, In (reg, grp) ps -> grp = g0) -> ps = [] \/ last (map snd ps) d = g0).
  { clear. induction ps as [|[a b] ps IH]; intros d H; [left; reflexivity|right]. destruct ps as [|p ps]; [exact (H a b (or_introl eq_refl))|].
    destruct (IH d (fun r g X => H r g (or_intror X))) as [E|E]; [discriminate E|exact E]. }
  transitivity (map (fun r => (r, last (map snd (groupsAt sg group l)) group)) (map fst (groupsAt sg group l))); [rewrite R; reflexivity|].
  destruct (Eq (groupsAt sg group l) group H) as [E|E]; [rewrite E; reflexivity|]. rewrite E. clear E Eq S1 R.
  revert H. generalize (groupsAt sg group l). clear. induction l as [|[a b] l IH]; intro H; [reflexivity|].
  cbn [map fst]. rewrite (H a b (or_introl eq_refl)) at 1. f_equal. apply IH. intros r g X. apply (H r g). right. exact X.
Qed.
Print Assumptions C99_unsubscribe.
Example C99_unsubscribe_example :
  let res := parseRegistry (fun _ => Some true) (fun _ g => g) (Some (s2b "zk1,zk2")) (s2b "g") in
  subsOf (fst (fst (fst res))) = [(s2b "zk1", s2b "g"); (s2b "zk2", s2b "g")] /\ unsubs res = subsOf (fst (fst (fst res))).
Proof. split; vm_compute; reflexivity. Qed.

(* ------------------------------------------------------------ a case *)
Definition up1 (s : bs) : bs := if bs_eqb s (s2b "yf") then s2b "YF" else s.
Definition rxAll : bs -> option (bs -> bool) := fun p => if bs_eqb p (s2b "^motan-(.*)$") then Some (fun x => GoStrings.hasPrefix x (s2b "motan-")) else None.
Definition exReg (groups : option (list bs)) (full : list bs) : regv := mkRegv groups (fun g => if existsb (bs_eqb g) full then [s2b "10.0.0.1"] else []).
Definition exPing : bs -> option (list Z) := fun g => if bs_eqb g (s2b "motan-aa") then Some [9; 5; 7; 6]%Z else if bs_eqb g (s2b "motan-bb") then Some [2; 3; 1]%Z else Some [1]%Z.
Definition exGroups : list bs := map s2b ["motan-aa"; "motan-bb"; "other"; "motan-cc"; "motan-dd"]%string.

(* when the first registry has no nodes for the group, the next one replaces the group, and the first is left subscribed *)
Theorem C99_unsubscribe_refuted : exists sg known s g,
  (exists lo up rx idc rv o1 o2, sg = fun r => subscribeGroup lo up rx idc (rv r) (o1 r) (o2 r)) /\
  let res := parseRegistry known sg (Some s) g in
  exists reg grp, In (ESub reg grp) (fst (fst (fst res))) /\ ~ In (reg, grp) (unsubs res).
Proof.
  exists (fun r => subscribeGroup (fun x => x) up1 rxAll (s2b "yf") (if bs_eqb r (s2b "zk1") then exReg None [] else exReg None [s2b "motan-yf"]) [] []),
    (fun _ => Some true), (s2b "zk1,zk2"), (s2b "motan-${idc}").
  split; [exists (fun x => x), up1, rxAll, (s2b "yf"), (fun r => if bs_eqb r (s2b "zk1") then exReg None [] else exReg None [s2b "motan-yf"]), (fun _ => []), (fun _ => []); reflexivity|].
  exists (s2b "zk1"), (s2b "motan-${idc}"). split; [vm_compute; left; reflexivity|]. vm_compute. intros [H|[H|[]]]; discriminate.
Qed.
Print Assumptions C99_unsubscribe_refuted.

Example C99_example :
  with_idc (s2b "motan-${idc}") (s2b "yf") (s2b "motan-yf") /\ with_idc (s2b "motan-${idc}") (s2b "YF") (s2b "motan-YF")
  /\ usable (exReg (Some [s2b "motan-YF"]) [s2b "motan-YF"]) (s2b "motan-YF") /\ ~ usable (exReg (Some [s2b "motan-YF"]) [s2b "motan-yf"]) (s2b "motan-yf")
  /\ subscribeGroup (fun x => x) up1 rxAll (s2b "yf") (exReg (Some [s2b "motan-YF"]) [s2b "motan-YF"]) [] [] (s2b "motan-${idc}") = s2b "motan-YF"
  /\ no_exact (fun x => x) up1 (s2b "yf") (exReg (Some exGroups) (map s2b ["motan-aa"; "motan-bb"; "motan-cc"; "other"]%string)) (s2b "motan-${idc}")
  /\ (let order := map s2b ["motan-cc"; "motan-aa"; "motan-bb"]%string in
      Permutation (rev (measured exPing order)) (measured exPing order)
      /\ subscribeGroup (fun x => x) up1 rxAll (s2b "yf") (exReg (Some exGroups) (map s2b ["motan-aa"; "motan-bb"; "motan-cc"; "other"]%string)) order (rev (measured exPing order)) (s2b "motan-${idc}") = s2b "motan-bb")
  /\ rttOf exPing (s2b "motan-aa") = Some 6%Z
  /\ parseRegistry (fun r => if bs_eqb r (s2b "zk9") then None else Some (negb (bs_eqb r (s2b "nil")))) (fun _ g => g) (Some (s2b "zk1, zk9,nil,zk2")) (s2b "g")
     = ([ESub (s2b "zk1") (s2b "g"); EDisc (s2b "zk1") (s2b "g"); ENotify (s2b "zk1") (s2b "g"); ESub (s2b "zk2") (s2b "g"); EDisc (s2b "zk2") (s2b "g"); ENotify (s2b "zk2") (s2b "g")],
        [s2b "zk1"; s2b "zk2"], s2b "g", Some (PInvalid (s2b "zk9"))).
Proof.
  assert (C : contains (s2b "motan-${idc}") idcHolder = true) by (vm_compute; reflexivity).
  split; [apply (replace_with _ _ _ C); vm_compute; reflexivity|]. split; [apply (replace_with _ _ _ C); vm_compute; reflexivity|].
  split; [apply use_spec; vm_compute; reflexivity|]. split; [intros H; apply use_spec in H; vm_compute in H; discriminate|].
  split; [vm_compute; reflexivity|]. split.
  { right. intros v x Hv Hx Hu. apply (replace_with _ _ _ C) in Hx. apply use_spec in Hu. subst x. destruct Hv as [<-|[<-|[<-|[]]]]; vm_compute in Hu; discriminate. }
  split; [split; [apply Permutation_sym, Permutation_rev|vm_compute; reflexivity]|]. split; vm_compute; reflexivity.
Qed.
