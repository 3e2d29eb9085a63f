(* SwitchCmdProps.v: switcher commands (C59). *)
From Coq Require Import Permutation.
From Verif Require Import Base GoStrings UrlModel SwitchCmdModel SwitchCmdSpec SwitchCmdProofs CoreProofs.

(* After any history of registrations and commands, right after a command every registered switcher has the value the
   command asks for, and its original value if the command does not mention it. *)
Theorem C59_after_command : forall ord os cmd n, anyOrder ord ->
  isOpenNow (swcrun ord (os ++ [SwCmd cmd])) n =
  match registered os n with
  | Some v => Some (match commanded cmd n with Some b => b | None => v end)
  | None => None
  end.
Proof.
  intros ord os cmd n O. unfold swcrun. rewrite fold_left_app. cbn [fold_left swcstep]. change (fold_left (swcstep ord) os swst0) with (swcrun ord os).
  rewrite (proj2 (process_inv ord (registered os) _ cmd O (run_inv ord os O)) n). destruct (commanded cmd n), (registered os n); reflexivity.
Qed.
Print Assumptions C59_after_command.
(* In particular a withdrawn command leaves no trace. *)
Theorem C59_withdrawn : forall ord os n, anyOrder ord -> isOpenNow (swcrun ord (os ++ [SwCmd None])) n = registered os n.
Proof. intros ord os n O. rewrite C59_after_command by exact O. cbn. destruct (registered os n); reflexivity. Qed.
Print Assumptions C59_withdrawn.
(* The order in which Go walks the map does not matter. *)
Theorem C59_order_irrelevant : forall ord1 ord2 os n, anyOrder ord1 -> anyOrder ord2 ->
  isOpenNow (swcrun ord1 (os ++ [SwCmd None])) n = isOpenNow (swcrun ord2 (os ++ [SwCmd None])) n.
Proof. intros ord1 ord2 os n O1 O2. rewrite !C59_withdrawn by assumption. reflexivity. Qed.
Print Assumptions C59_order_irrelevant.
Definition ex59 : list swcop := [SwReg (s2b "a") true; SwReg (s2b "b") false; SwCmd (Some (s2b "a:false,b:true,zz:true")); SwReg (s2b "c") true].
Example C59_example : anyOrder (@rev _) /\
  map (isOpenNow (swcrun (@rev _) ex59)) (map s2b ["a"; "b"; "c"; "zz"]%string) = [Some false; Some true; Some true; None] /\
  map (isOpenNow (swcrun (@rev _) (ex59 ++ [SwCmd (Some (s2b "b:true"))]))) (map s2b ["a"; "b"; "c"]%string) = [Some true; Some true; Some true] /\
  map (isOpenNow (swcrun (@rev _) (ex59 ++ [SwCmd (Some (s2b "b:true")); SwCmd None]))) (map s2b ["a"; "b"; "c"]%string) = [Some true; Some false; Some true].
Proof. split; [intro l; apply Permutation_rev|]. vm_compute. repeat split. Qed.
(* The map of original values is shared by all clusters of the process: a change of one cluster's commands undoes another's.
   Two clusters, the first with a command, the second told that it has none. *)
Theorem C59_shared_map_refuted : ~ (forall ord os c n b, anyOrder ord -> commanded (currentCommand os c) n = Some b -> clusterValue ord os n <> None -> (forall c', c' <> c -> currentCommand os c' = None) -> clusterValue ord os n = Some b).
Proof.
  intro H. specialize (H (fun l => l) [(0, SwReg (s2b "a") true); (0, SwCmd (Some (s2b "a:false"))); (1, SwCmd None)] 0 (s2b "a") false).
  assert (X : clusterValue (fun l => l) [(0, SwReg (s2b "a") true); (0, SwCmd (Some (s2b "a:false"))); (1, SwCmd None)] (s2b "a") = Some false).
  { apply H; [intro l; apply Permutation_refl|vm_compute; reflexivity|vm_compute; discriminate|]. intros c' N. unfold currentCommand. cbn. destruct c' as [|[|]]; [contradiction N; reflexivity|reflexivity|reflexivity]. }
  vm_compute in X. discriminate X.
Qed.
Print Assumptions C59_shared_map_refuted.
