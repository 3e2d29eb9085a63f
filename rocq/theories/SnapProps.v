(* SnapProps.v *)
From Coq Require Import Permutation.
From Verif Require Import Base UrlModel SnapModel SnapSpec SnapProofs.

(* after any saves and one flush, in any order of the maps: the file of a key holds the addresses last saved under it by all registries,
   and the group and service of one of these saves; the other files are as before.  [regs] is any list of the registries concerned *)
Theorem C98_files : forall os es files regs k, Permutation es (entriesOf (saves [] os)) -> NoDup regs ->
  (forall r, (exists x, lastSaved r k os = Some x) -> In r regs) ->
  match aget bs_eqb (flushAll files es) k with
  | Some v => (exists r x, lastSaved r k os = Some x /\ s_group v = uGroup (snd x) /\ s_path v = uPath (snd x) /\ Permutation (addrs v) (allAddrs k regs os))
              \/ ((forall r, lastSaved r k os = None) /\ aget bs_eqb files k = Some v)
  | None => (forall r, lastSaved r k os = None) /\ aget bs_eqb files k = None
  end.
Proof. exact flush_file. Qed.
Print Assumptions C98_files.
(* the files written by a flush are those of the state it began with, whatever is saved meanwhile *)
Theorem C98_flush_mid : forall ops s es, sn_todo s = [] -> Forall (fun o => match o with NSave _ _ _ => True | NWrite ok => ok = true | NFlush _ => False end) ops ->
  countb (fun o => match o with NWrite _ => true | _ => false end) ops = length (merged es) ->
  sn_files (fold_left snstep ops (snstep s (NFlush es))) = flushAll (sn_files s) es.
Proof. exact flush_mid. Qed.
Print Assumptions C98_flush_mid.
(* a file that cannot be written keeps what it held, and the others are written all the same *)
Theorem C98_unwritable : forall m k v rest files, snstep (mkSnst m ((k, v) :: rest) files) (NWrite false) = mkSnst m rest files.
Proof. reflexivity. Qed.
Print Assumptions C98_unwritable.
(* two services can share a file, which then mixes their nodes or keeps only those saved last *)
Theorem C98_shared_file_refuted : exists u1 u2, (uGroup u1, uPath u1) <> (uGroup u2, uPath u2) /\ nodeKey u1 = nodeKey u2 /\
  forall reg n1 n2, look (saves [] [(reg, [n1], u1); (reg, [n2], u2)]) reg (nodeKey u1) = Some (mkService (uGroup u2) (uPath u2) [mkNode [] n2]).
Proof.
  exists (mkUrl [] [] 0 (s2b "c") (s2b "a_b") None), (mkUrl [] [] 0 (s2b "b_c") (s2b "a") None).
  split; [discriminate|]. split; [reflexivity|]. intros reg n1 n2. rewrite saves_look. cbn [lastSaved]. rewrite !bs_eqb_refl. reflexivity.
Qed.
Print Assumptions C98_shared_file_refuted.

Definition exU (g s : string) : url := mkUrl (s2b "motan2") (s2b "h") 1 (s2b s) (s2b g) (Some []).
Definition exOs : list (bs * list bs * url) :=
  [(s2b "zk1", [s2b "a:1"], exU "g" "s"); (s2b "zk2", [s2b "b:1"; s2b "b:2"], exU "g" "s"); (s2b "zk1", [s2b "a:2"], exU "g" "s"); (s2b "zk1", [s2b "c:1"], exU "g" "t")].
Example C98_example :
  Permutation (rev (entriesOf (saves [] exOs))) (entriesOf (saves [] exOs)) /\ NoDup [s2b "zk1"; s2b "zk2"]
  /\ (forall r, (exists x, lastSaved r (s2b "g_s") exOs = Some x) -> In r [s2b "zk1"; s2b "zk2"])
  /\ aget bs_eqb (flushAll [] (rev (entriesOf (saves [] exOs)))) (s2b "g_s") = Some (mkService (s2b "g") (s2b "s") [mkNode [] (s2b "b:1"); mkNode [] (s2b "b:2"); mkNode [] (s2b "a:2")])
  /\ allAddrs (s2b "g_s") [s2b "zk1"; s2b "zk2"] exOs = [s2b "a:2"; s2b "b:1"; s2b "b:2"].
Proof.
  split; [apply Permutation_sym, Permutation_rev|]. split; [apply MgProofs.distinct_nodup; vm_compute; reflexivity|]. split; [|split; vm_compute; reflexivity].
  intros r [x H]. apply lastSaved_in in H. destruct H as [H _].
  cbn [exOs In] in H. decompose [or] H; try contradiction; match goal with E : (_, _, _) = _ |- _ => injection E as E1 _ _ end; rewrite <- E1; cbn [In]; auto.
Qed.
