(* CountSpec.v: what it means that no count is lost, for C43. *)
From Verif Require Import Base MetricModel CountModel.

Definition total (l : list Z) : Z := fold_right Z.add 0%Z l.
Definition kind_eqb (a b : kind) : bool :=
  match a, b with KCounter, KCounter | KHist, KHist | KGauge, KGauge => true | _, _ => false end.
(* what an event adds to the count of a key of an item: the value of a counter, one update of a histogram *)
Definition adds (k : kind) (item key : bs) (e : mev) : Z :=
  if kind_eqb (mKind e) k && bs_eqb (mItem e) item && bs_eqb (mKey e) key
  then match k with KCounter => mVal e | _ => 1%Z end else 0%Z.
Definition added (k : kind) (item key : bs) (l : list mev) : Z := total (map (adds k item key) l).
(* the events being processed *)
Definition in_flight (s : mst) : list mev :=
  map jEv (filter (fun j => match jPc j with PDone => false | _ => true end) (mJobs s)).
(* the snapshots of an item *)
Definition of_item (s : mst) (item : bs) (sn : nat * list (bs * entry)) : bool :=
  match nth_error (mRegs s) (fst sn) with Some (o, _) => bs_eqb o item | None => false end.
Definition reported (s : mst) (item key : bs) : Z :=
  total (map (fun sn => snapCount s sn key) (filter (of_item s item) (mSnaps s))).
(* equal as 64 bit integers *)
Definition same64 (a b : Z) : Prop := exists q, (a = b + q * 18446744073709551616)%Z.
(* the key is only used as a counter, or only as a histogram *)
Definition only (k : kind) (item key : bs) (l : list mev) : Prop := forall e, In e l -> mItem e = item -> mKey e = key -> mKind e = k.

(* nobody is still adding to the registry of a snapshot *)
Definition holds (r : nat) (j : job) : Prop :=
  match jPc j with PReg r' | PReg2 r' | PObj r' => r' = r | _ => False end.
Definition settled (s : mst) (r : nat) : Prop := forall j, In j (mJobs s) -> ~ holds r j.
(* a run in which the reporter looks at a snapshot only after it has settled *)
Inductive careful (cap : nat) : mst -> list mop -> mst -> Prop :=
| cf_nil s : careful cap s [] s
| cf_cons s o s1 os s2 : mstep cap s o = Some s1 ->
    (forall i key r c, o = ORead i key -> nth_error (mSnaps s) i = Some (r, c) -> settled s r) ->
    careful cap s1 os s2 -> careful cap s (o :: os) s2.
Definition snapshot_of (s : mst) (r : nat) : Prop := exists c, In (r, c) (mSnaps s).
(* what the registries of the snapshots of an item hold by now, whatever was reported *)
Definition collected (s : mst) (item key : bs) : Z :=
  total (map (fun sn => countEntry (aget bs_eqb (regOf s (fst sn)) key)) (filter (of_item s item) (mSnaps s))).
