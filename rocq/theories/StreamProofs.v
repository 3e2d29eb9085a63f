From Coq Require Import NArith List Bool Lia Arith.
From Verif Require Import Base StreamModel StreamSpec.
Import ListNotations.
Open Scope N_scope.

Definition holds (s : st) (h k : nat) : Prop :=
  (h < stNh s)%nat /\ (stHpc s h = HRes k \/ stHpc s h = HPush k).
Definition quiet (s : st) (k : nat) : Prop := sTok (stStm s k) = 0%nat /\ forall h, ~ holds s h k.
Definition clean (s : st) (k : nat) : Prop := quiet s k /\ sRes (stStm s k) = None.
Definition inTab (s : st) (i : nat) : option nat :=
  stTab s (cCh (stCall s i)) (cHb (stCall s i)) (sidOf (stCall s i)).
Definition expReq (c : call) : option N := if cHb c then None else Some (cReq c).
Definition reqS (s : st) (i : nat) : Prop := sReq (stStm s (cStm (stCall s i))) = expReq (stCall s i).
Definition isSent (s : st) (i : nat) : Prop := In (cCh (stCall s i), sidOf (stCall s i)) (stSent s).
Definition live (s : st) (i : nat) : Prop :=
  let k := cStm (stCall s i) in
  (inTab s i = Some k /\ clean s k) \/
  (inTab s i = None /\ (exists h, holds s h k) /\ sTok (stStm s k) = 0%nat) \/
  (inTab s i = None /\ sTok (stStm s k) = 1%nat /\ forall h, ~ holds s h k).
Definition phase (s : st) (i : nat) : Prop :=
  let k := cStm (stCall s i) in let can := sCan (stStm s k) in
  match stPc s i with
  | PReg => clean s k /\ reqS s i /\ can = true /\ inTab s i = None /\ ~ isSent s i
  | PSend => clean s k /\ reqS s i /\ can = true /\ inTab s i = Some k /\ ~ isSent s i
  | PWait => live s i /\ reqS s i /\ can = true
  | PRemove r => reqS s i /\ ((can = false /\ live s i) \/ (can = true /\ quiet s k /\ inTab s i = None))
  | PRelease r => (can = true /\ quiet s k /\ (isSent s i -> inTab s i = None)) \/ (can = false /\ reqS s i /\ inTab s i = None)
  | PPut r => clean s k /\ sReq (stStm s k) = None /\ (isSent s i -> inTab s i = None)
  | PDone _ => True
  end.
Definition active (p : cpc) : Prop := match p with PDone _ => False | _ => True end.
Definition late (p : cpc) : Prop := match p with PReg | PSend | PPut _ => False | _ => True end.
(* stream k still belongs to call i *)
Definition own (s : st) (i k : nat) : Prop :=
  (i < stNc s)%nat /\ cStm (stCall s i) = k /\ cSid (stCall s i) = Some (sId (stStm s k)).

Record inv (s : st) : Prop := {
  v_sid : forall i j a, (i < stNc s)%nat -> (j < stNc s)%nat -> cSid (stCall s i) = Some a -> cSid (stCall s j) = Some a -> i = j;
  v_act : forall i, (i < stNc s)%nat -> active (stPc s i) ->
          (cStm (stCall s i) < stNs s)%nat /\ own s i (cStm (stCall s i)) /\ ~ In (cStm (stCall s i)) (stPool s) /\ phase s i;
  v_hold : forall h k, holds s h k -> (k < stNs s)%nat /\ ~ In k (stPool s) /\ sTok (stStm s k) = 0%nat /\
           (forall h', holds s h' k -> h' = h) /\
           exists i, own s i k /\ answers s h i /\ reqS s i /\ late (stPc s i) /\ inTab s i = None /\
             (stHpc s h = HPush k -> sRes (stStm s k) = Some (mkResp (ownId (stCall s i)) (hBody (stHnd s h))));
  v_tok : forall k, sTok (stStm s k) <> 0%nat -> (k < stNs s)%nat /\ ~ In k (stPool s) /\ sTok (stStm s k) = 1%nat /\
          (forall h, ~ holds s h k) /\
          exists i h, own s i k /\ answers s h i /\ late (stPc s i) /\ inTab s i = None /\
             sRes (stStm s k) = Some (mkResp (ownId (stCall s i)) (hBody (stHnd s h)));
  v_tab : forall ch hb id k, stTab s ch hb id = Some k -> (k < stNs s)%nat /\
          exists i, (i < stNc s)%nat /\ cCh (stCall s i) = ch /\ cHb (stCall s i) = hb /\ cSid (stCall s i) = Some id /\
            cStm (stCall s i) = k /\ stPc s i <> PReg /\
            (In (ch, id) (stSent s) -> stPc s i = PWait \/ exists r, stPc s i = PRemove r);
  v_sent : forall ch id, In (ch, id) (stSent s) -> exists i, (i < stNc s)%nat /\ cSid (stCall s i) = Some id /\ cCh (stCall s i) = ch /\
            stPc s i <> PReg /\ stPc s i <> PSend;
  v_pool : NoDup (stPool s) /\ forall k, In k (stPool s) -> (k < stNs s)%nat /\ clean s k /\ sReq (stStm s k) = None;
  v_new : forall k, (stNs s <= k)%nat -> sTok (stStm s k) = 0%nat;
  v_hnd : forall h, (h < stNh s)%nat -> In (hCh (stHnd s h), hRid (stHnd s h)) (stSent s);
  v_done : forall h, (h < stNh s)%nat -> stHpc s h <> HLook -> stTab s (hCh (stHnd s h)) (hHb (stHnd s h)) (hRid (stHnd s h)) = None;
  v_res : forall i r, (i < stNc s)%nat ->
          (stPc s i = PRemove r \/ stPc s i = PRelease r \/ stPc s i = PPut r \/ stPc s i = PDone r) ->
          r <> RNil /\ forall a, r = ROk a -> rRid a = ownId (stCall s i) /\ exists h, answers s h i /\ rOf a = hBody (stHnd s h)
}.

Lemma fupd_eq A (f : nat -> A) k v : fupd f k v k = v.
Proof. unfold fupd. now rewrite Nat.eqb_refl. Qed.
Lemma fupd_ne A (f : nat -> A) k v x : x <> k -> fupd f k v x = f x.
Proof. unfold fupd. destruct (Nat.eqb_spec x k); congruence. Qed.
Lemma tupd_eq t c h i v : tupd t c h i v c h i = v.
Proof. unfold tupd. now rewrite Nat.eqb_refl, eqb_reflx, N.eqb_refl. Qed.
Lemma tupd_ne t c h i v c' h' i' : (c', h', i') <> (c, h, i) -> tupd t c h i v c' h' i' = t c' h' i'.
Proof.
  unfold tupd. intros H. destruct (Nat.eqb_spec c' c); [|reflexivity]. destruct (Bool.eqb h' h) eqn:E; [|reflexivity].
  apply eqb_prop in E. destruct (N.eqb_spec i' i); [|reflexivity]. subst. now destruct H.
Qed.
Lemma tupd_cases t c h i v c' h' i' :
  (c' = c /\ h' = h /\ i' = i /\ tupd t c h i v c' h' i' = v) \/
  ((c', h', i') <> (c, h, i) /\ tupd t c h i v c' h' i' = t c' h' i').
Proof.
  unfold tupd. destruct (Nat.eqb_spec c' c) as [->|N1]. 2: right; split; [congruence|reflexivity].
  destruct (Bool.eqb h' h) eqn:E. 2: right; split; [|reflexivity]; intros H; injection H as -> ->; rewrite eqb_reflx in E; discriminate E.
  apply eqb_prop in E. destruct (N.eqb_spec i' i) as [->|N2]; [left|right]; subst; auto. split; [congruence|reflexivity].
Qed.

Lemma sidOf_Some c a : cSid c = Some a -> sidOf c = a.
Proof. unfold sidOf. now intros ->. Qed.
Lemma poolDel_In k l x : In x (poolDel k l) <-> In x l /\ x <> k.
Proof. unfold poolDel. rewrite filter_In, negb_true_iff, Nat.eqb_neq. reflexivity. Qed.
Lemma poolDel_NoDup k l : NoDup l -> NoDup (poolDel k l).
Proof. apply NoDup_filter. Qed.

Lemma inv0 : inv st0.
Proof.
  split; unfold holds, st0; cbn; try (intros; lia); try (intros; contradiction); try (intros; discriminate).
  - split; [constructor|intros k []].
Qed.

Lemma own_inj s i j k : inv s -> own s i k -> own s j k -> i = j.
Proof. intros I (A1 & A2 & A3) (B1 & B2 & B3). exact (v_sid s I i j _ A1 B1 A3 B3). Qed.

Definition obs (x y : stm) : Prop :=
  sId x = sId y /\ sReq x = sReq y /\ sRes x = sRes y /\ sTok x = sTok y /\ sCan x = sCan y.
Lemma obs_refl x : obs x x. Proof. repeat split. Qed.

Lemma phase_ext s s' j :
  stCall s' j = stCall s j -> stPc s' j = stPc s j ->
  obs (stStm s' (cStm (stCall s j))) (stStm s (cStm (stCall s j))) ->
  (forall h, holds s' h (cStm (stCall s j)) <-> holds s h (cStm (stCall s j))) ->
  inTab s' j = inTab s j -> (isSent s' j <-> isSent s j) ->
  phase s j -> phase s' j.
Proof.
  intros C P (O1 & O2 & O3 & O4 & O5) H T S.
  assert (Q : quiet s' (cStm (stCall s j)) <-> quiet s (cStm (stCall s j))).
  { unfold quiet. rewrite O4. split; intros [A B]; (split; [exact A|]); intros h X; apply (B h), H, X. }
  assert (Cl : clean s' (cStm (stCall s j)) <-> clean s (cStm (stCall s j))).
  { unfold clean. rewrite O3, Q. reflexivity. }
  assert (R : reqS s' j <-> reqS s j). { unfold reqS. rewrite C, O2. reflexivity. }
  assert (L : live s' j <-> live s j).
  { unfold live. rewrite C, T, O4, Cl.
    assert (E1 : (exists h, holds s' h (cStm (stCall s j))) <-> (exists h, holds s h (cStm (stCall s j)))).
    { split; intros [h X]; exists h; apply H, X. }
    assert (E2 : (forall h, ~ holds s' h (cStm (stCall s j))) <-> (forall h, ~ holds s h (cStm (stCall s j)))).
    { split; intros X h Y; apply (X h), H, Y. }
    rewrite E1, E2. reflexivity. }
  unfold phase. rewrite P, C, O5, O2. destruct (stPc s j); rewrite ?Cl, ?R, ?T, ?S, ?L, ?Q; auto.
Qed.

(* keys of different calls differ *)
Lemma key_ne s i j : inv s -> (i < stNc s)%nat -> (j < stNc s)%nat -> i <> j -> cSid (stCall s i) <> None -> cSid (stCall s j) <> None ->
  (cCh (stCall s j), cHb (stCall s j), sidOf (stCall s j)) <> (cCh (stCall s i), cHb (stCall s i), sidOf (stCall s i)).
Proof.
  intros I Li Lj N Hi Hj E. injection E as _ _ E. unfold sidOf in E.
  destruct (cSid (stCall s i)) as [a|] eqn:Ei; [|now destruct Hi]. destruct (cSid (stCall s j)) as [b|] eqn:Ej; [|now destruct Hj].
  subst b. apply N. exact (v_sid s I i j a Li Lj Ei Ej).
Qed.
Lemma own_sid s i k : own s i k -> cSid (stCall s i) <> None.
Proof. intros (_ & _ & E). rewrite E. discriminate. Qed.

(* only timers, the clock and shutdown flags changed *)
Lemma inv_frame s f cl now :
  (forall k, obs (f k) (stStm s k)) -> inv s ->
  inv (mkSt f (stNs s) (stPool s) (stTab s) (stCall s) (stPc s) (stNc s) (stHnd s) (stHpc s) (stNh s) (stSent s) cl now).
Proof.
  intros F I. set (s' := mkSt _ _ _ _ _ _ _ _ _ _ _ _ _).
  assert (OW : forall i k, own s' i k <-> own s i k).
  { intros i k. unfold own. cbn. destruct (F k) as (E & _). rewrite E. reflexivity. }
  assert (RQ : forall i, reqS s' i <-> reqS s i).
  { intros i. unfold reqS. cbn. destruct (F (cStm (stCall s i))) as (_ & E & _). rewrite E. reflexivity. }
  assert (TK : forall k, sTok (f k) = sTok (stStm s k)) by (intros k; apply F).
  assert (RS : forall k, sRes (f k) = sRes (stStm s k)) by (intros k; apply F).
  split.
  - exact (v_sid s I).
  - intros i Li Ha. destruct (v_act s I i Li Ha) as (A & B & C & D). split; [exact A|]. split; [apply OW, B|]. split; [exact C|].
    revert D. apply phase_ext; cbn; try reflexivity. apply F.
  - intros h k H. destruct (v_hold s I h k H) as (A & B & C & D & i & E1 & E2 & E3 & E4 & E5 & E6).
    split; [exact A|]. split; [exact B|]. split; [cbn; rewrite TK; exact C|]. split; [exact D|]. exists i.
    split; [apply OW, E1|]. split; [exact E2|]. split; [apply RQ, E3|]. split; [exact E4|]. split; [exact E5|]. cbn. rewrite RS. exact E6.
  - intros k H. cbn in H. rewrite TK in H. destruct (v_tok s I k H) as (A & B & C & D & i & h & E1 & E2 & E4 & E5 & E6).
    split; [exact A|]. split; [exact B|]. split; [cbn; rewrite TK; exact C|]. split; [exact D|]. exists i, h.
    split; [apply OW, E1|]. split; [exact E2|]. split; [exact E4|]. split; [exact E5|]. cbn. rewrite RS. exact E6.
  - exact (v_tab s I).
  - exact (v_sent s I).
  - destruct (v_pool s I) as [A B]. split; [exact A|]. intros k Hk. destruct (B k Hk) as (C & [[D1 D2] D3] & E). split; [exact C|].
    destruct (F k) as (F1 & F2 & F3 & F4 & F5). split; [split; [split; [cbn; rewrite F4; exact D1|exact D2]|cbn; rewrite F3; exact D3]|cbn; rewrite F2; exact E].
  - intros k Hk. cbn. rewrite TK. exact (v_new s I k Hk).
  - exact (v_hnd s I).
  - exact (v_done s I).
  - exact (v_res s I).
Qed.

(* ---- starting a call ---- *)
Definition addCall (s : st) (c : call) (p : cpc) : st :=
  mkSt (stStm s) (stNs s) (stPool s) (stTab s) (fupd (stCall s) (stNc s) c) (fupd (stPc s) (stNc s) p) (S (stNc s))
       (stHnd s) (stHpc s) (stNh s) (stSent s) (stClosed s) (stNow s).
Lemma add_old s c p i : (i < stNc s)%nat -> stCall (addCall s c p) i = stCall s i /\ stPc (addCall s c p) i = stPc s i.
Proof. intros H. cbn. rewrite !fupd_ne by lia. split; reflexivity. Qed.
Lemma add_new s c p : stCall (addCall s c p) (stNc s) = c /\ stPc (addCall s c p) (stNc s) = p.
Proof. cbn. rewrite !fupd_eq. split; reflexivity. Qed.
Lemma inTab_old s c p i : (i < stNc s)%nat -> inTab (addCall s c p) i = inTab s i.
Proof. intros H. unfold inTab. destruct (add_old s c p i H) as [-> _]. reflexivity. Qed.

Lemma inv_addCall s c p : inv s ->
  (forall a, cSid c = Some a -> forall i, (i < stNc s)%nat -> cSid (stCall s i) <> Some a) ->
  (active p -> (cStm c < stNs s)%nat /\ cSid c = Some (sId (stStm s (cStm c))) /\ ~ In (cStm c) (stPool s) /\
               phase (addCall s c p) (stNc s)) ->
  (forall r, p = PRemove r \/ p = PRelease r \/ p = PPut r \/ p = PDone r -> r = RShutdown) ->
  inv (addCall s c p).
Proof.
  intros I Fr Ac Rs. set (s' := addCall s c p).
  assert (CO : forall i, (i < stNc s)%nat -> stCall s' i = stCall s i) by (intros i H; apply (add_old s c p i H)).
  assert (PO : forall i, (i < stNc s)%nat -> stPc s' i = stPc s i) by (intros i H; apply (add_old s c p i H)).
  assert (CN : stCall s' (stNc s) = c) by apply (add_new s c p).
  assert (PN : stPc s' (stNc s) = p) by apply (add_new s c p).
  assert (OW : forall i k, own s i k -> own s' i k).
  { intros i k (A & B & C). unfold own. rewrite (CO i A). split; [cbn; lia|]. split; [exact B|exact C]. }
  assert (AN : forall h i, (i < stNc s)%nat -> answers s h i -> answers s' h i).
  { intros h i Li (A & B & C & D). unfold answers. rewrite (CO i Li). split; [exact A|]. split; [exact B|]. split; [exact C|exact D]. }
  split.
  - intros i j a Li Lj Ei Ej. cbn in Li, Lj.
    destruct (Nat.eq_dec i (stNc s)) as [->|Ni], (Nat.eq_dec j (stNc s)) as [->|Nj]; [reflexivity| | |].
    + exfalso. rewrite CN in Ei. rewrite CO in Ej by lia. apply (Fr a Ei j); [lia|exact Ej].
    + exfalso. rewrite CN in Ej. rewrite CO in Ei by lia. apply (Fr a Ej i); [lia|exact Ei].
    + rewrite CO in Ei, Ej by lia. apply (v_sid s I i j a); [lia|lia|exact Ei|exact Ej].
  - intros i Li Ha. cbn in Li. destruct (Nat.eq_dec i (stNc s)) as [->|Ni].
    + rewrite PN in Ha. rewrite CN. destruct (Ac Ha) as (A & B & C & D).
      split; [exact A|]. split; [|split; [exact C|exact D]]. unfold own. rewrite CN. split; [cbn; lia|]. split; [reflexivity|exact B].
    + assert (Li' : (i < stNc s)%nat) by lia. rewrite PO in Ha by exact Li'. destruct (v_act s I i Li' Ha) as (A & B & C & D).
      rewrite (CO i Li'). split; [exact A|]. split; [apply OW, B|]. split; [exact C|]. revert D.
      apply phase_ext; [apply CO, Li'|apply PO, Li'|apply obs_refl|reflexivity|apply inTab_old, Li'|].
      unfold isSent. rewrite (CO i Li'). reflexivity.
  - intros h k H. destruct (v_hold s I h k H) as (A & B & C & D & i & E1 & E2 & E3 & E4 & E5 & E6).
    split; [exact A|]. split; [exact B|]. split; [exact C|]. split; [exact D|]. exists i. pose proof (proj1 E1) as Li.
    split; [apply OW, E1|]. split; [apply AN; assumption|]. split; [unfold reqS; rewrite (CO i Li); exact E3|].
    split; [rewrite (PO i Li); exact E4|]. split; [rewrite <- E5; apply inTab_old, Li|]. rewrite (CO i Li). exact E6.
  - intros k H. destruct (v_tok s I k H) as (A & B & C & D & i & h & E1 & E2 & E4 & E5 & E6).
    split; [exact A|]. split; [exact B|]. split; [exact C|]. split; [exact D|]. exists i, h. pose proof (proj1 E1) as Li.
    split; [apply OW, E1|]. split; [apply AN; assumption|].
    split; [rewrite (PO i Li); exact E4|]. split; [rewrite <- E5; apply inTab_old, Li|]. rewrite (CO i Li). exact E6.
  - intros ch hb id k H. destruct (v_tab s I ch hb id k H) as (A & i & Li & B). split; [exact A|]. exists i.
    rewrite (CO i Li), (PO i Li). split; [cbn; lia|exact B].
  - intros ch id H. destruct (v_sent s I ch id H) as (i & Li & B). exists i. rewrite (CO i Li), (PO i Li). split; [cbn; lia|exact B].
  - exact (v_pool s I).
  - exact (v_new s I).
  - exact (v_hnd s I).
  - exact (v_done s I).
  - intros i r Li H. cbn in Li. destruct (Nat.eq_dec i (stNc s)) as [->|Ni].
    + rewrite PN in H. rewrite (Rs r H). split; [discriminate|]. intros a X. discriminate X.
    + assert (Li' : (i < stNc s)%nat) by lia. rewrite (PO i Li') in H. destruct (v_res s I i r Li' H) as [A B]. split; [exact A|].
      intros a Ea. destruct (B a Ea) as (B1 & h & B2 & B3). rewrite (CO i Li'). split; [exact B1|]. exists h. split; [apply AN; assumption|exact B3].
Qed.

(* a stream nobody uses is refilled (and leaves the pool, or is new) *)
Lemma inv_fill s k x ns' pool' : inv s ->
  (forall i, (i < stNc s)%nat -> active (stPc s i) -> cStm (stCall s i) <> k) -> quiet s k -> sTok x = 0%nat ->
  (stNs s <= ns')%nat -> (forall y, In y pool' -> In y (stPool s) /\ y <> k) -> NoDup pool' ->
  (forall y, (ns' <= y)%nat -> y <> k) ->
  inv (mkSt (fupd (stStm s) k x) ns' pool' (stTab s) (stCall s) (stPc s) (stNc s) (stHnd s) (stHpc s) (stNh s) (stSent s) (stClosed s) (stNow s)).
Proof.
  intros I Na [Qt Qh] Tx Ln Hp Nd Hk. set (s' := mkSt _ _ _ _ _ _ _ _ _ _ _ _ _).
  assert (SO : forall y, y <> k -> stStm s' y = stStm s y) by (intros y Hy; cbn; apply fupd_ne, Hy).
  assert (PO : forall y, ~ In y (stPool s) -> ~ In y pool') by (intros y Hy Hy'; apply Hy, Hp, Hy').
  split.
  - exact (v_sid s I).
  - intros i Li Ha. destruct (v_act s I i Li Ha) as (A & B & C & D). pose proof (Na i Li Ha) as Nk.
    split; [cbn; lia|]. split; [|split; [apply PO, C|]].
    + destruct B as (B1 & B2 & B3). split; [exact B1|]. split; [exact B2|]. rewrite SO by exact Nk. exact B3.
    + revert D. apply phase_ext; try reflexivity. rewrite SO by exact Nk. apply obs_refl.
  - intros h y H. destruct (v_hold s I h y H) as (A & B & C & D & i & E1 & E2 & E3 & E4 & E5 & E6).
    assert (Ny : y <> k) by (intros ->; exact (Qh h H)).
    split; [cbn; lia|]. split; [apply PO, B|]. rewrite SO by exact Ny. split; [exact C|]. split; [exact D|]. exists i.
    pose proof E1 as (E11 & E12 & E13).
    split; [split; [exact E11|split; [exact E12|rewrite SO by exact Ny; exact E13]]|]. split; [exact E2|].
    split; [unfold reqS; change (stCall s' i) with (stCall s i); rewrite SO by (rewrite E12; exact Ny); exact E3|].
    split; [exact E4|]. split; [exact E5|exact E6].
  - intros y H. assert (Ny : y <> k) by (intros ->; apply H; cbn; rewrite fupd_eq; exact Tx).
    rewrite SO in H |- * by exact Ny.
    destruct (v_tok s I y H) as (A & B & C & D & i & h & E1 & E2 & E4 & E5 & E6).
    split; [cbn; lia|]. split; [apply PO, B|]. split; [exact C|]. split; [exact D|]. exists i, h.
    pose proof E1 as (E11 & E12 & E13).
    split; [split; [exact E11|split; [exact E12|rewrite SO by exact Ny; exact E13]]|]. split; [exact E2|].
    split; [exact E4|]. split; [exact E5|exact E6].
  - intros ch hb id y H. destruct (v_tab s I ch hb id y H) as (A & B). split; [cbn; lia|exact B].
  - exact (v_sent s I).
  - split; [exact Nd|]. intros y Hy. destruct (Hp y Hy) as [Hy1 Hy2]. destruct (v_pool s I) as [_ B]. destruct (B y Hy1) as (C & [[D1 D2] D3] & E).
    split; [cbn; lia|]. split; [split; [split|]|]; rewrite ?SO by exact Hy2; assumption.
  - intros y Hy. assert (Ny : y <> k) by (apply Hk; exact Hy). cbn in Hy. rewrite SO by exact Ny. apply (v_new s I). lia.
  - exact (v_hnd s I).
  - exact (v_done s I).
  - exact (v_res s I).
Qed.

Lemma inv_start s ch hb req timeout sid pick s' :
  inv s -> legal s (OStart ch hb req timeout sid pick) -> startCall s ch hb req timeout sid pick = Some s' -> inv s'.
Proof.
  intros I Lg. cbn in Lg. unfold startCall.
  assert (NT : forall h, stTab s ch h sid = None).
  { intros h. destruct (stTab s ch h sid) as [k|] eqn:E; [|reflexivity]. destruct (v_tab s I _ _ _ _ E) as (_ & i & Li & _ & _ & Ei & _).
    destruct (Lg i Li Ei). }
  assert (NS : ~ In (ch, sid) (stSent s)).
  { intros H. destruct (v_sent s I _ _ H) as (i & Li & Ei & _). destruct (Lg i Li Ei). }
  destruct (stClosed s ch).
  { intros E. injection E as <-. apply (inv_addCall s _ (PDone RShutdown) I).
    - cbn. intros a X. discriminate X.
    - intros [].
    - intros r [X|[X|[X|X]]]; congruence. }
  destruct pick as [k|].
  - destruct (existsb (Nat.eqb k) (stPool s)) eqn:Ek; [|intros X; discriminate X]. intros E. injection E as <-.
    apply existsb_exists in Ek. destruct Ek as (k' & Hk & Ek). apply Nat.eqb_eq in Ek. subst k'.
    destruct (v_pool s I) as [Nd Pl]. destruct (Pl k Hk) as (Lk & [Qk Rk] & Rq).
    set (s1 := mkSt (fupd (stStm s) k (fillStream (stStm s k) ch hb req sid)) (stNs s) (poolDel k (stPool s)) (stTab s) (stCall s) (stPc s)
                 (stNc s) (stHnd s) (stHpc s) (stNh s) (stSent s) (stClosed s) (stNow s)).
    assert (I1 : inv s1).
    { apply inv_fill; try assumption.
      - intros i Li Ha <-. destruct (v_act s I i Li Ha) as (_ & _ & C & _). exact (C Hk).
      - exact (proj1 Qk).
      - lia.
      - intros y Hy. apply poolDel_In in Hy. exact Hy.
      - apply poolDel_NoDup, Nd.
      - intros y Hy. lia. }
    assert (Q1 : quiet s1 k).
    { split; [cbn; rewrite fupd_eq; exact (proj1 Qk)|exact (proj2 Qk)]. }
    apply (inv_addCall s1 (mkCall ch hb req (stNow s + timeout) (Some sid) k (sTick (stStm s k))) PReg I1).
    + cbn. intros a X. injection X as <-. exact Lg.
    + intros _. cbn [cStm cSid]. split; [exact Lk|]. split; [cbn; rewrite fupd_eq; reflexivity|].
      split; [cbn; rewrite poolDel_In; intros [_ X]; now apply X|].
      unfold phase. destruct (add_new s1 (mkCall ch hb req (stNow s + timeout) (Some sid) k (sTick (stStm s k))) PReg) as [E1 E2].
      unfold inTab, isSent, reqS. rewrite E2, E1. cbn [cStm cCh cHb sidOf cSid].
      split; [split; [exact Q1|cbn; rewrite fupd_eq; exact Rk]|].
      split; [unfold expReq; cbn; rewrite fupd_eq; cbn; destruct hb; [exact Rq|reflexivity]|].
      split; [cbn; rewrite fupd_eq; reflexivity|]. split; [apply NT|exact NS].
    + intros r [X|[X|[X|X]]]; discriminate X.
  - intros E. injection E as <-. set (k := stNs s).
    set (s1 := mkSt (fupd (stStm s) k (fillStream stm0 ch hb req sid)) (S k) (stPool s) (stTab s) (stCall s) (stPc s)
                 (stNc s) (stHnd s) (stHpc s) (stNh s) (stSent s) (stClosed s) (stNow s)).
    destruct (v_pool s I) as [Nd Pl].
    assert (NK : ~ In k (stPool s)) by (intros X; destruct (Pl k X) as [Y _]; unfold k in Y; lia).
    assert (Qk : quiet s k).
    { split; [apply (v_new s I); unfold k; lia|]. intros h X. destruct (v_hold s I h k X) as [Y _]. unfold k in Y. lia. }
    assert (I1 : inv s1).
    { apply inv_fill; try assumption.
      - intros i Li Ha E. destruct (v_act s I i Li Ha) as (C & _). rewrite E in C. unfold k in C. lia.
      - reflexivity.
      - unfold k. lia.
      - intros y Hy. split; [exact Hy|]. intros ->. exact (NK Hy).
      - intros y Hy. lia. }
    apply (inv_addCall s1 (mkCall ch hb req (stNow s + timeout) (Some sid) k false) PReg I1).
    + cbn. intros a X. injection X as <-. exact Lg.
    + intros _. cbn [cStm cSid]. split; [cbn; lia|]. split; [cbn; rewrite fupd_eq; reflexivity|].
      split; [exact NK|].
      unfold phase. destruct (add_new s1 (mkCall ch hb req (stNow s + timeout) (Some sid) k false) PReg) as [E1 E2].
      unfold inTab, isSent, reqS. rewrite E2, E1. cbn [cStm cCh cHb sidOf cSid].
      split; [split; [split; [cbn; rewrite fupd_eq; reflexivity|exact (proj2 Qk)]|cbn; rewrite fupd_eq; reflexivity]|].
      split; [unfold expReq; cbn; rewrite fupd_eq; cbn; destruct hb; reflexivity|].
      split; [cbn; rewrite fupd_eq; reflexivity|]. split; [apply NT|exact NS].
    + intros r [X|[X|[X|X]]]; discriminate X.
Qed.

(* ---- a step of call i ---- *)
Definition stepSt (s : st) (i : nat) (p : cpc) (x : stm) tab sent pool : st :=
  mkSt (fupd (stStm s) (cStm (stCall s i)) x) (stNs s) pool tab (stCall s) (fupd (stPc s) i p) (stNc s) (stHnd s) (stHpc s) (stNh s)
       sent (stClosed s) (stNow s).
Definition keyTab (s : st) (i : nat) (t : nat -> bool -> N -> option nat) : option nat :=
  t (cCh (stCall s i)) (cHb (stCall s i)) (sidOf (stCall s i)).
Lemma inv_call s i p x tab sent pool :
  let k := cStm (stCall s i) in let c := stCall s i in
  inv s -> (i < stNc s)%nat -> active (stPc s i) -> sId x = sId (stStm s k) ->
  (forall ch hb id, (ch, hb, id) <> (cCh c, cHb c, sidOf c) -> tab ch hb id = stTab s ch hb id) ->
  (sent = stSent s \/ sent = (cCh c, sidOf c) :: stSent s) ->
  (pool = stPool s \/ (pool = k :: stPool s /\ ~ active p /\ sTok x = 0%nat /\ (forall h, ~ holds s h k) /\ sRes x = None /\ sReq x = None)) ->
  (active p -> pool = stPool s /\ phase (stepSt s i p x tab sent pool) i) ->
  (forall h, holds s h k -> pool = stPool s /\ sTok x = 0%nat /\ sReq x = sReq (stStm s k) /\ sRes x = sRes (stStm s k) /\ late p /\ keyTab s i tab = None) ->
  (sTok x <> 0%nat -> pool = stPool s /\ sTok x = sTok (stStm s k) /\ sRes x = sRes (stStm s k) /\ late p /\ keyTab s i tab = None) ->
  (forall k', keyTab s i tab = Some k' -> k' = k /\ p <> PReg /\ (In (cCh c, sidOf c) sent -> p = PWait \/ exists r, p = PRemove r)) ->
  (In (cCh c, sidOf c) sent -> p <> PReg /\ p <> PSend) ->
  (keyTab s i tab = None \/ keyTab s i tab = inTab s i \/ ~ In (cCh c, sidOf c) (stSent s)) ->
  (forall r, p = PRemove r \/ p = PRelease r \/ p = PPut r \/ p = PDone r ->
      r <> RNil /\ forall a, r = ROk a -> rRid a = ownId c /\ exists h, answers s h i /\ rOf a = hBody (stHnd s h)) ->
  inv (stepSt s i p x tab sent pool).
Proof.
  intros k c I Li Ac Ix HT HS HP Ph Ho To Ta Se Dn Re. set (s' := stepSt s i p x tab sent pool).
  destruct (v_act s I i Li Ac) as (Lk & Ow & Np & _). fold k in Lk, Ow, Np.
  pose proof (own_sid s i k Ow) as Si.
  assert (SO : forall y, y <> k -> stStm s' y = stStm s y) by (intros y Hy; cbn; apply fupd_ne, Hy).
  assert (SN : stStm s' k = x) by (cbn; apply fupd_eq).
  assert (IdS : forall y, sId (stStm s' y) = sId (stStm s y)).
  { intros y. destruct (Nat.eq_dec y k) as [->|N]; [rewrite SN; exact Ix|rewrite SO by exact N; reflexivity]. }
  assert (OW : forall j y, own s' j y <-> own s j y).
  { intros j y. unfold own. rewrite IdS. reflexivity. }
  assert (PcO : forall j, j <> i -> stPc s' j = stPc s j) by (intros j Hj; cbn; apply fupd_ne, Hj).
  assert (PcN : stPc s' i = p) by (cbn; apply fupd_eq).
  assert (TO : forall j, (j < stNc s)%nat -> j <> i -> cSid (stCall s j) <> None -> inTab s' j = inTab s j).
  { intros j Lj Nj Sj. unfold inTab. cbn [stTab stCall s' stepSt]. apply HT. apply (key_ne s i j); auto. }
  assert (PoI : forall y, In y pool -> In y (stPool s) \/ (y = k /\ ~ active p /\ sTok x = 0%nat /\ (forall h, ~ holds s h k) /\ sRes x = None /\ sReq x = None)).
  { intros y Hy. destruct HP as [->|(-> & B)]; [left; exact Hy|]. destruct Hy as [<-|Hy]; [right; split; [reflexivity|exact B]|left; exact Hy]. }
  assert (PoN : forall y, y <> k -> ~ In y (stPool s) -> ~ In y pool).
  { intros y Ny Hy Hy'. destruct (PoI y Hy') as [X|[X _]]; [exact (Hy X)|exact (Ny X)]. }
  assert (SeO : forall ch id, (ch, id) <> (cCh c, sidOf c) -> In (ch, id) sent -> In (ch, id) (stSent s)).
  { intros ch id N H. destruct HS as [->| ->]; [exact H|]. destruct H as [H|H]; [now symmetry in H|exact H]. }
  assert (SeI : forall y, In y (stSent s) -> In y sent).
  { intros y H. destruct HS as [->| ->]; [exact H|right; exact H]. }
  assert (SidNe : forall j, (j < stNc s)%nat -> j <> i -> cSid (stCall s j) <> None -> sidOf (stCall s j) <> sidOf c).
  { intros j Lj Nj Sj E. unfold sidOf in E. unfold c in E. destruct (cSid (stCall s i)) as [a|] eqn:Ei; [|now apply Si].
    destruct (cSid (stCall s j)) as [b|] eqn:Ej; [|now apply Sj]. subst b. apply Nj. exact (v_sid s I j i a Lj Li Ej Ei). }
  (* an owner of k is i *)
  assert (OwK : forall j, own s j k -> j = i) by (intros j H; exact (own_inj s j i k I H Ow)).
  assert (OwN : forall j y, own s j y -> y <> k -> j <> i).
  { intros j y (_ & E & _) N ->. apply N. symmetry. exact E. }
  split.
  - exact (v_sid s I).
  - intros j Lj Ha. destruct (Nat.eq_dec j i) as [->|Nj].
    + rewrite PcN in Ha. destruct (Ph Ha) as [P1 P2]. split; [exact Lk|]. split; [apply OW, Ow|].
      split; [change (stPool s') with pool; rewrite P1; exact Np|exact P2].
    + rewrite PcO in Ha by exact Nj. destruct (v_act s I j Lj Ha) as (A & B & C & D). change (stCall s' j) with (stCall s j).
      assert (Nk : cStm (stCall s j) <> k).
      { intros E. rewrite E in B. exact (Nj (OwK j B)). }
      split; [exact A|]. split; [apply OW, B|]. split; [apply PoN; assumption|]. revert D.
      apply phase_ext; [reflexivity|apply PcO, Nj|rewrite SO by exact Nk; apply obs_refl|reflexivity| |].
      * apply TO; [exact Lj|exact Nj|exact (own_sid _ _ _ B)].
      * unfold isSent. change (stCall s' j) with (stCall s j). split; [|apply SeI].
        apply SeO. intros E. injection E as _ E. exact (SidNe j Lj Nj (own_sid _ _ _ B) E).
  - intros h y H. destruct (v_hold s I h y H) as (A & B & C & D & j & E1 & E2 & E3 & E4 & E5 & E6).
    destruct (Nat.eq_dec y k) as [->|Ny].
    + pose proof (OwK j E1) as ->. destruct (Ho h H) as (G1 & G2 & G3 & G4 & G5 & G6).
      split; [exact A|]. split; [change (stPool s') with pool; rewrite G1; exact B|]. rewrite SN. split; [exact G2|]. split; [exact D|].
      exists i. split; [apply OW, E1|]. split; [exact E2|].
      split; [unfold reqS; change (stCall s' i) with (stCall s i); change (cStm (stCall s i)) with k; rewrite SN, G3; exact E3|]. split; [rewrite PcN; exact G5|].
      split; [exact G6|]. rewrite G4. exact E6.
    + pose proof (OwN j y E1 Ny) as Nj. split; [exact A|]. split; [apply PoN; assumption|]. rewrite SO by exact Ny. split; [exact C|].
      split; [exact D|]. exists j. split; [apply OW, E1|]. split; [exact E2|].
      split; [unfold reqS; change (stCall s' j) with (stCall s j); rewrite SO by (destruct E1 as (_ & -> & _); exact Ny); exact E3|].
      split; [rewrite PcO by exact Nj; exact E4|]. split; [rewrite TO; [exact E5|exact (proj1 E1)|exact Nj|exact (own_sid _ _ _ E1)]|exact E6].
  - intros y H. destruct (Nat.eq_dec y k) as [->|Ny].
    + rewrite SN in H. destruct (To H) as (G1 & G2 & G3 & G5 & G6). rewrite G2 in H.
      destruct (v_tok s I k H) as (A & B & C & D & j & h & E1 & E2 & E4 & E5 & E6). pose proof (OwK j E1) as ->.
      split; [exact A|]. split; [change (stPool s') with pool; rewrite G1; exact B|]. rewrite SN, G2. split; [exact C|]. split; [exact D|].
      exists i, h. split; [apply OW, E1|]. split; [exact E2|]. split; [rewrite PcN; exact G5|].
      split; [exact G6|]. rewrite G3. exact E6.
    + rewrite SO in H |- * by exact Ny. destruct (v_tok s I y H) as (A & B & C & D & j & h & E1 & E2 & E4 & E5 & E6).
      pose proof (OwN j y E1 Ny) as Nj. split; [exact A|]. split; [apply PoN; assumption|]. split; [exact C|].
      split; [exact D|]. exists j, h. split; [apply OW, E1|]. split; [exact E2|].
      split; [rewrite PcO by exact Nj; exact E4|]. split; [rewrite TO; [exact E5|exact (proj1 E1)|exact Nj|exact (own_sid _ _ _ E1)]|exact E6].
  - intros ch hb id y H. change (stTab s') with tab in H.
    assert (Kd : {(ch, hb, id) = (cCh c, cHb c, sidOf c)} + {(ch, hb, id) <> (cCh c, cHb c, sidOf c)}).
    { repeat decide equality; apply N.eq_dec. }
    destruct Kd as [Ek|Nk].
    + injection Ek as -> -> ->. destruct (Ta y H) as (-> & T2 & T3). split; [exact Lk|]. exists i.
      change (stCall s' i) with c. rewrite PcN. split; [exact Li|]. split; [reflexivity|]. split; [reflexivity|].
      split; [unfold sidOf, c; destruct (cSid (stCall s i)); [reflexivity|now destruct Si]|]. split; [reflexivity|]. split; [exact T2|exact T3].
    + rewrite HT in H by exact Nk. destruct (v_tab s I ch hb id y H) as (A & j & Lj & B1 & B2 & B3 & B4 & B5 & B6).
      assert (Nj : j <> i).
      { intros ->. apply Nk. unfold c. rewrite B1, B2, (sidOf_Some _ _ B3). reflexivity. }
      split; [exact A|]. exists j. change (stCall s' j) with (stCall s j). rewrite PcO by exact Nj.
      split; [exact Lj|]. split; [exact B1|]. split; [exact B2|]. split; [exact B3|]. split; [exact B4|]. split; [exact B5|].
      intros X. apply B6. revert X. apply SeO. intros E. injection E as _ E. rewrite <- (sidOf_Some _ _ B3) in E. revert E.
      apply SidNe; [exact Lj|exact Nj|rewrite B3; discriminate].
  - intros ch id H. change (stSent s') with sent in H.
    assert (Kd : {(ch, id) = (cCh c, sidOf c)} + {(ch, id) <> (cCh c, sidOf c)}).
    { repeat decide equality; apply N.eq_dec. }
    destruct Kd as [Ek|Nk].
    + injection Ek as -> ->. exists i. rewrite PcN. split; [exact Li|]. change (stCall s' i) with c.
      split; [unfold sidOf, c; destruct (cSid (stCall s i)); [reflexivity|now destruct Si]|]. split; [reflexivity|]. exact (Se H).
    + apply (SeO _ _ Nk) in H. destruct (v_sent s I ch id H) as (j & Lj & B1 & B2 & B3).
      assert (Nj : j <> i).
      { intros ->. apply Nk. unfold c. rewrite B2, (sidOf_Some _ _ B1). reflexivity. }
      exists j. rewrite PcO by exact Nj. split; [exact Lj|]. split; [exact B1|]. split; [exact B2|exact B3].
  - destruct (v_pool s I) as [Nd Pl]. split.
    + change (stPool s') with pool. destruct HP as [->|(-> & _)]; [exact Nd|]. constructor; assumption.
    + intros y Hy. change (stPool s') with pool in Hy. destruct (PoI y Hy) as [X|(-> & _ & X1 & X2 & X3 & X4)].
      * assert (Ny : y <> k) by (intros ->; exact (Np X)). destruct (Pl y X) as (C & [[D1 D2] D3] & E).
        split; [exact C|]. split; [split; [split|]|]; rewrite ?SO by exact Ny; assumption.
      * split; [exact Lk|]. split; [split; [split|]|]; rewrite ?SN; assumption.
  - intros y Hy. change (stNs s') with (stNs s) in Hy. rewrite SO by lia. apply (v_new s I). exact Hy.
  - intros h Lh. apply SeI. exact (v_hnd s I h Lh).
  - intros h Lh Hh. change (stTab s') with tab. pose proof (v_done s I h Lh Hh) as V.
    change (stHnd s') with (stHnd s).
    assert (Kd : {(hCh (stHnd s h), hHb (stHnd s h), hRid (stHnd s h)) = (cCh c, cHb c, sidOf c)} + {(hCh (stHnd s h), hHb (stHnd s h), hRid (stHnd s h)) <> (cCh c, cHb c, sidOf c)}).
    { repeat decide equality; apply N.eq_dec. }
    destruct Kd as [Ek|Nk]; [|rewrite HT by exact Nk; exact V].
    injection Ek as E1 E2 E3. rewrite E1, E2, E3 in V |- *. destruct Dn as [X|[X|X]].
    + exact X.
    + unfold keyTab, inTab in X. fold c in X. rewrite X. exact V.
    + exfalso. apply X. rewrite <- E1, <- E3. exact (v_hnd s I h Lh).
  - intros j r Lj H. destruct (Nat.eq_dec j i) as [->|Nj].
    + rewrite PcN in H. exact (Re r H).
    + rewrite PcO in H by exact Nj. exact (v_res s I j r Lj H).
Qed.

Ltac ph := unfold phase, live, clean, quiet, reqS, inTab, isSent; cbn [stepSt stPc stCall stStm stTab stSent]; rewrite ?fupd_eq.
Lemma inv_callStep s i o s' : inv s -> (i < stNc s)%nat -> callStep s i o = Some s' -> inv s'.
Proof.
  intros I Li. unfold callStep. set (c := stCall s i). set (k := cStm c). set (x := stStm s k).
  assert (HV : active (stPc s i) -> (k < stNs s)%nat /\ own s i k /\ ~ In k (stPool s) /\ phase s i) by (apply (v_act s I i Li)).
  assert (VR : forall r, stPc s i = PRemove r \/ stPc s i = PRelease r \/ stPc s i = PPut r \/ stPc s i = PDone r ->
     r <> RNil /\ forall a, r = ROk a -> rRid a = ownId c /\ exists h, answers s h i /\ rOf a = hBody (stHnd s h)) by (intros r; apply (v_res s I i r Li)).
  assert (HO : forall h, holds s h k -> active (stPc s i) -> late (stPc s i) /\ inTab s i = None /\ reqS s i).
  { intros h H A. destruct (HV A) as (_ & Ow & _). destruct (v_hold s I h k H) as (_ & _ & _ & _ & j & E1 & _ & E3 & E4 & E5 & _).
    pose proof (own_inj s j i k I E1 Ow) as ->. auto. }
  assert (TI : forall k', inTab s i = Some k' -> active (stPc s i) -> k' = k /\ (In (cCh c, sidOf c) (stSent s) -> stPc s i = PWait \/ exists r, stPc s i = PRemove r)).
  { intros k' H A. destruct (HV A) as (_ & Ow & _). destruct (v_tab s I _ _ _ _ H) as (_ & j & Lj & B1 & B2 & B3 & B4 & B5 & B6).
    assert (j = i).
    { destruct Ow as (_ & _ & Os). assert (Es : cSid (stCall s i) = Some (sidOf (stCall s i))) by (unfold sidOf; now rewrite Os).
      exact (v_sid s I j i _ Lj Li B3 Es). }
    subst j. split; [symmetry; exact B4|exact B6]. }
  assert (SE : In (cCh c, sidOf c) (stSent s) -> active (stPc s i) -> stPc s i <> PReg /\ stPc s i <> PSend).
  { intros H A. destruct (HV A) as (_ & Ow & _). destruct (v_sent s I _ _ H) as (j & Lj & B1 & B2 & B3 & B4).
    assert (j = i).
    { destruct Ow as (_ & _ & Os). assert (Es : cSid (stCall s i) = Some (sidOf (stCall s i))) by (unfold sidOf; now rewrite Os).
      exact (v_sid s I j i _ Lj Li B1 Es). }
    subst j. split; assumption. }
  assert (TK : sTok x <> 0%nat -> active (stPc s i) -> late (stPc s i) /\ inTab s i = None /\ exists h, answers s h i /\ sRes x = Some (mkResp (ownId c) (hBody (stHnd s h)))).
  { intros H A. destruct (HV A) as (_ & Ow & _). destruct (v_tok s I k H) as (_ & _ & _ & _ & j & h & E1 & E2 & E4 & E5 & E6).
    pose proof (own_inj s j i k I E1 Ow) as ->. split; [exact E4|]. split; [exact E5|]. exists h. split; [exact E2|exact E6]. }
  destruct (stPc s i) eqn:Ep; destruct o; try discriminate.
  - (* OReg *)
    intros E. injection E as <-. destruct (HV Logic.I) as (Lk & Ow & Np & P). unfold phase in P. rewrite Ep in P. destruct P as ([[Q1 Q2] Q3] & R & C & T & S).
    apply (inv_call s i PSend (withTimer x (Some (cDead c)) (sTick x)) (tupd (stTab s) (cCh c) (cHb c) (sidOf c) (Some k)) (stSent s) (stPool s)); auto; try (rewrite Ep; exact Logic.I).
    + intros ch hb id N. apply tupd_ne, N.
    + intros _. split; [reflexivity|]. ph. split; [split; [split; [exact Q1|exact Q2]|exact Q3]|]. split; [exact R|]. split; [exact C|]. split; [apply tupd_eq|exact S].
    + intros h H. destruct (Q2 h H).
    + intros H. destruct (H Q1).
    + intros k' H. unfold keyTab in H. fold c in H. rewrite tupd_eq in H. injection H as <-. split; [reflexivity|]. split; [discriminate|].
      intros H. destruct (S H).
    + intros r [X|[X|[X|X]]]; discriminate X.
  - (* OSendOk *)
    intros E. injection E as <-. destruct (HV Logic.I) as (Lk & Ow & Np & P). unfold phase in P. rewrite Ep in P. destruct P as ([[Q1 Q2] Q3] & R & C & T & S).
    apply (inv_call s i PWait (withTimer x (Some (cDead c)) (sTick x)) (stTab s) ((cCh c, sidOf c) :: stSent s) (stPool s)); auto; try (rewrite Ep; exact Logic.I).
    + intros _. split; [reflexivity|]. ph. split; [|split; [exact R|exact C]]. left. split; [exact T|]. split; [split; [exact Q1|exact Q2]|exact Q3].
    + intros h H. destruct (Q2 h H).
    + intros H. destruct (H Q1).
    + intros k' H. destruct (TI k' H Logic.I) as [-> _]. split; [reflexivity|]. split; [discriminate|]. left. reflexivity.
    + intros _. split; discriminate.
    + intros r [X|[X|[X|X]]]; discriminate X.
  - (* OSendErr *)
    destruct (cHb c); [discriminate|]. intros E. injection E as <-. destruct (HV Logic.I) as (Lk & Ow & Np & P). unfold phase in P. rewrite Ep in P. destruct P as ([[Q1 Q2] Q3] & R & C & T & S).
    apply (inv_call s i (PRelease REncode) (stop x) (stTab s) (stSent s) (stPool s)); auto; try (rewrite Ep; exact Logic.I).
    + intros _. split; [reflexivity|]. ph. left. split; [exact C|]. split; [split; [exact Q1|exact Q2]|]. intros H. destruct (S H).
    + intros h H. destruct (Q2 h H).
    + intros H. destruct (H Q1).
    + intros k' H. destruct (TI k' H Logic.I) as [-> _]. split; [reflexivity|]. split; [discriminate|]. intros H'. destruct (S H').
    + intros r [X|[X|[X|X]]]; try discriminate X. injection X as <-. split; [discriminate|]. intros a Y; discriminate Y.
  - (* OSendTimeout *)
    destruct (sTick x); [|discriminate]. intros E. injection E as <-. destruct (HV Logic.I) as (Lk & Ow & Np & P). unfold phase in P. rewrite Ep in P. destruct P as ([[Q1 Q2] Q3] & R & C & T & S).
    apply (inv_call s i (PRelease RSendTimeout) (withTimer x None false) (stTab s) (stSent s) (stPool s)); auto; try (rewrite Ep; exact Logic.I).
    + intros _. split; [reflexivity|]. ph. left. split; [exact C|]. split; [split; [exact Q1|exact Q2]|]. intros H. destruct (S H).
    + intros h H. destruct (Q2 h H).
    + intros H. destruct (H Q1).
    + intros k' H. destruct (TI k' H Logic.I) as [-> _]. split; [reflexivity|]. split; [discriminate|]. intros H'. destruct (S H').
    + intros r [X|[X|[X|X]]]; try discriminate X. injection X as <-. split; [discriminate|]. intros a Y; discriminate Y.
  - (* OSendShut *)
    destruct (stClosed s (cCh c)); [|discriminate]. intros E. injection E as <-. destruct (HV Logic.I) as (Lk & Ow & Np & P). unfold phase in P. rewrite Ep in P. destruct P as ([[Q1 Q2] Q3] & R & C & T & S).
    apply (inv_call s i (PRelease RShutdown) (stop x) (stTab s) (stSent s) (stPool s)); auto; try (rewrite Ep; exact Logic.I).
    + intros _. split; [reflexivity|]. ph. left. split; [exact C|]. split; [split; [exact Q1|exact Q2]|]. intros H. destruct (S H).
    + intros h H. destruct (Q2 h H).
    + intros H. destruct (H Q1).
    + intros k' H. destruct (TI k' H Logic.I) as [-> _]. split; [reflexivity|]. split; [discriminate|]. intros H'. destruct (S H').
    + intros r [X|[X|[X|X]]]; try discriminate X. injection X as <-. split; [discriminate|]. intros a Y; discriminate Y.
  - (* OTake *)
    destruct (sTok x) as [|n] eqn:Et; [discriminate|]. intros E. injection E as <-. destruct (HV Logic.I) as (Lk & Ow & Np & P). unfold phase in P. rewrite Ep in P. destruct P as (L & R & C).
    assert (Hn : sTok x <> 0%nat) by lia. destruct (TK ltac:(discriminate) Logic.I) as (_ & T & h & A1 & A2).
    destruct (v_tok s I k Hn) as (_ & _ & T1 & NH & _). fold x in T1. assert (n = 0%nat) by lia. subst n.
    rewrite A2.
    apply (inv_call s i (PRemove (ROk (mkResp (ownId c) (hBody (stHnd s h))))) (stop (withTok x 0)) (stTab s) (stSent s) (stPool s)); auto; try (rewrite Ep; exact Logic.I).
    + intros _. split; [reflexivity|]. ph. split; [exact R|]. right. split; [exact C|]. split; [split; [reflexivity|exact NH]|exact T].
    + intros h' H. destruct (NH h' H).
    + intros H. now destruct H.
    + intros k' H. unfold keyTab in H. unfold inTab in T. congruence.
    + intros _. split; discriminate.
    + intros r [X|[X|[X|X]]]; try discriminate X. injection X as <-. split; [discriminate|]. intros a Y. injection Y as <-. split; [reflexivity|].
      exists h. split; [exact A1|reflexivity].
  - (* OTimeout *)
    destruct (sTick x); [|discriminate]. intros E. injection E as <-. destruct (HV Logic.I) as (Lk & Ow & Np & P). unfold phase in P. rewrite Ep in P. destruct P as (L & R & C).
    apply (inv_call s i (PRemove RRecvTimeout) (withCan (withTimer x None false) false) (stTab s) (stSent s) (stPool s)); auto; try (rewrite Ep; exact Logic.I).
    + intros _. split; [reflexivity|]. ph. split; [exact R|]. left. split; [reflexivity|exact L].
    + intros h H. destruct (HO h H Logic.I) as (_ & T & _). destruct (v_hold s I h k H) as (_ & _ & T0 & _). repeat (split; try reflexivity; try exact Logic.I; try assumption).
    + intros H. destruct (TK H Logic.I) as (_ & T & _). repeat (split; try reflexivity; try exact Logic.I; try assumption).
    + intros k' H. destruct (TI k' H Logic.I) as [-> _]. split; [reflexivity|]. split; [discriminate|]. right. eexists. reflexivity.
    + intros _. split; discriminate.
    + intros r [X|[X|[X|X]]]; try discriminate X. injection X as <-. split; [discriminate|]. intros a Y; discriminate Y.
  - (* OShut *)
    destruct (stClosed s (cCh c)); [|discriminate]. intros E. injection E as <-. destruct (HV Logic.I) as (Lk & Ow & Np & P). unfold phase in P. rewrite Ep in P. destruct P as (L & R & C).
    apply (inv_call s i (PRemove RShutdown) (withCan (stop x) false) (stTab s) (stSent s) (stPool s)); auto; try (rewrite Ep; exact Logic.I).
    + intros _. split; [reflexivity|]. ph. split; [exact R|]. left. split; [reflexivity|exact L].
    + intros h H. destruct (HO h H Logic.I) as (_ & T & _). destruct (v_hold s I h k H) as (_ & _ & T0 & _). repeat (split; try reflexivity; try exact Logic.I; try assumption).
    + intros H. destruct (TK H Logic.I) as (_ & T & _). repeat (split; try reflexivity; try exact Logic.I; try assumption).
    + intros k' H. destruct (TI k' H Logic.I) as [-> _]. split; [reflexivity|]. split; [discriminate|]. right. eexists. reflexivity.
    + intros _. split; discriminate.
    + intros r [X|[X|[X|X]]]; try discriminate X. injection X as <-. split; [discriminate|]. intros a Y; discriminate Y.
  - (* ORemove *)
    destruct (HV Logic.I) as (Lk & Ow & Np & P). unfold phase in P. rewrite Ep in P. destruct P as (R & P).
    destruct (stTab s (cCh c) (cHb c) (sidOf c)) as [k'|] eqn:T; intros E; injection E as <-.
    + destruct P as [[C L]|(C & Q & T')]; [|unfold inTab in T'; fold c in T'; congruence].
      assert (Cl : clean s k).
      { destruct L as [(_ & Cl)|[(T' & _)|(T' & _)]]; [exact Cl| |]; unfold inTab in T'; fold c in T'; congruence. }
      destruct Cl as [[Q1 Q2] Q3].
      apply (inv_call s i (PRelease r) (withCan x true) (tupd (stTab s) (cCh c) (cHb c) (sidOf c) None) (stSent s) (stPool s)); auto; try (rewrite Ep; exact Logic.I).
      * intros ch hb id N. apply tupd_ne, N.
      * intros _. split; [reflexivity|]. ph. left. split; [reflexivity|]. split; [split; [exact Q1|exact Q2]|]. intros _. apply tupd_eq.
      * intros h H. destruct (Q2 h H).
      * intros H. destruct (H Q1).
      * intros k2 H. unfold keyTab in H. fold c in H. rewrite tupd_eq in H. discriminate H.
      * intros _. split; discriminate.
      * left. apply tupd_eq.
      * intros r' X. apply VR. destruct X as [X|[X|[X|X]]]; try discriminate X. injection X as <-. left. reflexivity.
    + assert (Q : (sCan x = true /\ quiet s k) \/ sCan x = false) by (destruct P as [[C _]|(C & Q & _)]; [right; exact C|left; split; [exact C|exact Q]]).
      replace (setPc s i (PRelease r)) with (mkSt (stStm s) (stNs s) (stPool s) (stTab s) (stCall s) (fupd (stPc s) i (PRelease r)) (stNc s) (stHnd s) (stHpc s) (stNh s) (stSent s) (stClosed s) (stNow s)) by reflexivity.
      assert (IC : inv (stepSt s i (PRelease r) x (stTab s) (stSent s) (stPool s))).
      { apply inv_call; auto; try (rewrite Ep; exact Logic.I).
        - intros _. split; [reflexivity|]. ph. destruct Q as [[C [Q1 Q2]]|C]; [left|right].
          + split; [exact C|]. split; [split; [exact Q1|exact Q2]|]. intros _. exact T.
          + split; [exact C|]. split; [exact R|exact T].
        - intros h H. destruct (v_hold s I h k H) as (_ & _ & T0 & _). repeat (split; try reflexivity; try exact Logic.I; try assumption).
        - intros H. repeat (split; try reflexivity; try exact Logic.I; try assumption).
        - intros k2 H. unfold keyTab in H. fold c in H. congruence.
        - intros _. split; discriminate.
        - intros r' X. apply VR. destruct X as [X|[X|[X|X]]]; try discriminate X. injection X as <-. left. reflexivity. }
      revert IC. unfold stepSt. fold c k.
      change (setPc s i (PRelease r)) with (mkSt (stStm s) (stNs s) (stPool s) (stTab s) (stCall s) (fupd (stPc s) i (PRelease r)) (stNc s) (stHnd s) (stHpc s) (stNh s) (stSent s) (stClosed s) (stNow s)).
      intros IC. apply (inv_frame _ (stStm s) (stClosed s) (stNow s)) in IC; [exact IC|].
      intros y. cbn. destruct (Nat.eq_dec y k) as [->|N]; [rewrite fupd_eq|rewrite fupd_ne by exact N]; apply obs_refl.
  - (* ORelease *)
    destruct (HV Logic.I) as (Lk & Ow & Np & P). unfold phase in P. rewrite Ep in P.
    destruct (sCan x) eqn:Ec; intros E; injection E as <-.
    + destruct P as [(C & [Q1 Q2] & T)|(C & _)]; [|fold c k x in C; congruence].
      apply (inv_call s i (PPut r) (resetStream x) (stTab s) (stSent s) (stPool s)); auto; try (rewrite Ep; exact Logic.I).
      * intros _. split; [reflexivity|]. ph. split; [split; [split; [|exact Q2]|reflexivity]|split; [reflexivity|exact T]].
        cbn. fold c k x in Q1. rewrite Q1. reflexivity.
      * intros h H. destruct (Q2 h H).
      * cbn. fold c k x in Q1. rewrite Q1. intros H. now destruct H.
      * intros k' H. destruct (TI k' H Logic.I) as [-> X]. split; [reflexivity|]. split; [discriminate|]. intros Y. unfold keyTab in H. pose proof (T Y) as Z. unfold inTab in Z. congruence.
      * intros _. split; discriminate.
      * intros r' X. apply VR. destruct X as [X|[X|[X|X]]]; try discriminate X. injection X as <-. right. left. reflexivity.
    + destruct P as [(C & _)|(C & R & T)]; [fold c k x in C; congruence|].
      assert (IC : inv (stepSt s i (PDone r) x (stTab s) (stSent s) (stPool s))).
      { apply inv_call; auto; try (rewrite Ep; exact Logic.I).
        - intros [].
        - intros h H. destruct (v_hold s I h k H) as (_ & _ & T0 & _). repeat (split; try reflexivity; try exact Logic.I; try assumption).
        - intros H. repeat (split; try reflexivity; try exact Logic.I; try assumption).
        - intros k2 H. unfold keyTab in H. unfold inTab in T. congruence.
        - intros _. split; discriminate.
        - intros r' X. apply VR. destruct X as [X|[X|[X|X]]]; try discriminate X. injection X as <-. right. left. reflexivity. }
      apply (inv_frame _ (stStm s) (stClosed s) (stNow s)) in IC; [exact IC|].
      intros y. cbn. fold c k. destruct (Nat.eq_dec y k) as [->|N]; [rewrite fupd_eq|rewrite fupd_ne by exact N]; apply obs_refl.
  - (* OPut *)
    destruct (HV Logic.I) as (Lk & Ow & Np & P). unfold phase in P. rewrite Ep in P. destruct P as ([[Q1 Q2] Q3] & R & T).
    intros E; injection E as <-.
    assert (IC : inv (stepSt s i (PDone r) x (stTab s) (stSent s) (k :: stPool s))).
    { apply inv_call; auto; try (rewrite Ep; exact Logic.I).
      - right. split; [reflexivity|]. split; [exact (fun z => z)|]. split; [exact Q1|]. split; [exact Q2|]. split; [exact Q3|exact R].
      - intros [].
      - intros h H. destruct (Q2 h H).
      - intros H. destruct (H Q1).
      - intros k' H. destruct (TI k' H Logic.I) as [-> X]. split; [reflexivity|]. split; [discriminate|]. intros Y. unfold keyTab in H. pose proof (T Y) as Z. unfold inTab in Z. congruence.
      - intros _. split; discriminate.
      - intros r' X. apply VR. destruct X as [X|[X|[X|X]]]; try discriminate X. injection X as <-. right. right. left. reflexivity. }
    apply (inv_frame _ (stStm s) (stClosed s) (stNow s)) in IC; [exact IC|].
    intros y. cbn. fold c k. destruct (Nat.eq_dec y k) as [->|N]; [rewrite fupd_eq|rewrite fupd_ne by exact N]; apply obs_refl.
Qed.

(* ---- received messages ---- *)
Lemma inv_deliver s ch hb rid body : inv s -> In (ch, rid) (stSent s) ->
  inv (mkSt (stStm s) (stNs s) (stPool s) (stTab s) (stCall s) (stPc s) (stNc s)
         (fupd (stHnd s) (stNh s) (mkHnd ch hb rid body)) (fupd (stHpc s) (stNh s) HLook) (S (stNh s)) (stSent s) (stClosed s) (stNow s)).
Proof.
  intros I Lg. set (s' := mkSt _ _ _ _ _ _ _ _ _ _ _ _ _).
  assert (HO : forall h, (h < stNh s)%nat -> stHnd s' h = stHnd s h) by (intros h H; cbn; apply fupd_ne; lia).
  assert (HP : forall h, (h < stNh s)%nat -> stHpc s' h = stHpc s h) by (intros h H; cbn; apply fupd_ne; lia).
  assert (HH : forall h k, holds s' h k <-> holds s h k).
  { intros h k. unfold holds. change (stNh s') with (S (stNh s)). destruct (Nat.eq_dec h (stNh s)) as [->|N].
    - cbn. rewrite fupd_eq. split; [intros [_ [X|X]]; discriminate X|intros [X _]; lia].
    - destruct (Nat.lt_ge_cases h (stNh s)) as [L|L]; [rewrite HP by exact L; split; intros [A B]; (split; [lia|exact B])|split; intros [A B]; lia]. }
  assert (AN : forall h i, answers s h i -> answers s' h i).
  { intros h i (A & B). unfold answers. rewrite HO by exact A. change (stNh s') with (S (stNh s)). split; [lia|exact B]. }
  assert (NH : forall k, (forall h, ~ holds s h k) -> forall h, ~ holds s' h k) by (intros k X h Y; apply (X h), HH, Y).
  split.
  - exact (v_sid s I).
  - intros i Li Ha. destruct (v_act s I i Li Ha) as (A & B & C & D). split; [exact A|]. split; [exact B|]. split; [exact C|].
    revert D. apply phase_ext; try reflexivity; [apply obs_refl|intros h; apply HH].
  - intros h k H. apply HH in H. destruct (v_hold s I h k H) as (A & B & C & D & i & E1 & E2 & E3 & E4 & E5 & E6).
    split; [exact A|]. split; [exact B|]. split; [exact C|]. split; [intros h' H'; apply D, HH, H'|]. exists i.
    split; [exact E1|]. split; [apply AN, E2|]. split; [exact E3|]. split; [exact E4|]. split; [exact E5|]. rewrite HP, HO by exact (proj1 H). exact E6.
  - intros k H. destruct (v_tok s I k H) as (A & B & C & D & i & h & E1 & E2 & E4 & E5 & E6).
    split; [exact A|]. split; [exact B|]. split; [exact C|]. split; [apply NH, D|]. exists i, h.
    split; [exact E1|]. split; [apply AN, E2|]. split; [exact E4|]. split; [exact E5|]. rewrite HO by exact (proj1 E2). exact E6.
  - exact (v_tab s I).
  - exact (v_sent s I).
  - destruct (v_pool s I) as [Nd Pl]. split; [exact Nd|]. intros k Hk. destruct (Pl k Hk) as (C & [[D1 D2] D3] & E).
    split; [exact C|]. split; [split; [split; [exact D1|apply NH, D2]|exact D3]|exact E].
  - exact (v_new s I).
  - intros h Lh. change (stNh s') with (S (stNh s)) in Lh. destruct (Nat.eq_dec h (stNh s)) as [->|N].
    + cbn. rewrite fupd_eq. exact Lg.
    + rewrite HO by lia. apply (v_hnd s I). lia.
  - intros h Lh. change (stNh s') with (S (stNh s)) in Lh. destruct (Nat.eq_dec h (stNh s)) as [->|N].
    + cbn. rewrite fupd_eq. intros X. now destruct X.
    + rewrite HO, HP by lia. apply (v_done s I). lia.
  - intros i r Li H. destruct (v_res s I i r Li H) as [A B]. split; [exact A|]. intros a E. destruct (B a E) as (B1 & h & B2 & B3).
    split; [exact B1|]. exists h. split; [apply AN, B2|]. rewrite HO by exact (proj1 B2). exact B3.
Qed.

Lemma inv_hndStep s h o s' : inv s -> (h < stNh s)%nat -> hndStep s h o = Some s' -> inv s'.
Proof.
  intros I Lh. unfold hndStep. destruct (stHpc s h) as [|k|k|] eqn:Ep; destruct o; try discriminate.
  - (* OLook *)
    destruct (stTab s (hCh (stHnd s h)) (hHb (stHnd s h)) (hRid (stHnd s h))) as [k|] eqn:T; intros E; injection E as <-.
    + destruct (v_tab s I _ _ _ _ T) as (Lk & i & Li & C1 & C2 & C3 & C4 & C5 & C6).
      pose proof (C6 (v_hnd s I h Lh)) as C7.
      assert (Ti : inTab s i = Some k) by (unfold inTab; rewrite C1, C2, (sidOf_Some _ _ C3); exact T).
      assert (Ac : active (stPc s i)) by (destruct C7 as [->|[r ->]]; exact Logic.I).
      destruct (v_act s I i Li Ac) as (_ & Ow & Np & P). rewrite C4 in Ow, Np.
      assert (LV : live s i /\ reqS s i /\ late (stPc s i) /\ (forall r, stPc s i = PRemove r -> sCan (stStm s k) = false) /\ (stPc s i = PWait -> sCan (stStm s k) = true)).
      { unfold phase in P. rewrite C4 in P. destruct C7 as [E|[r E]]; rewrite E in P.
        - destruct P as (A & B & C). split; [exact A|]. split; [exact B|]. rewrite E. split; [exact Logic.I|]. split; [intros r X; discriminate X|intros _; exact C].
        - destruct P as (B & [[C A]|(C & _ & X)]); [|rewrite X in Ti; discriminate Ti].
          split; [exact A|]. split; [exact B|]. rewrite E. split; [exact Logic.I|]. split; [intros r' _; exact C|intros X; discriminate X]. }
      destruct LV as (L & Rq & Lt & Cn & Cy).
      assert (Cl : clean s k).
      { destruct L as [[_ Cl]|[[X _]|[X _]]]; [rewrite C4 in Cl; exact Cl|rewrite X in Ti; discriminate Ti|rewrite X in Ti; discriminate Ti]. }
      destruct Cl as [[Q1 Q2] Q3].
      set (s' := setHpc _ _ _).
      assert (HP : forall g, g <> h -> stHpc s' g = stHpc s g) by (intros g N; cbn; apply fupd_ne, N).
      assert (HN : stHpc s' h = HRes k) by (cbn; apply fupd_eq).
      assert (HH : forall g y, holds s' g y -> (g = h /\ y = k) \/ (g <> h /\ holds s g y)).
      { intros g y [A B]. destruct (Nat.eq_dec g h) as [->|N].
        - left. split; [reflexivity|]. rewrite HN in B. destruct B as [B|B]; [injection B as <-; reflexivity|discriminate B].
        - right. split; [exact N|]. rewrite HP in B by exact N. split; [exact A|exact B]. }
      assert (HH2 : forall g y, g <> h -> holds s g y -> holds s' g y).
      { intros g y N [A B]. split; [exact A|]. rewrite HP by exact N. exact B. }
      assert (Hh : holds s' h k) by (split; [exact Lh|left; exact HN]).
      assert (NHS : forall y, ~ holds s h y) by (intros y [_ [X|X]]; rewrite Ep in X; discriminate X).
      assert (HK : forall g y, y <> k -> (holds s' g y <-> holds s g y)).
      { intros g y Ny. split.
        - intros H. destruct (HH g y H) as [[_ X]|[_ X]]; [destruct (Ny X)|exact X].
        - intros H. apply HH2; [intros ->; exact (NHS y H)|exact H]. }
      assert (TE : forall j, (j < stNc s)%nat -> j <> i -> cSid (stCall s j) <> None -> inTab s' j = inTab s j).
      { intros j Lj Nj Sj. unfold inTab. cbn. rewrite tupd_ne; [reflexivity|]. intros E. injection E as _ _ E. unfold sidOf in E.
        destruct (cSid (stCall s j)) as [b|] eqn:Ej; [|now destruct Sj]. subst b. apply Nj. exact (v_sid s I j i _ Lj Li Ej C3). }
      assert (TN : inTab s' i = None).
      { unfold inTab. cbn. rewrite C1, C2, (sidOf_Some _ _ C3). apply tupd_eq. }
      assert (OK2 : forall j, own s j k -> j = i) by (intros j X; exact (own_inj s j i k I X Ow)).
      assert (ON : forall j y, own s j y -> y <> k -> j <> i) by (intros j y (_ & X & _) Ny ->; apply Ny; rewrite <- X; exact C4).
      assert (AH : answers s' h i).
      { unfold answers. cbn. rewrite C1, C2, C3. split; [exact Lh|]. split; [reflexivity|]. split; reflexivity. }
      split.
      * exact (v_sid s I).
      * intros j Lj Ha. destruct (v_act s I j Lj Ha) as (A & B & C & D). split; [exact A|]. split; [exact B|]. split; [exact C|].
        destruct (Nat.eq_dec j i) as [->|Nj].
        { assert (L' : live s' i).
          { right. left. change (cStm (stCall s' i)) with (cStm (stCall s i)). rewrite C4. split; [exact TN|]. split; [exists h; exact Hh|exact Q1]. }
          unfold phase. change (stPc s' i) with (stPc s i). change (stStm s' (cStm (stCall s' i))) with (stStm s (cStm (stCall s i))). rewrite C4.
          destruct C7 as [E|[r E]]; rewrite E.
          - split; [exact L'|]. split; [exact Rq|exact (Cy E)].
          - split; [exact Rq|]. left. split; [exact (Cn r E)|exact L']. }
        assert (Nk : cStm (stCall s j) <> k) by (intros X; rewrite X in B; exact (Nj (OK2 j B))).
        revert D. apply phase_ext; try reflexivity; [apply obs_refl|intros g; apply HK, Nk|apply TE; [exact Lj|exact Nj|exact (own_sid _ _ _ B)]].
      * intros g y H. destruct (HH g y H) as [[-> ->]|[Ng H']].
        { split; [exact Lk|]. split; [exact Np|]. split; [exact Q1|]. split.
          - intros g H'. destruct (HH g k H') as [[-> _]|[_ X]]; [reflexivity|destruct (Q2 g X)].
          - exists i. split; [exact Ow|]. split; [exact AH|]. split; [exact Rq|]. split; [exact Lt|]. split; [exact TN|]. rewrite HN. intros X. discriminate X. }
        destruct (v_hold s I g y H') as (A & B & C & D & j & E1 & E2 & E3 & E4 & E5 & E6).
        assert (Ny : y <> k) by (intros ->; exact (Q2 g H')).
        split; [exact A|]. split; [exact B|]. split; [exact C|]. split; [intros g' Hg; apply D; apply HK in Hg; assumption|].
        exists j. split; [exact E1|]. split; [exact E2|]. split; [exact E3|]. split; [exact E4|].
        split; [rewrite TE; [exact E5|exact (proj1 E1)|exact (ON j y E1 Ny)|exact (own_sid _ _ _ E1)]|]. rewrite HP by exact Ng. exact E6.
      * intros y H. destruct (v_tok s I y H) as (A & B & C & D & j & g & E1 & E2 & E4 & E5 & E6).
        assert (Ny : y <> k) by (intros ->; exact (H Q1)).
        split; [exact A|]. split; [exact B|]. split; [exact C|]. split; [intros g' Hg; apply (D g'); apply HK in Hg; assumption|].
        exists j, g. split; [exact E1|]. split; [exact E2|]. split; [exact E4|].
        split; [rewrite TE; [exact E5|exact (proj1 E1)|exact (ON j y E1 Ny)|exact (own_sid _ _ _ E1)]|exact E6].
      * intros ch hb id y H. cbn in H. destruct (tupd_cases (stTab s) (hCh (stHnd s h)) (hHb (stHnd s h)) (hRid (stHnd s h)) None ch hb id) as [(_ & _ & _ & X)|[_ X]]; rewrite X in H; [discriminate H|].
        exact (v_tab s I ch hb id y H).
      * exact (v_sent s I).
      * destruct (v_pool s I) as [Nd Pl]. split; [exact Nd|]. intros y Hy. destruct (Pl y Hy) as (C & [[D1 D2] D3] & E).
        assert (Ny : y <> k) by (intros ->; exact (Np Hy)).
        split; [exact C|]. split; [split; [split; [exact D1|intros g Hg; apply (D2 g); apply HK in Hg; assumption]|exact D3]|exact E].
      * exact (v_new s I).
      * exact (v_hnd s I).
      * intros g Lg Hg. cbn. destruct (tupd_cases (stTab s) (hCh (stHnd s h)) (hHb (stHnd s h)) (hRid (stHnd s h)) None (hCh (stHnd s g)) (hHb (stHnd s g)) (hRid (stHnd s g))) as [(_ & _ & _ & X)|[N X]]; rewrite X; [reflexivity|].
        assert (Ng : g <> h) by (intros ->; now apply N). rewrite HP in Hg by exact Ng. exact (v_done s I g Lg Hg).
      * exact (v_res s I).
    + set (s' := setHpc _ _ _).
      assert (HP : forall g, g <> h -> stHpc s' g = stHpc s g) by (intros g N; cbn; apply fupd_ne, N).
      assert (HN : stHpc s' h = HEnd) by (cbn; apply fupd_eq).
      assert (HK : forall g y, holds s' g y <-> holds s g y).
      { intros g y. unfold holds. change (stNh s') with (stNh s). destruct (Nat.eq_dec g h) as [->|N]; [rewrite HN, Ep|rewrite HP by exact N; reflexivity].
        split; intros [_ [X|X]]; discriminate X. }
      split.
      * exact (v_sid s I).
      * intros j Lj Ha. destruct (v_act s I j Lj Ha) as (A & B & C & D). split; [exact A|]. split; [exact B|]. split; [exact C|].
        revert D. apply phase_ext; try reflexivity; [apply obs_refl|intros g; apply HK].
      * intros g y H. apply HK in H. destruct (v_hold s I g y H) as (A & B & C & D & j & E1 & E2 & E3 & E4 & E5 & E6).
        split; [exact A|]. split; [exact B|]. split; [exact C|]. split; [intros g' Hg; apply D, HK, Hg|].
        exists j. split; [exact E1|]. split; [exact E2|]. split; [exact E3|]. split; [exact E4|]. split; [exact E5|].
        rewrite HP; [exact E6|]. intros ->. destruct H as [_ [X|X]]; rewrite Ep in X; discriminate X.
      * intros y H. destruct (v_tok s I y H) as (A & B & C & D & j & g & E). split; [exact A|]. split; [exact B|]. split; [exact C|].
        split; [intros g' Hg; apply (D g'), HK, Hg|]. exists j, g. exact E.
      * exact (v_tab s I).
      * exact (v_sent s I).
      * destruct (v_pool s I) as [Nd Pl]. split; [exact Nd|]. intros y Hy. destruct (Pl y Hy) as (C & [[D1 D2] D3] & E).
        split; [exact C|]. split; [split; [split; [exact D1|intros g Hg; apply (D2 g), HK, Hg]|exact D3]|exact E].
      * exact (v_new s I).
      * exact (v_hnd s I).
      * intros g Lg Hg. cbn. destruct (Nat.eq_dec g h) as [->|Ng]; [exact T|]. rewrite HP in Hg by exact Ng. exact (v_done s I g Lg Hg).
      * exact (v_res s I).
  - (* ORes *)
    intros E; injection E as <-. assert (Hh : holds s h k) by (split; [exact Lh|left; exact Ep]).
    destruct (v_hold s I h k Hh) as (Lk & Np & T0 & Un & i & Ow & An & Rq & Lt & Tn & _).
    set (s' := setHpc _ _ _).
    assert (HP : forall g, g <> h -> stHpc s' g = stHpc s g) by (intros g N; cbn; apply fupd_ne, N).
    assert (HN : stHpc s' h = HPush k) by (cbn; apply fupd_eq).
    assert (SO : forall y, y <> k -> stStm s' y = stStm s y) by (intros y Hy; cbn; apply fupd_ne, Hy).
    assert (SN : stStm s' k = withRes (stStm s k) (Some (respFor (stStm s k) (stHnd s h)))) by (cbn; apply fupd_eq).
    assert (RF : respFor (stStm s k) (stHnd s h) = mkResp (ownId (stCall s i)) (hBody (stHnd s h))).
    { unfold respFor. destruct Ow as (_ & O2 & _). unfold reqS in Rq. rewrite O2 in Rq. rewrite Rq. f_equal. unfold expReq, ownId.
      destruct An as (_ & _ & _ & X). rewrite (sidOf_Some _ _ X). destruct (cHb (stCall s i)); reflexivity. }
    assert (HK : forall g y, holds s' g y <-> holds s g y).
    { intros g y. unfold holds. change (stNh s') with (stNh s). destruct (Nat.eq_dec g h) as [->|N]; [rewrite HN, Ep|rewrite HP by exact N; reflexivity].
      split; intros [A [X|X]]; (split; [exact A|]); try discriminate X; injection X as <-; auto. }
    assert (OW : forall j y, own s' j y <-> own s j y).
    { intros j y. unfold own. destruct (Nat.eq_dec y k) as [->|N]; [rewrite SN|rewrite SO by exact N]; reflexivity. }
    assert (RQ : forall j, reqS s' j <-> reqS s j).
    { intros j. unfold reqS. change (stCall s' j) with (stCall s j). destruct (Nat.eq_dec (cStm (stCall s j)) k) as [->|N]; [rewrite SN|rewrite SO by exact N]; reflexivity. }
    assert (TK : forall y, sTok (stStm s' y) = sTok (stStm s y)).
    { intros y. destruct (Nat.eq_dec y k) as [->|N]; [rewrite SN|rewrite SO by exact N]; reflexivity. }
    assert (OK2 : forall j, own s j k -> j = i) by (intros j X; exact (own_inj s j i k I X Ow)).
    split.
    + exact (v_sid s I).
    + intros j Lj Ha. destruct (v_act s I j Lj Ha) as (A & B & C & D). change (stCall s' j) with (stCall s j) in *. change (stPc s' j) with (stPc s j) in Ha.
      split; [exact A|]. split; [apply OW, B|]. split; [exact C|].
      destruct (Nat.eq_dec (cStm (stCall s j)) k) as [Ek|Nk].
      * rewrite Ek in B. pose proof (OK2 j B) as ->.
        assert (NQ : forall P : Prop, quiet s k -> P) by (intros P [_ X]; destruct (X h Hh)).
        assert (LL : live s i -> live s' i).
        { unfold live. change (inTab s' i) with (inTab s i). change (stCall s' i) with (stCall s i). rewrite Ek, TK.
          intros [[_ [X _]]|[(X1 & (g & X2) & X3)|(X1 & X2 & X3)]]; [exact (NQ _ X)| |destruct (X3 h Hh)].
          right. left. split; [exact X1|]. split; [exists g; apply HK, X2|exact X3]. }
        unfold phase in D |- *. change (stPc s' i) with (stPc s i). change (stCall s' i) with (stCall s i). change (inTab s' i) with (inTab s i).
        rewrite Ek in D |- *. rewrite SN. cbn [sCan withRes].
        destruct (stPc s i); try (destruct Lt; fail).
        { destruct D as (D1 & D2 & D3). split; [apply LL, D1|]. split; [apply RQ, D2|exact D3]. }
        { destruct D as (D1 & [[D2 D3]|(D2 & D3 & D4)]); [|exact (NQ _ D3)]. split; [apply RQ, D1|]. left. split; [exact D2|apply LL, D3]. }
        { destruct D as [(D2 & D3 & _)|(D2 & D3 & D4)]; [exact (NQ _ D3)|]. right. split; [exact D2|]. split; [apply RQ, D3|exact D4]. }
        { exact Logic.I. }
      * revert D. apply phase_ext; try reflexivity; [rewrite SO by exact Nk; apply obs_refl|intros g; apply HK].
    + intros g y H. apply HK in H. destruct (v_hold s I g y H) as (A & B & C & D & j & E1 & E2 & E3 & E4 & E5 & E6).
      split; [exact A|]. split; [exact B|]. split; [rewrite TK; exact C|]. split; [intros g' Hg; apply D, HK, Hg|].
      exists j. split; [apply OW, E1|]. split; [exact E2|]. split; [apply RQ, E3|]. split; [exact E4|]. split; [exact E5|].
      destruct (Nat.eq_dec g h) as [->|Ng].
      * intros _. assert (y = k) by (destruct H as [_ [X|X]]; rewrite Ep in X; [injection X as <-; reflexivity|discriminate X]). subst y.
        pose proof (OK2 j E1) as ->. rewrite SN. cbn. rewrite RF. reflexivity.
      * rewrite HP by exact Ng. rewrite SO; [exact E6|]. intros ->. apply Ng. exact (Un g H).
    + intros y H. rewrite TK in H. destruct (v_tok s I y H) as (A & B & C & D & j & g & E1 & E2 & E4 & E5 & E6).
      assert (Ny : y <> k) by (intros ->; exact (H T0)).
      split; [exact A|]. split; [exact B|]. split; [rewrite TK; exact C|].
      split; [intros g' Hg; apply (D g'), HK, Hg|]. exists j, g. rewrite SO by exact Ny.
      split; [apply OW, E1|]. split; [exact E2|]. split; [exact E4|]. split; [exact E5|exact E6].
    + exact (v_tab s I).
    + exact (v_sent s I).
    + destruct (v_pool s I) as [Nd Pl]. split; [exact Nd|]. intros y Hy. destruct (Pl y Hy) as (C & [[D1 D2] D3] & E).
      assert (Ny : y <> k) by (intros ->; exact (Np Hy)).
      split; [exact C|]. split; [split; [split; [rewrite TK; exact D1|intros g Hg; apply (D2 g), HK, Hg]|rewrite SO by exact Ny; exact D3]|rewrite SO by exact Ny; exact E].
    + intros y Hy. rewrite TK. exact (v_new s I y Hy).
    + exact (v_hnd s I).
    + intros g Lg Hg. cbn. destruct (Nat.eq_dec g h) as [->|Ng]; [apply (v_done s I h Lh); rewrite Ep; discriminate|]. rewrite HP in Hg by exact Ng. exact (v_done s I g Lg Hg).
    + exact (v_res s I).
  - (* OPush *)
    assert (Hh : holds s h k) by (split; [exact Lh|right; exact Ep]).
    destruct (v_hold s I h k Hh) as (Lk & Np & T0 & Un & i & Ow & An & Rq & Lt & Tn & Rs). specialize (Rs Ep).
    rewrite T0. intros E; injection E as <-.
    set (s' := setHpc _ _ _).
    assert (HP : forall g, g <> h -> stHpc s' g = stHpc s g) by (intros g N; cbn; apply fupd_ne, N).
    assert (HN : stHpc s' h = HEnd) by (cbn; apply fupd_eq).
    assert (SO : forall y, y <> k -> stStm s' y = stStm s y) by (intros y Hy; cbn; apply fupd_ne, Hy).
    assert (SN : stStm s' k = withTok (stStm s k) 1) by (cbn; apply fupd_eq).
    assert (HK : forall g y, holds s' g y -> holds s g y /\ y <> k).
    { intros g y [A B]. destruct (Nat.eq_dec g h) as [->|N]; [rewrite HN in B; destruct B as [B|B]; discriminate B|].
      rewrite HP in B by exact N. split; [split; [exact A|exact B]|]. intros ->. apply N. apply Un. split; [exact A|exact B]. }
    assert (HK2 : forall g y, y <> k -> holds s g y -> holds s' g y).
    { intros g y Ny [A B]. assert (N : g <> h) by (intros ->; rewrite Ep in B; destruct B as [B|B]; [discriminate B|injection B as X; exact (Ny (eq_sym X))]).
      split; [exact A|]. rewrite HP by exact N. exact B. }
    assert (NK : forall g, ~ holds s' g k) by (intros g X; apply HK in X; now destruct X).
    assert (OW : forall j y, own s' j y <-> own s j y).
    { intros j y. unfold own. destruct (Nat.eq_dec y k) as [->|N]; [rewrite SN|rewrite SO by exact N]; reflexivity. }
    assert (RQ : forall j, reqS s' j <-> reqS s j).
    { intros j. unfold reqS. change (stCall s' j) with (stCall s j). destruct (Nat.eq_dec (cStm (stCall s j)) k) as [->|N]; [rewrite SN|rewrite SO by exact N]; reflexivity. }
    assert (OK2 : forall j, own s j k -> j = i) by (intros j X; exact (own_inj s j i k I X Ow)).
    split.
    + exact (v_sid s I).
    + intros j Lj Ha. destruct (v_act s I j Lj Ha) as (A & B & C & D). change (stCall s' j) with (stCall s j) in *. change (stPc s' j) with (stPc s j) in Ha.
      split; [exact A|]. split; [apply OW, B|]. split; [exact C|].
      destruct (Nat.eq_dec (cStm (stCall s j)) k) as [Ek|Nk].
      * rewrite Ek in B. pose proof (OK2 j B) as ->.
        assert (NQ : forall P : Prop, quiet s k -> P) by (intros P [_ X]; destruct (X h Hh)).
        assert (LL : live s' i).
        { unfold live. change (inTab s' i) with (inTab s i). change (stCall s' i) with (stCall s i). rewrite Ek, SN.
          right. right. split; [exact Tn|]. split; [reflexivity|exact NK]. }
        unfold phase in D |- *. change (stPc s' i) with (stPc s i). change (stCall s' i) with (stCall s i). change (inTab s' i) with (inTab s i).
        rewrite Ek in D |- *. rewrite SN. cbn [sCan withTok].
        destruct (stPc s i); try (destruct Lt; fail).
        { destruct D as (D1 & D2 & D3). split; [exact LL|]. split; [apply RQ, D2|exact D3]. }
        { destruct D as (D1 & [[D2 D3]|(D2 & D3 & D4)]); [|exact (NQ _ D3)]. split; [apply RQ, D1|]. left. split; [exact D2|exact LL]. }
        { destruct D as [(D2 & D3 & _)|(D2 & D3 & D4)]; [exact (NQ _ D3)|]. right. split; [exact D2|]. split; [apply RQ, D3|exact D4]. }
        { exact Logic.I. }
      * revert D. apply phase_ext; try reflexivity; [rewrite SO by exact Nk; apply obs_refl|]. intros g. split; [intros X; apply HK in X; apply X|apply HK2, Nk].
    + intros g y H. apply HK in H. destruct H as [H Ny]. destruct (v_hold s I g y H) as (A & B & C & D & j & E1 & E2 & E3 & E4 & E5 & E6).
      split; [exact A|]. split; [exact B|]. rewrite SO by exact Ny. split; [exact C|]. split; [intros g' Hg; apply HK in Hg; apply D, Hg|].
      exists j. split; [apply OW, E1|]. split; [exact E2|]. split; [apply RQ, E3|]. split; [exact E4|]. split; [exact E5|].
      rewrite HP; [exact E6|]. intros ->. destruct H as [_ [X|X]]; rewrite Ep in X; [discriminate X|injection X as X; exact (Ny (eq_sym X))].
    + intros y H. destruct (Nat.eq_dec y k) as [->|Ny].
      * split; [exact Lk|]. split; [exact Np|]. rewrite SN. split; [reflexivity|]. split; [exact NK|]. exists i, h.
        split; [apply OW, Ow|]. split; [exact An|]. split; [exact Lt|]. split; [exact Tn|exact Rs].
      * rewrite SO in H |- * by exact Ny. destruct (v_tok s I y H) as (A & B & C & D & j & g & E1 & E2 & E4 & E5 & E6).
        split; [exact A|]. split; [exact B|]. split; [exact C|].
        split; [intros g' Hg; apply HK in Hg; apply (D g'), Hg|]. exists j, g.
        split; [apply OW, E1|]. split; [exact E2|]. split; [exact E4|]. split; [exact E5|exact E6].
    + exact (v_tab s I).
    + exact (v_sent s I).
    + destruct (v_pool s I) as [Nd Pl]. split; [exact Nd|]. intros y Hy. destruct (Pl y Hy) as (C & [[D1 D2] D3] & E).
      assert (Ny : y <> k) by (intros ->; exact (Np Hy)).
      split; [exact C|]. split; [split; [split; [rewrite SO by exact Ny; exact D1|intros g Hg; apply HK in Hg; apply (D2 g), Hg]|rewrite SO by exact Ny; exact D3]|rewrite SO by exact Ny; exact E].
    + intros y Hy. change (stNs s') with (stNs s) in Hy. rewrite SO by lia. exact (v_new s I y Hy).
    + exact (v_hnd s I).
    + intros g Lg Hg. cbn. destruct (Nat.eq_dec g h) as [->|Ng]; [apply (v_done s I h Lh); rewrite Ep; discriminate|]. rewrite HP in Hg by exact Ng. exact (v_done s I g Lg Hg).
    + exact (v_res s I).
Qed.

Lemma inv_step s o s' : inv s -> legal s o -> step s o = Some s' -> inv s'.
Proof.
  intros I Lg E. destruct o; cbn [step] in E;
    try (match type of E with (if (?i <? stNc s)%nat then _ else _) = _ => destruct (Nat.ltb_spec i (stNc s)) as [L|L]; [|discriminate E]; eapply inv_callStep; eassumption end);
    try (match type of E with (if (?i <? stNh s)%nat then _ else _) = _ => destruct (Nat.ltb_spec i (stNh s)) as [L|L]; [|discriminate E]; eapply inv_hndStep; eassumption end).
  - eapply inv_start; eassumption.
  - injection E as <-. apply inv_frame; [intros k; apply obs_refl|exact I].
  - injection E as <-. apply inv_deliver; assumption.
  - destruct (sArmed (stStm s s0)) as [t|]; [|discriminate E]. destruct (t <=? stNow s); [|discriminate E]. injection E as <-.
    apply inv_frame; [|exact I]. intros k. destruct (Nat.eq_dec k s0) as [->|N]; [rewrite fupd_eq; repeat split|rewrite fupd_ne by exact N; apply obs_refl].
  - injection E as <-. apply inv_frame; [intros k; apply obs_refl|exact I].
Qed.
Lemma inv_reach s : reach s -> inv s.
Proof. induction 1; [exact inv0|eapply inv_step; eassumption]. Qed.
