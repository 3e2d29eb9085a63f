From Coq Require Import NArith List Bool Lia Arith.
From Verif Require Import Base StreamModel StreamSpec StreamProofs.
Import ListNotations.
Open Scope N_scope.

Lemma delivery s i r : reach s -> returned s i (ROk r) ->
  rRid r = ownId (stCall s i) /\ exists h, answers s h i /\ rOf r = hBody (stHnd s h).
Proof.
  intros R [Li E]. apply inv_reach in R. destruct (v_res s R i (ROk r) Li) as [_ H]; [right; right; right; exact E|]. exact (H r eq_refl).
Qed.
Lemma not_nil s i : reach s -> ~ returned s i RNil.
Proof.
  intros R [Li E]. apply inv_reach in R. destruct (v_res s R i RNil Li) as [H _]; [right; right; right; exact E|]. now apply H.
Qed.
Lemma one_call s h i j : reach s -> (i < stNc s)%nat -> (j < stNc s)%nat -> answers s h i -> answers s h j -> i = j.
Proof.
  intros R Li Lj (_ & _ & _ & A) (_ & _ & _ & B). apply inv_reach in R. exact (v_sid s R i j _ Li Lj A B).
Qed.
Lemma never_blocked s h : reach s -> (h < stNh s)%nat -> stHpc s h <> HEnd ->
  exists o s', (o = OLook h \/ o = ORes h \/ o = OPush h) /\ step s o = Some s'.
Proof.
  intros R Lh Hh. apply inv_reach in R. destruct (stHpc s h) as [|k|k|] eqn:E.
  - exists (OLook h). cbn [step]. destruct (Nat.ltb_spec h (stNh s)); [|lia]. unfold hndStep. rewrite E.
    destruct (stTab s _ _ _); eexists; (split; [left; reflexivity|reflexivity]).
  - exists (ORes h). cbn [step]. destruct (Nat.ltb_spec h (stNh s)); [|lia]. unfold hndStep. rewrite E. eexists. split; [right; left; reflexivity|reflexivity].
  - exists (OPush h). cbn [step]. destruct (Nat.ltb_spec h (stNh s)); [|lia]. unfold hndStep. rewrite E.
    destruct (v_hold s R h k) as (_ & _ & T & _); [split; [exact Lh|right; exact E]|]. rewrite T. eexists. split; [right; right; reflexivity|reflexivity].
  - now destruct Hh.
Qed.
Lemma no_lost_answer s h i : reach s -> (i < stNc s)%nat -> stPc s i = PWait -> answers s h i -> noHandlerBusy s ->
  exists s', step s (OTake i) = Some s'.
Proof.
  intros R Li Ep An Nb. apply inv_reach in R. destruct (v_act s R i Li) as (_ & _ & _ & P); [rewrite Ep; exact Logic.I|].
  unfold phase in P. rewrite Ep in P. destruct P as (L & _ & _).
  assert (T : inTab s i = None).
  { destruct An as (Lh & A & B & C). unfold inTab. rewrite <- A, <- B, (sidOf_Some _ _ C). apply (v_done s R h Lh). rewrite (Nb h Lh). discriminate. }
  cbn [step]. destruct (Nat.ltb_spec i (stNc s)); [|lia]. unfold callStep. rewrite Ep.
  destruct L as [[X _]|[(_ & (g & Lg & X) & _)|(_ & X & _)]].
  - rewrite X in T. discriminate T.
  - rewrite (Nb g Lg) in X. destruct X as [X|X]; discriminate X.
  - rewrite X. eexists. reflexivity.
Qed.
Lemma no_leak s i r : reach s -> returned s i r -> In (cCh (stCall s i), sidOf (stCall s i)) (stSent s) -> cSid (stCall s i) <> None ->
  stTab s (cCh (stCall s i)) (cHb (stCall s i)) (sidOf (stCall s i)) = None.
Proof.
  intros R [Li E] S Hs. apply inv_reach in R. destruct (stTab s _ _ _) as [k|] eqn:T; [exfalso|reflexivity].
  destruct (v_tab s R _ _ _ _ T) as (_ & j & Lj & _ & _ & B & _ & _ & C).
  assert (j = i). { unfold sidOf in B. destruct (cSid (stCall s i)) as [a|] eqn:Ei; [|now destruct Hs]. exact (v_sid s R j i a Lj Li B Ei). }
  subst j. rewrite E in C. destruct (C S) as [X|[q X]]; discriminate X.
Qed.

(* ---- timers ---- *)
Definition inSel (p : cpc) : Prop := p = PSend \/ p = PWait.
Record tinv (s : st) : Prop := {
  t_arm : forall k t, sArmed (stStm s k) = Some t -> exists i, (i < stNc s)%nat /\ inSel (stPc s i) /\ cStm (stCall s i) = k /\ t = cDead (stCall s i);
  t_tick : forall i, (i < stNc s)%nat -> stPc s i = PReg \/ inSel (stPc s i) -> cStale (stCall s i) = false ->
           sTick (stStm s (cStm (stCall s i))) = true -> cDead (stCall s i) <= stNow s;
  t_res : forall i r, (i < stNc s)%nat -> (stPc s i = PRemove r \/ stPc s i = PRelease r \/ stPc s i = PPut r \/ stPc s i = PDone r) ->
          timedOut r -> cStale (stCall s i) = false -> cDead (stCall s i) <= stNow s;
  t_run : forall i, (i < stNc s)%nat -> inSel (stPc s i) ->
          sTick (stStm s (cStm (stCall s i))) = true \/ sArmed (stStm s (cStm (stCall s i))) = Some (cDead (stCall s i)) }.

Lemma sel_active p : inSel p -> active p.
Proof. intros [->| ->]; exact Logic.I. Qed.
Lemma act_stm_inj s i j : inv s -> (i < stNc s)%nat -> (j < stNc s)%nat -> active (stPc s i) -> active (stPc s j) ->
  cStm (stCall s i) = cStm (stCall s j) -> i = j.
Proof.
  intros I Li Lj Ai Aj E. destruct (v_act s I i Li Ai) as (_ & Oi & _). destruct (v_act s I j Lj Aj) as (_ & Oj & _). rewrite E in Oi.
  exact (own_inj s i j _ I Oi Oj).
Qed.

Lemma tinv_call s i p x tab sent pool : inv s -> tinv s -> (i < stNc s)%nat -> active (stPc s i) ->
  (forall t, sArmed x = Some t -> inSel p /\ t = cDead (stCall s i)) ->
  (p = PReg \/ inSel p -> cStale (stCall s i) = false -> sTick x = true -> cDead (stCall s i) <= stNow s) ->
  (forall r, p = PRemove r \/ p = PRelease r \/ p = PPut r \/ p = PDone r -> timedOut r -> cStale (stCall s i) = false -> cDead (stCall s i) <= stNow s) ->
  (inSel p -> sTick x = true \/ sArmed x = Some (cDead (stCall s i))) ->
  tinv (stepSt s i p x tab sent pool).
Proof.
  intros I T Li Ac HA HT HR HS. set (s' := stepSt s i p x tab sent pool). set (k := cStm (stCall s i)) in *.
  assert (SO : forall y, y <> k -> stStm s' y = stStm s y) by (intros y Hy; cbn; apply fupd_ne, Hy).
  assert (SN : stStm s' k = x) by (cbn; apply fupd_eq).
  assert (PcO : forall j, j <> i -> stPc s' j = stPc s j) by (intros j Hj; cbn; apply fupd_ne, Hj).
  assert (PcN : stPc s' i = p) by (cbn; apply fupd_eq).
  split.
  - intros y t H. destruct (Nat.eq_dec y k) as [->|Ny].
    + rewrite SN in H. destruct (HA t H) as [A B]. exists i. rewrite PcN. split; [exact Li|]. split; [exact A|]. split; [reflexivity|exact B].
    + rewrite SO in H by exact Ny. destruct (t_arm s T y t H) as (j & Lj & A & B & C). exists j.
      assert (Nj : j <> i) by (intros ->; apply Ny; symmetry; exact B). rewrite PcO by exact Nj. split; [exact Lj|]. split; [exact A|]. split; [exact B|exact C].
  - intros j Lj Hp Hs Ht. change (stCall s' j) with (stCall s j) in *. change (stNow s') with (stNow s).
    destruct (Nat.eq_dec j i) as [->|Nj].
    + rewrite PcN in Hp. fold k in Ht. rewrite SN in Ht. exact (HT Hp Hs Ht).
    + rewrite PcO in Hp by exact Nj.
      assert (Nk : cStm (stCall s j) <> k).
      { intros E. apply Nj. apply (act_stm_inj s j i I Lj Li); [destruct Hp as [->|Hp]; [exact Logic.I|exact (sel_active _ Hp)]|exact Ac|exact E]. }
      rewrite SO in Ht by exact Nk. exact (t_tick s T j Lj Hp Hs Ht).
  - intros j r Lj Hp Ho Hs. change (stCall s' j) with (stCall s j) in *. change (stNow s') with (stNow s).
    destruct (Nat.eq_dec j i) as [->|Nj]; [rewrite PcN in Hp; exact (HR r Hp Ho Hs)|rewrite PcO in Hp by exact Nj; exact (t_res s T j r Lj Hp Ho Hs)].
  - intros j Lj Hp. change (stCall s' j) with (stCall s j). destruct (Nat.eq_dec j i) as [->|Nj].
    + rewrite PcN in Hp. fold k. rewrite SN. exact (HS Hp).
    + rewrite PcO in Hp by exact Nj.
      assert (Nk : cStm (stCall s j) <> k).
      { intros E. apply Nj. apply (act_stm_inj s j i I Lj Li); [exact (sel_active _ Hp)|exact Ac|exact E]. }
      rewrite SO by exact Nk. exact (t_run s T j Lj Hp).
Qed.

Lemma tinv_ext s s' : stNc s' = stNc s -> (forall i, stCall s' i = stCall s i) -> (forall i, stPc s' i = stPc s i) ->
  (forall k, sArmed (stStm s' k) = sArmed (stStm s k) /\ sTick (stStm s' k) = sTick (stStm s k)) -> stNow s <= stNow s' -> tinv s -> tinv s'.
Proof.
  intros E1 E2 E3 E4 E5 T. split.
  - intros k t H. rewrite (proj1 (E4 k)) in H. destruct (t_arm s T k t H) as (i & A). exists i. rewrite E1, E2, E3. exact A.
  - intros i Li. rewrite E2, E3, (proj2 (E4 _)). rewrite E1 in Li. intros A B C. pose proof (t_tick s T i Li A B C). lia.
  - intros i r Li. rewrite E2, E3. rewrite E1 in Li. intros A B C. pose proof (t_res s T i r Li A B C). lia.
  - intros i Li. rewrite E2, E3, (proj2 (E4 _)), (proj1 (E4 _)). rewrite E1 in Li. exact (t_run s T i Li).
Qed.

Lemma armed_free s k : inv s -> tinv s -> In k (stPool s) \/ (stNs s <= k)%nat -> sArmed (stStm s k) = None.
Proof.
  intros I T H. destruct (sArmed (stStm s k)) as [t|] eqn:E; [exfalso|reflexivity].
  destruct (t_arm s T k t E) as (i & Li & A & <- & _). destruct (v_act s I i Li (sel_active _ A)) as (B & _ & C & _).
  destruct H as [H|H]; [exact (C H)|lia].
Qed.

Lemma tinv_start s ch hb req timeout sid pick s' : inv s -> tinv s -> startCall s ch hb req timeout sid pick = Some s' -> tinv s'.
Proof.
  intros I T. unfold startCall.
  assert (G : forall k x c p, (k = cStm c) -> (forall i, (i < stNc s)%nat -> active (stPc s i) -> cStm (stCall s i) <> k) \/ stStm s k = x ->
     sArmed x = None -> (sTick x = true -> cStale c = true) \/ ~ (p = PReg \/ inSel p) -> ~ inSel p ->
     (forall r, p = PRemove r \/ p = PRelease r \/ p = PPut r \/ p = PDone r -> ~ timedOut r) -> 
     forall ns pool, tinv (mkSt (fupd (stStm s) k x) ns pool (stTab s) (fupd (stCall s) (stNc s) c) (fupd (stPc s) (stNc s) p) (S (stNc s))
       (stHnd s) (stHpc s) (stNh s) (stSent s) (stClosed s) (stNow s))).
  { intros k x c p Ek Nk Ax Tx Np Rx ns pool. set (s1 := mkSt _ _ _ _ _ _ _ _ _ _ _ _ _).
    assert (CO : forall i, (i < stNc s)%nat -> stCall s1 i = stCall s i) by (intros i H; cbn; apply fupd_ne; lia).
    assert (PO : forall i, (i < stNc s)%nat -> stPc s1 i = stPc s i) by (intros i H; cbn; apply fupd_ne; lia).
    assert (CN : stCall s1 (stNc s) = c) by (cbn; apply fupd_eq).
    assert (PN : stPc s1 (stNc s) = p) by (cbn; apply fupd_eq).
    assert (SO : forall i, (i < stNc s)%nat -> active (stPc s i) -> stStm s1 (cStm (stCall s i)) = stStm s (cStm (stCall s i))).
    { intros i Li Ha. cbn. destruct Nk as [Nk|Nk]; [apply fupd_ne, Nk; assumption|]. unfold fupd. destruct (Nat.eqb_spec (cStm (stCall s i)) k) as [->|]; [symmetry; exact Nk|reflexivity]. }
    split.
    - intros y t H. assert (H0 : sArmed (stStm s y) = Some t).
      { cbn in H. unfold fupd in H. destruct (Nat.eqb_spec y k) as [->|]; [|exact H]. rewrite Ax in H. discriminate H. }
      destruct (t_arm s T y t H0) as (i & Li & A). exists i. rewrite CO, PO by exact Li. split; [cbn; lia|exact A].
    - intros i Li Hp Hs Ht. change (stNc s1) with (S (stNc s)) in Li. destruct (Nat.eq_dec i (stNc s)) as [->|Ni].
      + rewrite CN in *. rewrite PN in Hp. exfalso. destruct Tx as [Tx|Tx]; [|exact (Tx Hp)]. rewrite <- Ek in Ht. cbn in Ht. rewrite fupd_eq in Ht. rewrite (Tx Ht) in Hs. discriminate Hs.
      + assert (Li' : (i < stNc s)%nat) by lia. rewrite CO in * by exact Li'. rewrite PO in Hp by exact Li'.
        rewrite SO in Ht; [|exact Li'|destruct Hp as [->|Hp]; [exact Logic.I|exact (sel_active _ Hp)]]. exact (t_tick s T i Li' Hp Hs Ht).
    - intros i r Li Hp Ho Hs. change (stNc s1) with (S (stNc s)) in Li. destruct (Nat.eq_dec i (stNc s)) as [->|Ni].
      + rewrite PN in Hp. destruct (Rx r Hp Ho).
      + assert (Li' : (i < stNc s)%nat) by lia. rewrite CO in * by exact Li'. rewrite PO in Hp by exact Li'. exact (t_res s T i r Li' Hp Ho Hs).
    - intros i Li Hp. change (stNc s1) with (S (stNc s)) in Li. destruct (Nat.eq_dec i (stNc s)) as [->|Ni].
      + rewrite PN in Hp. destruct (Np Hp).
      + assert (Li' : (i < stNc s)%nat) by lia. rewrite CO by exact Li'. rewrite PO in Hp by exact Li'.
        rewrite SO; [|exact Li'|exact (sel_active _ Hp)]. exact (t_run s T i Li' Hp). }
  assert (NReg : ~ inSel PReg) by (intros [X|X]; discriminate X).
  assert (RReg : forall r, PReg = PRemove r \/ PReg = PRelease r \/ PReg = PPut r \/ PReg = PDone r -> ~ timedOut r) by (intros r [X|[X|[X|X]]]; discriminate X).
  destruct (stClosed s ch).
  { intros E. injection E as <-. set (c := mkCall _ _ _ _ _ _ _).
    assert (CO : forall i, (i < stNc s)%nat -> fupd (stCall s) (stNc s) c i = stCall s i) by (intros i H; apply fupd_ne; lia).
    assert (PO : forall i, (i < stNc s)%nat -> fupd (stPc s) (stNc s) (PDone RShutdown) i = stPc s i) by (intros i H; apply fupd_ne; lia).
    split; cbn [stCall stPc stStm stNow stNc].
    - intros y t H. destruct (t_arm s T y t H) as (i & Li & A). exists i. rewrite CO, PO by exact Li. split; [lia|exact A].
    - intros i Li. destruct (Nat.eq_dec i (stNc s)) as [->|Ni]; [rewrite !fupd_eq; intros [X|[X|X]]; discriminate X|].
      rewrite CO, PO by lia. apply (t_tick s T). lia.
    - intros i r Li. destruct (Nat.eq_dec i (stNc s)) as [->|Ni].
      + rewrite !fupd_eq. intros [X|[X|[X|X]]]; try discriminate X. injection X as <-. intros [X|X]; discriminate X.
      + rewrite CO, PO by lia. apply (t_res s T). lia.
    - intros i Li. destruct (Nat.eq_dec i (stNc s)) as [->|Ni]; [rewrite !fupd_eq; intros [X|X]; discriminate X|].
      rewrite CO, PO by lia. apply (t_run s T). lia. }
  destruct pick as [k|].
  - destruct (existsb (Nat.eqb k) (stPool s)) eqn:Ek; [|discriminate]. intros E. injection E as <-.
    apply existsb_exists in Ek. destruct Ek as (k' & Hk & Ek). apply Nat.eqb_eq in Ek. subst k'.
    apply (G k (fillStream (stStm s k) ch hb req sid) (mkCall ch hb req (stNow s + timeout) (Some sid) k (sTick (stStm s k))) PReg); auto.
    + left. intros i Li Ha <-. destruct (v_act s I i Li Ha) as (_ & _ & C & _). exact (C Hk).
    + apply (armed_free s k I T). left. exact Hk.
  - intros E. injection E as <-.
    apply (G (stNs s) (fillStream stm0 ch hb req sid) (mkCall ch hb req (stNow s + timeout) (Some sid) (stNs s) false) PReg); auto.
    left. intros i Li Ha E. destruct (v_act s I i Li Ha) as (C & _). lia.
Qed.

Lemma tinv_callStep s i o s' : inv s -> tinv s -> (i < stNc s)%nat -> callStep s i o = Some s' -> tinv s'.
Proof.
  intros I T Li. unfold callStep. set (c := stCall s i). set (k := cStm c). set (x := stStm s k).
  assert (NA : active (stPc s i) -> ~ inSel (stPc s i) -> sArmed x = None).
  { intros Ac Hn. destruct (sArmed x) as [t|] eqn:E; [exfalso|reflexivity]. destruct (t_arm s T k t E) as (j & Lj & A & B & _).
    apply Hn. rewrite <- (act_stm_inj s j i I Lj Li (sel_active _ A) Ac B). exact A. }
  assert (TT := t_tick s T i Li). assert (TR := fun r => t_res s T i r Li). fold c k in TT, TR. fold x in TT.
  destruct (stPc s i) eqn:Ep; destruct o; try discriminate.
  - intros E. injection E as <-. apply (tinv_call s i PSend (withTimer x (Some (cDead c)) (sTick x)) (tupd (stTab s) (cCh c) (cHb c) (sidOf c) (Some k)) (stSent s) (stPool s) I T Li); [rewrite Ep; exact Logic.I| | | |].
    + cbn. intros t X. injection X as <-. split; [left; reflexivity|reflexivity].
    + cbn. intros _. apply TT. left. reflexivity.
    + intros r [X|[X|[X|X]]]; discriminate X.
    + intros _. right. reflexivity.
  - intros E. injection E as <-. apply (tinv_call s i PWait (withTimer x (Some (cDead c)) (sTick x)) (stTab s) ((cCh c, sidOf c) :: stSent s) (stPool s) I T Li); [rewrite Ep; exact Logic.I| | | |].
    + cbn. intros t X. injection X as <-. split; [right; reflexivity|reflexivity].
    + cbn. intros _. apply TT. right. left. reflexivity.
    + intros r [X|[X|[X|X]]]; discriminate X.
    + intros _. right. reflexivity.
  - destruct (cHb c); [discriminate|]. intros E. injection E as <-. apply (tinv_call s i (PRelease REncode) (stop x) (stTab s) (stSent s) (stPool s) I T Li); [rewrite Ep; exact Logic.I| | | |].
    + cbn. intros t X. discriminate X.
    + intros [X|[X|X]]; discriminate X.
    + intros r [X|[X|[X|X]]]; try discriminate X. injection X as <-. intros [X|X]; discriminate X.
    + intros [X|X]; discriminate X.
  - destruct (sTick x) eqn:Et; [|discriminate]. intros E. injection E as <-. apply (tinv_call s i (PRelease RSendTimeout) (withTimer x None false) (stTab s) (stSent s) (stPool s) I T Li); [rewrite Ep; exact Logic.I| | | |].
    + cbn. intros t X. discriminate X.
    + intros [X|[X|X]]; discriminate X.
    + intros r _ _ Hs. apply TT; [right; left; reflexivity|exact Hs|reflexivity].
    + intros [X|X]; discriminate X.
  - destruct (stClosed s (cCh c)); [|discriminate]. intros E. injection E as <-. apply (tinv_call s i (PRelease RShutdown) (stop x) (stTab s) (stSent s) (stPool s) I T Li); [rewrite Ep; exact Logic.I| | | |].
    + cbn. intros t X. discriminate X.
    + intros [X|[X|X]]; discriminate X.
    + intros r [X|[X|[X|X]]]; try discriminate X. injection X as <-. intros [X|X]; discriminate X.
    + intros [X|X]; discriminate X.
  - destruct (sTok x) as [|n]; [discriminate|]. intros E. injection E as <-. apply (tinv_call s i (PRemove match sRes x with Some r => ROk r | None => RNil end) (stop (withTok x n)) (stTab s) (stSent s) (stPool s) I T Li); [rewrite Ep; exact Logic.I| | | |].
    + cbn. intros t X. discriminate X.
    + intros [X|[X|X]]; discriminate X.
    + intros r [X|[X|[X|X]]]; try discriminate X. injection X as <-. intros [X|X]; destruct (sRes x); discriminate X.
    + intros [X|X]; discriminate X.
  - destruct (sTick x) eqn:Et; [|discriminate]. intros E. injection E as <-. apply (tinv_call s i (PRemove RRecvTimeout) (withCan (withTimer x None false) false) (stTab s) (stSent s) (stPool s) I T Li); [rewrite Ep; exact Logic.I| | | |].
    + cbn. intros t X. discriminate X.
    + intros [X|[X|X]]; discriminate X.
    + intros r _ _ Hs. apply TT; [right; right; reflexivity|exact Hs|reflexivity].
    + intros [X|X]; discriminate X.
  - destruct (stClosed s (cCh c)); [|discriminate]. intros E. injection E as <-. apply (tinv_call s i (PRemove RShutdown) (withCan (stop x) false) (stTab s) (stSent s) (stPool s) I T Li); [rewrite Ep; exact Logic.I| | | |].
    + cbn. intros t X. discriminate X.
    + intros [X|[X|X]]; discriminate X.
    + intros r [X|[X|[X|X]]]; try discriminate X. injection X as <-. intros [X|X]; discriminate X.
    + intros [X|X]; discriminate X.
  - assert (Na : sArmed x = None) by (apply NA; [exact Logic.I|intros [X|X]; discriminate X]).
    assert (G : forall y tab, sArmed y = None -> tinv (stepSt s i (PRelease r) y tab (stSent s) (stPool s))).
    { intros y tab Hy. apply (tinv_call s i _ y tab (stSent s) (stPool s) I T Li); [rewrite Ep; exact Logic.I| | | |].
      + rewrite Hy. intros t X. discriminate X.
      + intros [X|[X|X]]; discriminate X.
      + intros q [X|[X|[X|X]]]; try discriminate X. injection X as <-. apply TR. left. reflexivity.
      + intros [X|X]; discriminate X. }
    destruct (stTab s (cCh c) (cHb c) (sidOf c)); intros E; injection E as <-.
    + apply (G (withCan x true) (tupd (stTab s) (cCh c) (cHb c) (sidOf c) None)). exact Na.
    + apply (tinv_ext (stepSt s i (PRelease r) x (stTab s) (stSent s) (stPool s))); try reflexivity; [|apply G, Na].
      intros y. cbn. fold c k. unfold fupd. destruct (Nat.eqb_spec y k) as [->|]; split; reflexivity.
  - assert (Na : sArmed x = None) by (apply NA; [exact Logic.I|intros [X|X]; discriminate X]).
    assert (G : forall y p, (p = PPut r \/ p = PDone r) -> sArmed y = None -> tinv (stepSt s i p y (stTab s) (stSent s) (stPool s))).
    { intros y p Hp Hy. apply (tinv_call s i _ y (stTab s) (stSent s) (stPool s) I T Li); [rewrite Ep; exact Logic.I| | | |].
      + rewrite Hy. intros t X. discriminate X.
      + intros [X|[X|X]]; destruct Hp as [-> | ->]; discriminate X.
      + intros q X. apply TR. right. left. destruct Hp as [-> | ->]; destruct X as [X|[X|[X|X]]]; try discriminate X; injection X as <-; reflexivity.
      + intros [X|X]; destruct Hp as [-> | ->]; discriminate X. }
    destruct (sCan x); intros E; injection E as <-.
    + apply (G (resetStream x) (PPut r)); [left; reflexivity|exact Na].
    + apply (tinv_ext (stepSt s i (PDone r) x (stTab s) (stSent s) (stPool s))); try reflexivity; [|apply G; [right; reflexivity|exact Na]].
      intros y. cbn. fold c k. unfold fupd. destruct (Nat.eqb_spec y k) as [->|]; split; reflexivity.
  - assert (Na : sArmed x = None) by (apply NA; [exact Logic.I|intros [X|X]; discriminate X]).
    intros E; injection E as <-.
    apply (tinv_ext (stepSt s i (PDone r) x (stTab s) (stSent s) (k :: stPool s))); try reflexivity; [|].
    + intros y. cbn. fold c k. unfold fupd. destruct (Nat.eqb_spec y k) as [->|]; split; reflexivity.
    + apply (tinv_call s i _ x (stTab s) (stSent s) _ I T Li); [rewrite Ep; exact Logic.I| | | |].
      * rewrite Na. intros t X. discriminate X.
      * intros [X|[X|X]]; discriminate X.
      * intros q [X|[X|[X|X]]]; try discriminate X. injection X as <-. apply TR. right. right. left. reflexivity.
      * intros [X|X]; discriminate X.
Qed.

Lemma tinv_hndStep s h o s' : tinv s -> hndStep s h o = Some s' -> tinv s'.
Proof.
  intros T. unfold hndStep. destruct (stHpc s h); destruct o; try discriminate.
  - destruct (stTab s _ _ _); intros E; injection E as <-; (apply (tinv_ext s); try reflexivity; [intros y; split; reflexivity|exact T]).
  - intros E; injection E as <-. apply (tinv_ext s); try reflexivity; [|exact T].
    intros y. cbn. unfold fupd. destruct (Nat.eqb_spec y s0) as [->|]; split; reflexivity.
  - destruct (sTok (stStm s s0)); [|discriminate]. intros E; injection E as <-. apply (tinv_ext s); try reflexivity; [|exact T].
    intros y. cbn. unfold fupd. destruct (Nat.eqb_spec y s0) as [->|]; split; reflexivity.
Qed.

Lemma tinv_step s o s' : inv s -> tinv s -> step s o = Some s' -> tinv s'.
Proof.
  intros I T E. destruct o; cbn [step] in E;
    try (match type of E with (if (?i <? stNc s)%nat then _ else _) = _ => destruct (Nat.ltb_spec i (stNc s)) as [L|L]; [|discriminate E]; exact (tinv_callStep _ _ _ _ I T L E) end);
    try (match type of E with (if (?i <? stNh s)%nat then _ else _) = _ => destruct (Nat.ltb_spec i (stNh s)) as [L|L]; [|discriminate E]; exact (tinv_hndStep _ _ _ _ T E) end).
  - exact (tinv_start _ _ _ _ _ _ _ _ I T E).
  - injection E as <-. apply (tinv_ext s); try reflexivity; [intros y; split; reflexivity|exact T].
  - injection E as <-. apply (tinv_ext s); try reflexivity; [intros y; split; reflexivity|exact T].
  - destruct (sArmed (stStm s s0)) as [t|] eqn:Ea; [|discriminate E]. destruct (N.leb_spec t (stNow s)) as [Ht|]; [|discriminate E]. injection E as <-.
    destruct (t_arm s T s0 t Ea) as (i & Li & A & B & C).
    assert (EX : setStm s s0 (withTimer (stStm s s0) None true) = setStm s (cStm (stCall s i)) (withTimer (stStm s s0) None true)) by (rewrite B; reflexivity).
    rewrite EX. apply (tinv_ext (stepSt s i (stPc s i) (withTimer (stStm s s0) None true) (stTab s) (stSent s) (stPool s))); try reflexivity.
    + intros j. cbn. unfold fupd. destruct (Nat.eqb_spec j i) as [->|]; reflexivity.
    + intros y. split; reflexivity.

    + apply (tinv_call s i _ _ _ _ _ I T Li (sel_active _ A)).
      * cbn. intros q X. discriminate X.
      * intros _ _ _. subst t. exact Ht.
      * intros r X. exact (t_res s T i r Li X).
      * intros _. left. reflexivity.
  - injection E as <-. apply (tinv_ext s); try reflexivity; [intros y; split; reflexivity|cbn; lia|exact T].
Qed.
Lemma tinv0 : tinv st0.
Proof. split; cbn; intros; try discriminate; lia. Qed.
Lemma tinv_reach s : reach s -> tinv s.
Proof.
  induction 1; [exact tinv0|]. eapply tinv_step; [apply inv_reach; eassumption|eassumption|eassumption].
Qed.

Lemma timeout_after_deadline s i r : reach s -> returned s i r -> timedOut r -> cStale (stCall s i) = false ->
  cDead (stCall s i) <= stNow s.
Proof.
  intros R [Li E] Ht Hs. apply (t_res s (tinv_reach s R) i r Li); [right; right; right; exact E|exact Ht|exact Hs].
Qed.

(* ---- a call whose time is up can return by itself ---- *)
Lemma reach_runs s os s' : reach s -> Forall (fun o => legal s o \/ True) os -> runs s os = Some s' ->
  (forall s1 o, In o os -> legal s1 o) -> reach s'.
Proof.
  intros R _. revert s R. induction os as [|o os IH]; intros s R E L; cbn in E.
  - injection E as <-. exact R.
  - destruct (step s o) as [s1|] eqn:E1; [|discriminate E]. apply (IH s1); [|exact E|intros s2 o2 H; apply L; right; exact H].
    exact (reachS s o s1 R (L s o (or_introl eq_refl)) E1).
Qed.
Lemma own_legal s i o s1 : ownStep s i o -> legal s1 o.
Proof. intros [->|[->|[->|[->|[->|[->| ->]]]]]]; exact Logic.I. Qed.
Lemma runs_app s a b : runs s (a ++ b) = match runs s a with Some s' => runs s' b | None => None end.
Proof. revert s. induction a as [|o a IH]; intros s; [reflexivity|]. cbn. destruct (step s o); [apply IH|reflexivity]. Qed.

Definition finishes (s : st) (i : nat) : Prop :=
  exists os s' r, Forall (ownStep s i) os /\ runs s os = Some s' /\ returned s' i r.
Lemma fin_step s i o s1 : ownStep s i o -> step s o = Some s1 -> stCall s1 = stCall s -> finishes s1 i -> finishes s i.
Proof.
  intros O E C (os & s' & r & F & R & D). exists (o :: os), s', r. split; [|split; [cbn; rewrite E; exact R|exact D]].
  constructor; [exact O|]. revert F. apply Forall_impl. intros a Ha. unfold ownStep in *. rewrite C in Ha. exact Ha.
Qed.
Lemma fin_put s i r : (i < stNc s)%nat -> stPc s i = PPut r -> finishes s i.
Proof.
  intros Li E. exists [OPut i]. cbn [step runs]. destruct (Nat.ltb_spec i (stNc s)); [|lia]. unfold callStep. rewrite E. eexists. exists r.
  split; [|split; [reflexivity|]].
  - constructor; [|constructor]. unfold ownStep. auto 10.
  - split; [exact Li|]. cbn. apply fupd_eq.
Qed.
Lemma fin_release s i r : (i < stNc s)%nat -> stPc s i = PRelease r -> finishes s i.
Proof.
  intros Li E. destruct (sCan (stStm s (cStm (stCall s i)))) eqn:Ec.
  - assert (E1 : exists s1, step s (ORelease i) = Some s1 /\ stPc s1 i = PPut r /\ stCall s1 = stCall s /\ stNc s1 = stNc s).
    { cbn [step]. destruct (Nat.ltb_spec i (stNc s)); [|lia]. unfold callStep. rewrite E, Ec. eexists. split; [reflexivity|]. cbn. rewrite fupd_eq. auto. }
    destruct E1 as (s1 & E1 & E2 & E3 & E4). apply (fin_step s i (ORelease i) s1); [unfold ownStep; auto 10|exact E1|exact E3|]. apply (fin_put s1 i r); [lia|exact E2].
  - exists [ORelease i]. cbn [step runs]. destruct (Nat.ltb_spec i (stNc s)); [|lia]. unfold callStep. rewrite E, Ec. eexists. exists r.
    split; [|split; [reflexivity|]].
    + constructor; [|constructor]. unfold ownStep. auto 10.
    + split; [exact Li|]. cbn. apply fupd_eq.
Qed.
Lemma fin_remove s i r : (i < stNc s)%nat -> stPc s i = PRemove r -> finishes s i.
Proof.
  intros Li E.
  assert (E1 : exists s1, step s (ORemove i) = Some s1 /\ stPc s1 i = PRelease r /\ stCall s1 = stCall s /\ stNc s1 = stNc s).
  { cbn [step]. destruct (Nat.ltb_spec i (stNc s)); [|lia]. unfold callStep. rewrite E. destruct (stTab s _ _ _); eexists; (split; [reflexivity|]); cbn; rewrite fupd_eq; auto. }
  destruct E1 as (s1 & E1 & E2 & E3 & E4). apply (fin_step s i (ORemove i) s1); [unfold ownStep; auto 10|exact E1|exact E3|]. apply (fin_release s1 i r); [lia|exact E2].
Qed.
(* at a select with an unread tick *)
Lemma fin_ticked s i : (i < stNc s)%nat -> inSel (stPc s i) -> sTick (stStm s (cStm (stCall s i))) = true -> finishes s i.
Proof.
  intros Li [E|E] Et.
  - assert (E1 : exists s1, step s (OSendTimeout i) = Some s1 /\ stPc s1 i = PRelease RSendTimeout /\ stCall s1 = stCall s /\ stNc s1 = stNc s).
    { cbn [step]. destruct (Nat.ltb_spec i (stNc s)); [|lia]. unfold callStep. rewrite E, Et. eexists. split; [reflexivity|]. cbn. rewrite fupd_eq. auto. }
    destruct E1 as (s1 & E1 & E2 & E3 & E4). apply (fin_step s i (OSendTimeout i) s1); [unfold ownStep; auto 10|exact E1|exact E3|]. apply (fin_release s1 i RSendTimeout); [lia|exact E2].
  - assert (E1 : exists s1, step s (OTimeout i) = Some s1 /\ stPc s1 i = PRemove RRecvTimeout /\ stCall s1 = stCall s /\ stNc s1 = stNc s).
    { cbn [step]. destruct (Nat.ltb_spec i (stNc s)); [|lia]. unfold callStep. rewrite E, Et. eexists. split; [reflexivity|]. cbn. rewrite fupd_eq. auto. }
    destruct E1 as (s1 & E1 & E2 & E3 & E4). apply (fin_step s i (OTimeout i) s1); [unfold ownStep; auto 10|exact E1|exact E3|]. apply (fin_remove s1 i RRecvTimeout); [lia|exact E2].
Qed.
Lemma fin_sel s i : reach s -> (i < stNc s)%nat -> inSel (stPc s i) -> cDead (stCall s i) <= stNow s -> finishes s i.
Proof.
  intros R Li Hs Hd. destruct (t_run s (tinv_reach s R) i Li Hs) as [H|H]; [apply fin_ticked; assumption|].
  set (k := cStm (stCall s i)) in *.
  assert (E1 : step s (OTick k) = Some (setStm s k (withTimer (stStm s k) None true))).
  { cbn. rewrite H. destruct (N.leb_spec (cDead (stCall s i)) (stNow s)); [reflexivity|lia]. }
  apply (fin_step s i (OTick k) (setStm s k (withTimer (stStm s k) None true))); [unfold ownStep; auto 10|exact E1|reflexivity|]. apply fin_ticked; [exact Li|exact Hs|]. cbn. fold k. rewrite fupd_eq. reflexivity.
Qed.
Lemma call_finishes s i : reach s -> (i < stNc s)%nat -> cDead (stCall s i) <= stNow s -> finishes s i.
Proof.
  intros R Li Hd. destruct (stPc s i) as [| | |r|r|r|r] eqn:E.
  - assert (E1 : exists s1, step s (OReg i) = Some s1 /\ stPc s1 i = PSend /\ stCall s1 = stCall s /\ stNc s1 = stNc s /\ stNow s1 = stNow s).
    { cbn [step]. destruct (Nat.ltb_spec i (stNc s)); [|lia]. unfold callStep. rewrite E. eexists. split; [reflexivity|]. cbn. rewrite fupd_eq. auto. }
    destruct E1 as (s1 & E1 & E2 & E3 & E4 & E5). apply (fin_step s i (OReg i) s1); [unfold ownStep; auto 10|exact E1|exact E3|].
    apply fin_sel; [exact (reachS s (OReg i) s1 R Logic.I E1)|lia|left; exact E2|rewrite E3, E5; exact Hd].
  - apply fin_sel; try assumption. left. exact E.
  - apply fin_sel; try assumption. right. exact E.
  - exact (fin_remove s i r Li E).
  - exact (fin_release s i r Li E).
  - exact (fin_put s i r Li E).
  - exists [], s, r. split; [constructor|]. split; [reflexivity|]. split; [exact Li|exact E].
Qed.

(* ---- concrete schedules ---- *)
Fixpoint legalb (s : st) (os : list op) : bool :=
  match os with
  | [] => true
  | o :: r =>
    (match o with
     | OStart _ _ _ _ sid _ => forallb (fun i => match cSid (stCall s i) with Some a => negb (N.eqb a sid) | None => true end) (seq 0 (stNc s))
     | ODeliver ch _ rid _ => existsb (fun p => Nat.eqb (fst p) ch && N.eqb (snd p) rid)%bool (stSent s)
     | _ => true
     end && match step s o with Some s' => legalb s' r | None => false end)%bool
  end.
Lemma legalb_reach s os s' : reach s -> legalb s os = true -> runs s os = Some s' -> reach s'.
Proof.
  revert s. induction os as [|o os IH]; intros s R L E; cbn in L, E.
  - injection E as <-. exact R.
  - apply andb_true_iff in L. destruct L as [L1 L2]. destruct (step s o) as [s1|] eqn:E1; [|discriminate E].
    apply (IH s1); [|exact L2|exact E]. apply (reachS s o s1 R); [|exact E1]. destruct o; try exact Logic.I; cbn.
    + intros i Li Hi. rewrite forallb_forall in L1. specialize (L1 i). rewrite Hi in L1. rewrite N.eqb_refl in L1. apply diff_false_true. apply L1. apply in_seq. lia.
    + apply existsb_exists in L1. destruct L1 as ([a b] & H & L1). cbn in L1. apply andb_true_iff in L1. destruct L1 as [A B].
      apply Nat.eqb_eq in A. apply N.eqb_eq in B. subst. exact H.
Qed.

Fixpoint legalIdsb (s : st) (os : list op) : bool :=
  match os with
  | [] => true
  | o :: r =>
    (match o with
     | OStart _ _ _ _ sid _ => forallb (fun i => match cSid (stCall s i) with Some a => negb (N.eqb a sid) | None => true end) (seq 0 (stNc s))
     | _ => true
     end && match step s o with Some s' => legalIdsb s' r | None => false end)%bool
  end.
Lemma legalIdsb_reach s os s' : reachAny s -> legalIdsb s os = true -> runs s os = Some s' -> reachAny s'.
Proof.
  revert s. induction os as [|o os IH]; intros s R L E; cbn in L, E.
  - injection E as <-. exact R.
  - apply andb_true_iff in L. destruct L as [L1 L2]. destruct (step s o) as [s1|] eqn:E1; [|discriminate E].
    apply (IH s1); [|exact L2|exact E]. apply (reachAnyS s o s1 R); [|exact E1]. destruct o; try exact Logic.I; cbn.
    intros i Li Hi. rewrite forallb_forall in L1. specialize (L1 i). rewrite Hi in L1. rewrite N.eqb_refl in L1. apply diff_false_true. apply L1. apply in_seq. lia.
Qed.
