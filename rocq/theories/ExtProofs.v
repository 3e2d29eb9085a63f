(* ExtProofs.v *)
From Verif Require Import Base GoStrings GoStrings2 Strconv UrlModel UrlSpec UrlProofs ExtModel ExtSpec.
Require Import Lia.
Ltac Zify.zify_post_hook ::= idtac.

Lemma ekind_eqb_spec a b : ekind_eqb a b = true <-> a = b.
Proof. destruct a, b; cbn; split; intro H; try reflexivity; discriminate. Qed.
Lemma ekind_eqb_sym a b : ekind_eqb a b = ekind_eqb b a.
Proof. destruct a, b; reflexivity. Qed.
Lemma find_register x k n f k' n' : find (registerExt x k n f) k' n' = if ekind_eqb k k' && bs_eqb n n' then Some f else find x k' n'.
Proof.
  unfold find, registerExt. cbn [xTab]. rewrite (ekind_eqb_sym k' k). destruct (ekind_eqb k k'); [|reflexivity]. cbn. rewrite (aget_aset bs_eqb bs_eqb_spec), bs_eqb_sym. reflexivity.
Qed.
Lemma find_registry x u k n : find (snd (getRegistry x u)) k n = find x k n.
Proof.
  unfold getRegistry. destruct (aget bs_eqb (xReg x) _); [reflexivity|]. destruct (find x ERegistry (uProtocol u)); reflexivity.
Qed.
Lemma last_snoc k n os o : last_registered k n (os ++ [o]) = match registers k n o with Some f => Some f | None => last_registered k n os end.
Proof. unfold last_registered. rewrite fold_left_app. reflexivity. Qed.
Lemma xrun_snoc os o : xrun (os ++ [o]) = xstep (xrun os) o.
Proof. unfold xrun. rewrite fold_left_app. reflexivity. Qed.
Lemma found os k n : find (xrun os) k n = last_registered k n os.
Proof.
  induction os as [|o os IH] using rev_ind; [reflexivity|]. rewrite xrun_snoc, last_snoc. destruct o as [k' n' f|n' i f|u]; cbn [xstep registers].
  - rewrite find_register, IH. destruct (ekind_eqb k' k && bs_eqb n' n); reflexivity.
  - unfold registerSer. rewrite !find_register, IH. destruct (ekind_eqb ESerialization k); [|reflexivity]. cbn.
    destruct (bs_eqb (fmtZ i) n); destruct (bs_eqb n' n); reflexivity.
  - rewrite find_registry. exact IH.
Qed.
Lemma identity_fresh u : fst (getIdentity (fresh u)) = identity_of u.
Proof. exact (proj1 (proj2 (proj2 (getIdentity_ok (fresh u) (fresh_coherent u))) (or_introl eq_refl))). Qed.
Definition reg_step idt (st : list xop * option (N * url)) (o : xop) : list xop * option (N * url) :=
  (fst st ++ [o], match snd st with
                  | Some r => Some r
                  | None => match o with
                            | XRegistry u => if bs_eqb (identity_of u) idt then option_map (fun f => (f, u)) (last_registered ERegistry (uProtocol u) (fst st)) else None
                            | _ => None
                            end
                  end).
Lemma reg_fst idt os : fst (fold_left (reg_step idt) os ([], None)) = os.
Proof. induction os as [|o os IH] using rev_ind; [reflexivity|]. rewrite fold_left_app. cbn. rewrite IH. reflexivity. Qed.
Lemma registry_snoc idt os o : registry_of idt (os ++ [o]) = match registry_of idt os with
  | Some r => Some r
  | None => match o with
            | XRegistry u => if bs_eqb (identity_of u) idt then option_map (fun f => (f, u)) (last_registered ERegistry (uProtocol u) os) else None
            | _ => None end end.
Proof.
  unfold registry_of. fold (reg_step idt). rewrite fold_left_app. cbn [fold_left]. unfold reg_step at 1. cbn [snd]. rewrite reg_fst. reflexivity.
Qed.
Definition reginv (os : list xop) : Prop := let x := xrun os in
  (forall idt, match aget bs_eqb (xReg x) idt with
               | Some (n, f, u) => registry_of idt os = Some (f, u) /\ (n < xNext x)%nat
               | None => registry_of idt os = None end) /\
  (forall i j n f u f' u', aget bs_eqb (xReg x) i = Some (n, f, u) -> aget bs_eqb (xReg x) j = Some (n, f', u') -> i = j).
Lemma reginv_all os : reginv os.
Proof.
  induction os as [|o os [I1 I2]] using rev_ind. { split; [reflexivity|]. intros i j n f u f' u' H. discriminate H. }
  unfold reginv. rewrite xrun_snoc. destruct o as [k' n' f|n' i f|u]; cbn [xstep].
  - split; [|exact I2]. intro idt. rewrite registry_snoc. specialize (I1 idt). cbn [registerExt xReg xNext]. destruct (aget bs_eqb (xReg (xrun os)) idt) as [[[n g] v]|]; [|rewrite I1; reflexivity].
    destruct I1 as [-> L]. split; [reflexivity|exact L].
  - split; [|exact I2]. intro idt. rewrite registry_snoc. specialize (I1 idt). cbn [registerSer registerExt xReg xNext]. destruct (aget bs_eqb (xReg (xrun os)) idt) as [[[n g] v]|]; [|rewrite I1; reflexivity].
    destruct I1 as [-> L]. split; [reflexivity|exact L].
  - unfold getRegistry. rewrite identity_fresh. destruct (aget bs_eqb (xReg (xrun os)) (identity_of u)) as [r0|] eqn:E; cbn [snd].
    + split; [|exact I2]. intro idt. rewrite registry_snoc. pose proof (I1 idt) as X. destruct (aget bs_eqb (xReg (xrun os)) idt) as [[[n g] v]|] eqn:E'.
      * destruct X as [-> L]. auto.
      * rewrite X. destruct (bs_eqb (identity_of u) idt) eqn:Q; [|reflexivity]. apply bs_eqb_spec in Q. congruence.
    + rewrite found. destruct (last_registered ERegistry (uProtocol u) os) as [g|] eqn:LR; cbn [snd].
      * cbn [xReg xNext]. split.
        -- intro idt. rewrite (aget_aset bs_eqb bs_eqb_spec), registry_snoc. pose proof (I1 idt) as X. destruct (bs_eqb idt (identity_of u)) eqn:Q.
           ++ apply bs_eqb_spec in Q. subst idt. rewrite E in X. rewrite X, bs_eqb_refl, LR. cbn. split; [reflexivity|lia].
           ++ rewrite bs_eqb_sym, Q. destruct (aget bs_eqb (xReg (xrun os)) idt) as [[[n h] v]|]; [destruct X as [-> L]; split; [reflexivity|lia]|rewrite X; reflexivity].
        -- intros i j n f v f' v'. rewrite !(aget_aset bs_eqb bs_eqb_spec). destruct (bs_eqb i (identity_of u)) eqn:Qi; destruct (bs_eqb j (identity_of u)) eqn:Qj.
           ++ apply bs_eqb_spec in Qi, Qj. congruence.
           ++ intros H H'. injection H as <- <- <-. pose proof (I1 j) as X. rewrite H' in X. destruct X as [_ X]. lia.
           ++ intros H H'. injection H' as <- <- <-. pose proof (I1 i) as X. rewrite H in X. destruct X as [_ X]. lia.
           ++ exact (I2 i j n f v f' v').
      * split; [|exact I2]. intro idt. rewrite registry_snoc. pose proof (I1 idt) as X. destruct (aget bs_eqb (xReg (xrun os)) idt) as [[[n h] v]|]; [destruct X as [-> L]; auto|].
        rewrite X, LR. destruct (bs_eqb (identity_of u) idt); reflexivity.
Qed.
Lemma registry_got os u : match fst (getRegistry (xrun os) u) with
  | Some (n, f, v) => registry_of (identity_of u) (os ++ [XRegistry u]) = Some (f, v) /\ aget bs_eqb (xReg (xrun (os ++ [XRegistry u]))) (identity_of u) = Some (n, f, v)
  | None => registry_of (identity_of u) (os ++ [XRegistry u]) = None
  end.
Proof.
  pose proof (reginv_all (os ++ [XRegistry u])) as [I1 _]. specialize (I1 (identity_of u)). rewrite xrun_snoc in *. cbn [xstep] in *. unfold getRegistry in *. rewrite identity_fresh in *.
  destruct (aget bs_eqb (xReg (xrun os)) (identity_of u)) as [[[n f] v]|] eqn:E; cbn [fst snd] in *.
  - rewrite E in *. destruct I1. auto.
  - destruct (find (xrun os) ERegistry (uProtocol u)) as [f|]; cbn [fst snd xReg] in *.
    + rewrite (aget_aset bs_eqb bs_eqb_spec), bs_eqb_refl in *. destruct I1. auto.
    + rewrite E in I1. exact I1.
Qed.
