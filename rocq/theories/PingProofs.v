(* PingProofs.v *)
From Coq Require Import Lia.
From Verif Require Import Base PingModel PingSpec.
Ltac Zify.zify_post_hook ::= idtac.

Definition pend (r : recvpc) : list pkt := match r with RSending p => [p] | _ => [] end.
Record inv (count id : Z) (s : ping) : Prop := mkInv {
  i_count : p_count s = count; i_id : p_id s = id;
  i_read : exists done, p_read s = done ++ p_ch s ++ pend (p_recv s) /\ p_got s = Z.of_nat (length (mine id done)) /\ p_rtts s = times (mine id done);
  i_room : length (p_ch s) <= 5;
  i_sent : (0 < count -> 0 <= p_sent s <= count)%Z;
  i_got : (0 < count -> p_got s <= count)%Z;
  i_loop : p_main s = MLoop -> (0 < count -> p_got s < count)%Z;
  i_wait : p_main s <> MLoop -> p_closed s = true;
  i_gone : p_recv s = RGone -> p_closed s = true;
  i_done : p_main s = MDone -> p_recv s = RGone
}.
Lemma mine_app : forall id a b, mine id (a ++ b) = mine id a ++ mine id b.
Proof. intros. unfold mine. apply flat_map_app. Qed.
Lemma times_app : forall a b, times (a ++ b) = times a ++ times b.
Proof. intros. unfold times. apply flat_map_app. Qed.
Lemma inv_init : forall count id ok, inv count id (pinginit count id ok).
Proof.
  intros count id ok. constructor; cbn; try reflexivity; try congruence; try lia.
  - exists []. auto.
  - intros H. destruct ok; lia.
Qed.
Lemma process_fields : forall s rest p, p_count (process s rest p) = p_count s /\ p_id (process s rest p) = p_id s /\ p_main (process s rest p) = p_main s /\ p_recv (process s rest p) = p_recv s
  /\ p_closed (process s rest p) = p_closed s /\ p_panic (process s rest p) = p_panic s /\ p_ch (process s rest p) = rest /\ p_sent (process s rest p) = p_sent s /\ p_read (process s rest p) = p_read s
  /\ p_got (process s rest p) = (p_got s + Z.of_nat (length (mine (p_id s) [p])))%Z /\ p_rtts (process s rest p) = p_rtts s ++ times (mine (p_id s) [p]).
Proof.
  intros s rest p. unfold process, mine. destruct p as [| |i r]; cbn [flat_map app length times]; try (repeat split; cbn; rewrite ?app_nil_r; try lia; reflexivity).
  destruct (i =? p_id s)%Z; cbn [app length flat_map times]; repeat split; cbn; rewrite ?app_nil_r; try lia; try reflexivity. 
Qed.
Lemma inv_step : forall count id s o s', inv count id s -> pingstep s o = Some s' -> inv count id s'.
Proof.
  intros count id s o s' H Hs. destruct H as [Hc Hi (dn & Hr & Hg & Ht) Hroom Hsent Hgot Hloop Hwait Hgone Hdone].
  unfold pingstep in Hs. destruct (p_panic s); [discriminate|]. destruct o as [| |ok| | | |p| | |].
  - destruct (p_main s) eqn:M; try discriminate. destruct (p_closed s) eqn:C; [|discriminate]. injection Hs as <-. constructor; cbn; auto; try congruence. exists dn. auto.
  - destruct (p_main s) eqn:M; try discriminate. injection Hs as <-. constructor; cbn; auto; try congruence. exists dn. auto.
  - destruct (p_main s) eqn:M; try discriminate. destruct ((0 <? p_count s)%Z && (p_sent s =? p_count s)%Z) eqn:B.
    + injection Hs as <-. constructor; auto; try (rewrite M; auto). exists dn. auto.
    + injection Hs as <-. destruct ok; [|constructor; auto; try (rewrite M; auto); exists dn; auto].
      apply andb_false_iff in B. constructor; cbn; auto; try (rewrite M; auto).
      * exists dn. auto.
      * intros Hpos. specialize (Hsent Hpos). rewrite Hc in B. destruct B as [B|B]; [apply Z.ltb_ge in B|apply Z.eqb_neq in B]; lia.
  - destruct (p_main s) eqn:M; try discriminate. destruct (p_ch s) as [|p rest] eqn:Ch; [discriminate|]. cbv zeta in Hs.
    destruct (process_fields s rest p) as (F1 & F2 & F3 & F4 & F5 & F6 & F7 & F8 & F9 & F10 & F11). set (q := process s rest p) in *.
    assert (R' : exists done, p_read q = done ++ p_ch q ++ pend (p_recv q) /\ p_got q = Z.of_nat (length (mine id done)) /\ p_rtts q = times (mine id done)).
    { exists (dn ++ [p]). rewrite F9, F7, F4, F10, F11, Hr, Hi, Hg, Ht, mine_app, times_app, app_length. split; [rewrite <- app_assoc; reflexivity|]. split; [lia|reflexivity]. }
    assert (Glt : (0 < count -> p_got q <= count)%Z).
    { intros Hpos. specialize (Hloop eq_refl Hpos). rewrite F10, Hi. assert (length (mine id [p]) <= 1) by (unfold mine; destruct p as [| |i r]; cbn; try lia; destruct (i =? id)%Z; cbn; lia). lia. }
    assert (W : inv count id (setMain (closeDone q) MWait)).
    { constructor; cbn; auto; try congruence.
      - rewrite F7. cbn in Hroom. lia.
      - rewrite F8. exact Hsent. }
    assert (L : ((0 < count)%Z -> (p_got q < count)%Z) -> inv count id q).
    { intros Hlt. constructor; auto; try congruence.
      - rewrite F7. cbn in Hroom. lia.
      - rewrite F8. exact Hsent.
      - rewrite F4, F5. exact Hgone. }
    assert (B : forall x, (if (0 <? p_count s)%Z && (p_count s <=? p_got q)%Z then Some (setMain (closeDone q) MWait) else Some q) = Some x -> inv count id x).
    { intros x Hx. destruct ((0 <? p_count s)%Z && (p_count s <=? p_got q)%Z) eqn:E; injection Hx as <-; [exact W|]. apply L. intros Hpos. rewrite Hc in E.
      apply andb_false_iff in E. destruct E as [E|E]; [apply Z.ltb_ge in E; lia|apply Z.leb_gt in E; lia]. }
    destruct p; [injection Hs as <-; exact W|apply B; exact Hs|apply B; exact Hs].
  - destruct (p_main s) eqn:M; try discriminate. destruct (p_recv s) eqn:R; try discriminate. injection Hs as <-. constructor; cbn; auto; try congruence.
    + exists dn. rewrite R. auto.
  - destruct (p_recv s) eqn:R; try discriminate. injection Hs as <-. constructor; cbn; auto.
    + exists dn. cbn [pend] in *. split; [|auto]. rewrite Hr. destruct (p_closed s); reflexivity.
    + intros H. destruct (p_closed s) eqn:C; [reflexivity|discriminate].
    + intros H. specialize (Hdone H). discriminate.
  - destruct (p_recv s) eqn:R; try discriminate. injection Hs as <-. constructor; cbn; auto; try congruence.
    + exists dn. split; [|auto]. rewrite Hr. cbn [pend]. rewrite app_nil_r, <- app_assoc. reflexivity.
    + intros H. specialize (Hdone H). discriminate.
  - destruct (p_recv s) eqn:R; try discriminate. injection Hs as <-. constructor; cbn; auto; try congruence.
    + exists dn. auto.
    + intros H. specialize (Hdone H). discriminate.
  - destruct (p_recv s) eqn:R; try discriminate. injection Hs as <-. constructor; cbn; auto; try congruence. exists dn. auto.
  - destruct (p_recv s) as [| |p|] eqn:R; try discriminate. destruct (Nat.ltb (length (p_ch s)) 5) eqn:B; [|discriminate]. apply Nat.ltb_lt in B. injection Hs as <-. constructor; cbn; auto; try congruence.
    + exists dn. split; [|auto]. rewrite Hr. cbn [pend]. rewrite app_nil_r. reflexivity.
    + rewrite app_length. cbn [length]. lia.
    + intros H. specialize (Hdone H). discriminate.
Qed.
Lemma inv_run : forall count id os s s', inv count id s -> pingrun s os = Some s' -> inv count id s'.
Proof.
  intros count id. induction os as [|o os IH]; intros s s' H Hr; cbn [pingrun] in Hr; [injection Hr as <-; exact H|].
  destruct (pingstep s o) as [s1|] eqn:E; [|discriminate]. apply (IH s1 s'); [apply (inv_step _ _ _ _ _ H E)|exact Hr].
Qed.
Lemma reached_inv : forall count id s, reached count id s -> inv count id s.
Proof. intros count id s (ok & os & H). exact (inv_run _ _ _ _ _ (inv_init count id ok) H). Qed.

(* what is measured *)
Lemma results : forall count id s, reached count id s -> exists done rest, p_read s = done ++ rest /\ p_got s = Z.of_nat (length (mine id done)) /\ p_rtts s = times (mine id done) /\
  length rest <= 6 /\ (0 < count -> 0 <= p_sent s <= count /\ p_got s <= count /\ (p_main s = MLoop -> p_got s < count))%Z.
Proof.
  intros count id s H. destruct (reached_inv _ _ _ H) as [_ _ (dn & Hr & Hg & Ht) Hroom Hsent Hgot Hloop _ _ _]. exists dn, (p_ch s ++ pend (p_recv s)).
  split; [exact Hr|]. split; [exact Hg|]. split; [exact Ht|]. split; [rewrite app_length; destruct (p_recv s); cbn [pend length]; lia|]. auto.
Qed.

(* leaving *)
Definition gleft (r : recvpc) : nat := match r with RReading => 3 | RSending _ => 2 | RTop => 1 | RGone => 0 end.
Lemma recv_down : forall s o s', p_closed s = true -> recv_op o = true -> pingstep s o = Some s' -> gleft (p_recv s') < gleft (p_recv s) /\ p_closed s' = true /\ p_main s' = p_main s.
Proof.
  intros s o s' C Ho Hs. unfold pingstep in Hs. destruct (p_panic s); [discriminate|].
  destruct o; try discriminate Ho; destruct (p_recv s) eqn:R; try discriminate.
  - injection Hs as <-. cbn [setRecv p_recv p_closed p_main]. rewrite C. cbn [gleft]. auto.
  - injection Hs as <-. cbn [p_recv p_closed p_main gleft]. auto.
  - injection Hs as <-. cbn [setRecv p_recv p_closed p_main gleft]. auto.
  - destruct (Nat.ltb (length (p_ch s)) 5); [|discriminate]. injection Hs as <-. cbn [p_recv p_closed p_main gleft]. auto.
Qed.
Lemma recv_bounded : forall os s s', p_closed s = true -> forallb recv_op os = true -> pingrun s os = Some s' -> length os + gleft (p_recv s') <= gleft (p_recv s).
Proof.
  induction os as [|o os IH]; intros s s' C F Hr; cbn [pingrun] in Hr; [injection Hr as <-; cbn [length]; lia|].
  cbn [forallb] in F. apply andb_true_iff in F. destruct F as [F1 F2]. destruct (pingstep s o) as [s1|] eqn:E; [|discriminate].
  destruct (recv_down _ _ _ C F1 E) as (D & C1 & _). specialize (IH _ _ C1 F2 Hr). cbn [length]. lia.
Qed.
Lemma leave : forall count id s, reached count id s -> p_panic s = false -> p_main s <> MLoop ->
  (forall os s', forallb recv_op os = true -> pingrun s os = Some s' -> length os <= 3) /\
  (p_recv s <> RGone -> (forall p, p_recv s = RSending p -> length (p_ch s) < 5) -> exists o, recv_op o = true /\ pingstep s o <> None) /\
  (p_main s = MWait -> p_recv s = RGone -> exists s', pingstep s PReturn = Some s' /\ p_main s' = MDone).
Proof.
  intros count id s H Np M. pose proof (reached_inv _ _ _ H) as I0. assert (C : p_closed s = true) by (apply (i_wait _ _ _ I0); exact M).
  split; [|split].
  - intros os s' F Hr. pose proof (recv_bounded _ _ _ C F Hr). assert (gleft (p_recv s) <= 3) by (destruct (p_recv s); cbn; lia). lia.
  - intros Ng Room. destruct (p_recv s) as [| |p|] eqn:R; [exists PCheck|exists PLate|exists PPush|congruence]; (split; [reflexivity|]); unfold pingstep; rewrite Np, R; try discriminate.
    rewrite (proj2 (Nat.ltb_lt _ _) (Room p eq_refl)). discriminate.
  - intros Mw Rg. unfold pingstep. rewrite Np, Mw, Rg. eexists. split; [reflexivity|reflexivity].
Qed.
Lemma few : forall count id s p, reached count id s -> length (p_read s) <= 5 -> p_recv s = RSending p -> length (p_ch s) < 5.
Proof.
  intros count id s p H L R. destruct (i_read _ _ _ (reached_inv _ _ _ H)) as (dn & Hr & _). rewrite Hr, !app_length, R in L. cbn [pend length] in L. lia.
Qed.
