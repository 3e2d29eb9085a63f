(* HlocProofs.v: proofs about the http parts of a configuration. *)
From Verif Require Import Base Strconv GoStrings GoStrings2 UrlModel UrlSpec UrlProofs ConfModel ConfProofs HttpModel HttpSpec HttpProofs HprovModel HprovSpec HprovProofs HlocModel HlocSpec.
Ltac Zify.zify_post_hook ::= idtac.

Lemma asStrings_some : forall l ss, asStrings l = Some ss <-> l = map CStr ss.
Proof.
  induction l as [|v l IH]; intros ss; cbn [asStrings].
  - split; [intro H; injection H as <-; reflexivity|]. intro H. destruct ss; [reflexivity|discriminate H].
  - destruct v; try (split; [discriminate|destruct ss; discriminate]).
    destruct (asStrings l) as [r|] eqn:E; cbn [option_map]; split.
    + intro H. injection H as <-. cbn [map]. rewrite (proj1 (IH r) eq_refl). reflexivity.
    + intro H. destruct ss as [|x ss]; [discriminate H|]. cbn [map] in H. injection H as -> H. apply (IH ss) in H. injection H as ->. reflexivity.
    + discriminate.
    + intro H. destruct ss as [|x ss]; [discriminate H|]. cbn [map] in H. injection H as -> H. apply (IH ss) in H. discriminate H.
Qed.
Lemma asString_some o s : asString o = Some s <-> o = Some (CStr s).
Proof. unfold asString. destruct o as [[]|]; split; intro H; try discriminate H; injection H as <-; reflexivity. Qed.

Lemma readLocation_entry v l : readLocation v = Some l <-> entry_of v l.
Proof.
  unfold readLocation, entry_of, says, silent. split.
  - destruct v as [| | | | | | | |m| |]; try discriminate. intro H. exists m. split; [reflexivity|].
    destruct (asString (cget m (KStr (s2b "upstream")))) as [up|] eqn:U; [|discriminate H]. apply asString_some in U.
    destruct (asString (cget m (KStr (s2b "match")))) as [pa|] eqn:P; [|discriminate H]. apply asString_some in P.
    destruct (match cget m (KStr (s2b "type")) with None => Some [] | t => asString t end) as [ty|] eqn:T; [|discriminate H].
    assert (T' : cget m (KStr (s2b "type")) = Some (CStr ty) \/ cget m (KStr (s2b "type")) = None /\ ty = []).
    { destruct (cget m (KStr (s2b "type"))) as [t|]; [left; apply asString_some in T; exact T|right; injection T as <-; split; reflexivity]. }
    destruct (cget m (KStr (s2b "rewriteRules"))) as [[| | | | | | | | |rs|]|]; try discriminate H.
    + destruct (asStrings rs) as [ss|] eqn:R; [|discriminate H]. cbn [option_map] in H. injection H as <-. cbn [l_up l_match l_type l_rules].
      apply asStrings_some in R. subst rs. repeat split; auto.
    + injection H as <-. cbn [l_up l_match l_type l_rules]. repeat split; auto.
  - intros (m & -> & U & P & T & R). rewrite U, P. cbn [asString]. destruct l as [up pa ty rs]. cbn [l_up l_match l_type l_rules] in *.
    destruct T as [T|[T ->]]; rewrite T; cbn [asString]; (destruct R as [R|[R ->]]; rewrite R; [|reflexivity]);
      rewrite (proj2 (asStrings_some (map CStr rs) rs) eq_refl); reflexivity.
Qed.
Lemma readLocations_entries : forall vs ls, readLocations vs = Some ls <-> Forall2 entry_of vs ls.
Proof.
  induction vs as [|v vs IH]; intros ls; cbn [readLocations].
  - split; [intro H; injection H as <-; constructor|]. intro H. inversion H. reflexivity.
  - destruct (readLocation v) as [l|] eqn:E; [destruct (readLocations vs) as [r|] eqn:R|]; cbn [option_map]; split; try discriminate.
    + intro H. injection H as <-. constructor; [apply readLocation_entry; exact E|apply IH; reflexivity].
    + intro H. inversion H as [|? l' ? ls' A B]; subst. apply readLocation_entry in A. apply IH in B. congruence.
    + intro H. inversion H as [|? l' ? ls' A B]; subst. apply IH in B. discriminate B.
    + intro H. inversion H as [|? l' ? ls' A B]; subst. apply readLocation_entry in A. congruence.
Qed.
Lemma written_unique c d v1 v2 : written c d v1 -> written c d v2 -> v1 = v2.
Proof. intros (s1 & A1 & B1) (s2 & A2 & B2). unfold says in *. assert (s1 = s2) by congruence. subst s2. congruence. Qed.
Lemma written_dec c d : (exists vs, written c d vs /\ locationsFromContext c d = readLocations vs) \/ ((forall vs, ~ written c d vs) /\ locationsFromContext c d = Some []).
Proof.
  unfold locationsFromContext, written, says. destruct (getSection c (s2b "http-locations")) as [sec|].
  - destruct (cget sec (KStr d)) as [[| | | | | | | | |vs|]|] eqn:E.
    10: left; exists vs; split; [exists sec; auto|reflexivity].
    all: right; split; [|reflexivity]; intros vs (s9 & H & G); injection H as <-; congruence.
  - right. split; [|reflexivity]. intros vs (s & H & _). discriminate H.
Qed.
Lemma locations_read c d ls : locationsFromContext c d = Some ls <->
  (exists vs, written c d vs /\ Forall2 entry_of vs ls) \/ ((forall vs, ~ written c d vs) /\ ls = []).
Proof.
  destruct (written_dec c d) as [(vs & W & E)|(N & E)]; rewrite E.
  - rewrite readLocations_entries. split.
    + intro H. left. exists vs. auto.
    + intros [(vs' & W' & H)|(N & _)]; [|destruct (N vs W)]. rewrite (written_unique c d vs vs' W W'). exact H.
  - split; [intro H; injection H as <-; auto|]. intros [(vs & W & _)|(_ & ->)]; [destruct (N vs W)|reflexivity].
Qed.
Lemma same_written c c' d : (forall vs, written c d vs <-> written c' d vs) -> locationsFromContext c d = locationsFromContext c' d.
Proof.
  intro H. destruct (written_dec c d) as [(vs & W & E)|(N & E)]; destruct (written_dec c' d) as [(vs' & W' & E')|(N' & E')]; rewrite E, E'.
  - apply H in W. rewrite (written_unique c' d vs vs' W W'). reflexivity.
  - apply H in W. destruct (N' vs W).
  - apply H in W'. destruct (N vs' W').
  - reflexivity.
Qed.
Lemma malformed c d vs v : written c d vs -> In v vs -> (forall l, ~ entry_of v l) -> locationsFromContext c d = None.
Proof.
  intros W I N. destruct (locationsFromContext c d) as [ls|] eqn:E; [|reflexivity]. exfalso. apply locations_read in E. destruct E as [(vs' & W' & F)|(X & _)]; [|destruct (X vs W)].
  rewrite <- (written_unique c d vs vs' W W') in F. clear W W' vs'. induction F as [|x l vs ls A F IH]; [destruct I|]. destruct I as [->|I]; [destruct (N l A)|auto].
Qed.

Lemma bs_empty_false (s : bs) : bs_empty s = false <-> s <> [].
Proof. destruct s; split; intro H; try discriminate; try contradiction; reflexivity. Qed.

(* ------------------------------------------------------------ services *)

Lemma aset_fresh : forall (m : list (bs * bs)) k v, ~ In k (map fst m) -> aset bs_eqb m k v = m ++ [(k, v)].
Proof.
  induction m as [|[k0 v0] m IH]; intros k v H; cbn [aset app]; [reflexivity|].
  destruct (bs_eqb k k0) eqn:E; [apply bs_eqb_spec in E; subst k0; destruct H; left; reflexivity|]. rewrite IH; [reflexivity|]. intro I. apply H. right. exact I.
Qed.
Lemma readSettings_from : forall m acc sc, key_once m -> (forall k, In k (map fst acc) -> ~ In (KStr k) (map fst m)) ->
  (readSettings m acc = Some sc <-> exists t, sc = acc ++ t /\ settings_written m t).
Proof.
  unfold settings_written, key_once. induction m as [|[k v] m IH]; intros acc sc N D.
  - cbn [readSettings]. split; [intro H; injection H as <-; exists []; rewrite app_nil_r; auto|]. intros (t & -> & H). destruct t; [rewrite app_nil_r; reflexivity|discriminate H].
  - cbn [map] in N. apply NoDup_cons_iff in N. destruct N as [N1 N2]. destruct k as [k|n].
    2: { cbn [readSettings]. split; [discriminate|]. intros (t & _ & H). destruct t; discriminate H. }
    destruct v as [| |s| | | | | | | |]; cbn [readSettings]; try (split; [discriminate|]; intros (t & _ & H); destruct t; discriminate H).
    rewrite aset_fresh by (intro I; apply (D k I); left; reflexivity).
    rewrite IH; [|exact N2|].
    + split.
      * intros (t & -> & ->). exists ((k, s) :: t). rewrite <- app_assoc. auto.
      * intros (t & -> & H). destruct t as [|[k' s'] t]; [discriminate H|]. cbn [map fst snd] in H. injection H as <- <- ->. exists t. rewrite <- app_assoc. auto.
    + intros k' I. rewrite map_app, in_app_iff in I. cbn [map fst In] in I. destruct I as [I|[<-|[]]]; [|exact N1]. intro J. apply (D k' I). right. exact J.
Qed.
Lemma readSettings_written m sc : key_once m -> (readSettings m [] = Some sc <-> settings_written m sc).
Proof.
  intro N. rewrite readSettings_from by (try exact N; intros k []). cbn [app]. split; [intros (t & -> & H); exact H|]. intro H. exists sc. auto.
Qed.
Lemma readInfo_written : forall m i, (forall k s, In (k, CMap s) m -> key_once s) -> (readInfo m = Some i <-> Forall2 info_written m i).
Proof.
  induction m as [|[k v] m IH]; intros i N.
  - cbn [readInfo]. split; [intro H; injection H as <-; constructor|]. intro H. inversion H. reflexivity.
  - specialize (IH) with (i := tl i) as IH'. assert (N' : forall k s, In (k, CMap s) m -> key_once s) by (intros k' s I; apply (N k' s); right; exact I).
    specialize (IH' N'). assert (Ns : forall s, v = CMap s -> key_once s) by (intros s ->; apply (N k s); left; reflexivity). clear N IH N'.
    destruct k as [k|n].
    2: { cbn [readInfo]. split; [discriminate|]. intro H. inversion H as [|? e ? ? A B]; subst. destruct A as [A _]. discriminate A. }
    cbn [readInfo]. split.
    + intro H.
      destruct (trimSplit k (s2b ",")) as [|t0 ts] eqn:T.
      * destruct (readInfo m) as [r|] eqn:R; [|discriminate H]. cbn [option_map] in H. injection H as <-. constructor.
        -- split; [reflexivity|]. left. cbn [fst snd]. auto.
        -- apply IH'. reflexivity.
      * destruct v as [| | | | | | | |s| |]; try discriminate H. destruct (readSettings s []) as [sc|] eqn:S1; [|discriminate H].
        destruct (readInfo m) as [r|] eqn:R; [|discriminate H]. cbn [option_map] in H. injection H as <-. constructor.
        -- split; [reflexivity|]. right. cbn [fst snd]. split; [rewrite T; discriminate|]. exists s. split; [reflexivity|]. apply readSettings_written; auto.
        -- apply IH'. reflexivity.
    + intro H. inversion H as [|? e ? i' A B]; subst. cbn [tl] in IH'. destruct e as [k' sc]. destruct A as [K A]. cbn [fst snd] in K, A. injection K as <-.
      apply IH' in B. rewrite B. destruct A as [[T ->]|[T (s & -> & W)]].
      * rewrite T. reflexivity.
      * destruct (trimSplit k (s2b ",")) as [|t0 ts]; [contradiction|]. apply readSettings_written in W; [|apply Ns; reflexivity]. rewrite W. reflexivity.
Qed.
Lemma readServices_written : forall m s, once m -> (readServices m = Some s <-> Forall2 service_written m s).
Proof.
  intros m s [_ N]. assert (N' : forall k info, In (k, CMap info) m -> forall k' x, In (k', CMap x) info -> key_once x) by (intros k info I; apply (N k info I)). clear N.
  revert s. induction m as [|[k v] m IH]; intros s.
  - cbn [readServices]. split; [intro H; injection H as <-; constructor|]. intro H. inversion H. reflexivity.
  - specialize (IH (fun k info I => N' k info (or_intror I))).
    destruct k as [k|n].
    2: { cbn [readServices]. split; [discriminate|]. intro H. inversion H as [|? e ? ? A B]; subst. destruct A as [A _]. discriminate A. }
    cbn [readServices]. split.
    + intro H. destruct v as [| | | | | | | |info| |]; try discriminate H. destruct (readInfo info) as [i|] eqn:E; [|discriminate H].
      destruct (readServices m) as [r|] eqn:R; [|discriminate H]. cbn [option_map] in H. injection H as <-. constructor.
      * split; [reflexivity|]. exists info. split; [reflexivity|]. cbn [snd]. apply readInfo_written; [apply (N' (KStr k)); left; reflexivity|exact E].
      * apply IH. reflexivity.
    + intro H. inversion H as [|? e ? s' A B]; subst. destruct e as [k' i]. destruct A as [K (info & Q & A)]. cbn [fst snd] in K, Q, A. injection K as <-. subst v.
      apply IH in B. rewrite B. apply readInfo_written in A; [|apply (N' (KStr k)); left; reflexivity]. rewrite A. reflexivity.
Qed.
