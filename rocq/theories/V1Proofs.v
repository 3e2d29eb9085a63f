(* V1Proofs.v: proofs about the motan1 model. *)
From Verif Require Import Base BytesModel BytesSpec BytesProofs ProtoProofs V1Model V1Spec.
Ltac Zify.zify_post_hook ::= idtac.

(* ------------------------------------------------------------------ block writing *)

Lemma cut_fuel f1 : forall f2 c, length c <= f1 -> length c <= f2 -> cut f1 c = cut f2 c.
Proof.
  induction f1 as [|f1 IH]; intros f2 c H1 H2.
  - destruct c; [|cbn in H1; lia]. destruct f2; reflexivity.
  - destruct c as [|x c]; [destruct f2; reflexivity|].
    destruct f2 as [|f2]; [cbn in H2; lia|].
    cbn [cut]. f_equal. apply IH; rewrite skipn_length; cbn [length] in *; lia.
Qed.

Lemma spec_blocks_nil : spec_blocks [] = [].
Proof. reflexivity. Qed.

Lemma spec_blocks_step c : c <> [] ->
  spec_blocks c = one_block (firstn 1024 c) ++ spec_blocks (skipn 1024 c).
Proof.
  intro H. unfold spec_blocks. destruct c as [|x c]; [contradiction|].
  cbn [length cut map concat]. f_equal. f_equal. f_equal.
  apply cut_fuel; rewrite ?skipn_length; cbn [length]; lia.
Qed.

Lemma one_block_header c : one_block c = blockHeader (length c) ++ c.
Proof.
  unfold one_block, blockHeader. destruct (N.of_nat (length c) <=? 255)%N; [reflexivity|].
  rewrite putUint_spec. reflexivity.
Qed.

(* what is still to come, given the state of the writer and the bytes not yet written *)
Definition cont (st : wstate) (rem : bs) : bs :=
  if wLast st then rem
  else if wFirst st then spec_blocks rem
  else firstn (1024 - wBlockPos st) rem ++ spec_blocks (skipn (1024 - wBlockPos st) rem).

Definition winv (st : wstate) (rem : bs) : Prop :=
  wTRemain st = length rem /\
  (wFirst st = true -> wLast st = false /\ wBlockPos st = 0) /\
  (wFirst st = false -> wLast st = false -> wBlockPos st <= 1024 /\ 1024 < wBlockPos st + length rem) /\
  (wLast st = true -> wBlockPos st + length rem <= 1024).

Lemma firstn_app_le {A} n (a r : list A) : length a <= n -> firstn n (a ++ r) = a ++ firstn (n - length a) r.
Proof. intro H. rewrite firstn_app, firstn_all2 by exact H. reflexivity. Qed.
Lemma skipn_app_le {A} n (a r : list A) : length a <= n -> skipn n (a ++ r) = skipn (n - length a) r.
Proof. intro H. rewrite skipn_app, skipn_all2 by exact H. reflexivity. Qed.

Lemma writeChunk_ok fuel : forall b rest st, length b <= fuel -> winv st (b ++ rest) ->
  exists st', writeChunk fuel st b = Some st' /\ winv st' rest /\
              wOut st' ++ cont st' rest = wOut st ++ cont st (b ++ rest).
Proof.
  induction fuel as [|f IH]; intros b rest st Hf Hi.
  - destruct b; [|cbn in Hf; lia]. exists st. split; [reflexivity|]. split; [exact Hi|reflexivity].
  - destruct b as [|x b]; [exists st; split; [reflexivity|]; split; [exact Hi|reflexivity]|].
    remember (x :: b) as c eqn:Ec.
    assert (Hc : 0 < length c) by (subst; cbn; lia).
    (* after the possible header *)
    set (st1 := if wFirst st || (MAX_BLOCK_SIZE <=? wBlockPos st) then
              mkW (wOut st ++ blockHeader (Nat.min (wTRemain st) MAX_BLOCK_SIZE)) (wTRemain st) false
                  (if wTRemain st <=? MAX_BLOCK_SIZE then true else wLast st) 0
            else st).
    assert (H1 : winv st1 (c ++ rest) /\ wFirst st1 = false /\ wBlockPos st1 < 1024 /\
                 wOut st1 ++ cont st1 (c ++ rest) = wOut st ++ cont st (c ++ rest)).
    { destruct Hi as (Ht & Hfi & Hm & Hl). rewrite app_length in *.
      destruct (wFirst st || (MAX_BLOCK_SIZE <=? wBlockPos st)) eqn:Eh; subst st1; cbv beta iota.
      - assert (Hlast : wLast st = false).
        { destruct (wFirst st) eqn:Ef; [apply Hfi; reflexivity|]. cbn [orb] in Eh.
          apply Nat.leb_le in Eh. unfold MAX_BLOCK_SIZE in Eh.
          destruct (wLast st) eqn:El; [|reflexivity]. specialize (Hl eq_refl). lia. }
        assert (Hcont : cont st (c ++ rest) = spec_blocks (c ++ rest)).
        { unfold cont. rewrite Hlast. destruct (wFirst st) eqn:Ef; [reflexivity|]. cbn [orb] in Eh.
          apply Nat.leb_le in Eh. unfold MAX_BLOCK_SIZE in Eh. destruct (Hm eq_refl Hlast) as [Hb _].
          replace (1024 - wBlockPos st) with 0 by lia. reflexivity. }
        rewrite Hcont. rewrite spec_blocks_step by (intro E; apply app_eq_nil in E as [E _]; subst c; discriminate).
        unfold MAX_BLOCK_SIZE.
        destruct (wTRemain st <=? 1024) eqn:El; cbn [wOut wTRemain wFirst wLast wBlockPos]; unfold cont;
          cbn [wOut wTRemain wFirst wLast wBlockPos].
        + apply Nat.leb_le in El. repeat split; cbn [wFirst wLast wBlockPos wTRemain]; rewrite ?app_length; try lia; try discriminate.
          rewrite one_block_header, firstn_all2, skipn_all2 by (rewrite app_length; lia).
          rewrite spec_blocks_nil, app_nil_r, app_length, Ht, Nat.min_l by lia. rewrite <- app_assoc. reflexivity.
        + apply Nat.leb_gt in El. rewrite Hlast.
          repeat split; cbn [wFirst wLast wBlockPos wTRemain]; rewrite ?app_length; try lia; try discriminate.
          rewrite one_block_header, firstn_length, app_length, Ht, Nat.sub_0_r.
          rewrite (Nat.min_comm 1024). rewrite <- !app_assoc. reflexivity.
      - apply orb_false_iff in Eh as [Ef Eb]. apply Nat.leb_gt in Eb. unfold MAX_BLOCK_SIZE in Eb.
        repeat split; rewrite ?app_length; try assumption; try lia; rewrite ?app_length in *; auto;
          try (intros; congruence); intros; try (apply Hm; assumption); try (apply Hl; assumption). }
    destruct H1 as (Hi1 & Hf1 & Hb1 & Ho1).
    destruct Hi1 as (Ht & _ & Hm & Hl). rewrite app_length in *.
    set (ws := Nat.min (length c) (MAX_BLOCK_SIZE - wBlockPos st1)).
    assert (Hws : 0 < ws /\ ws <= length c /\ wBlockPos st1 + ws <= 1024).
    { unfold ws, MAX_BLOCK_SIZE. lia. }
    assert (Hstep : writeChunk (S f) st c =
                    writeChunk f (mkW (wOut st1 ++ firstn ws c) (wTRemain st1 - ws) (wFirst st1) (wLast st1) (wBlockPos st1 + ws))
                       (skipn ws c)).
    { rewrite Ec at 1. cbn [writeChunk]. rewrite <- Ec.
      change (if wFirst st || (MAX_BLOCK_SIZE <=? wBlockPos st) then
              mkW (wOut st ++ blockHeader (Nat.min (wTRemain st) MAX_BLOCK_SIZE)) (wTRemain st) false
                  (if wTRemain st <=? MAX_BLOCK_SIZE then true else wLast st) 0
            else st) with st1.
      cbv zeta. change (Nat.min (length c) (MAX_BLOCK_SIZE - wBlockPos st1)) with ws.
      rewrite (proj2 (Nat.ltb_lt 0 ws)) by lia. reflexivity. }
    rewrite Hstep.
    destruct (IH (skipn ws c) rest (mkW (wOut st1 ++ firstn ws c) (wTRemain st1 - ws) (wFirst st1) (wLast st1) (wBlockPos st1 + ws)))
      as (st' & Hr & Hi' & Ho').
    { rewrite skipn_length. lia. }
    { unfold winv. cbn [wFirst wLast wBlockPos wTRemain]. rewrite app_length, skipn_length.
      split; [lia|]. split; [intro; congruence|]. split.
      - intros _ HL. specialize (Hm Hf1 HL). lia.
      - intro HL. specialize (Hl HL). lia. }
    exists st'. split; [exact Hr|]. split; [exact Hi'|]. rewrite Ho', <- Ho1.
    cbn [wOut]. rewrite <- app_assoc. f_equal.
    unfold cont. cbn [wFirst wLast wBlockPos]. rewrite Hf1.
    assert (Hlen : length (firstn ws c) = ws) by (rewrite firstn_length; lia).
    assert (Hsp : c ++ rest = firstn ws c ++ skipn ws c ++ rest) by (rewrite app_assoc, firstn_skipn; reflexivity).
    rewrite Hsp. generalize (skipn ws c ++ rest) as q. intro q.
    destruct (wLast st1) eqn:El; [reflexivity|].
    rewrite firstn_app_le, skipn_app_le by lia. rewrite Hlen, <- app_assoc.
    replace (1024 - wBlockPos st1 - ws) with (1024 - (wBlockPos st1 + ws)) by lia. reflexivity.
Qed.

Lemma writeChunks_ok l : forall st, winv st (concat l) ->
  exists st', writeChunks st l = Some st' /\ wOut st' = wOut st ++ cont st (concat l).
Proof.
  induction l as [|b l IH]; intros st Hi; cbn [writeChunks concat].
  - exists st. split; [reflexivity|]. unfold cont. cbn [concat] in *. destruct (wLast st), (wFirst st); rewrite ?firstn_nil, ?skipn_nil, ?app_nil_r; reflexivity.
  - cbn [concat] in Hi. destruct (wLast st) eqn:El.
    + destruct (IH (mkW (wOut st ++ b) (wTRemain st - length b) (wFirst st) true (wBlockPos st))) as (st' & Hr & Ho).
      * destruct Hi as (Ht & Hf & Hm & Hl). rewrite app_length in *.
        unfold winv. cbn [wFirst wLast wBlockPos wTRemain].
        split; [lia|]. split; [intro HF; destruct (Hf HF); congruence|]. split; [intros; discriminate|].
        intros _. specialize (Hl El). lia.
      * exists st'. split; [exact Hr|]. rewrite Ho. unfold cont. cbn [wOut wLast]. rewrite El. rewrite <- app_assoc. reflexivity.
    + destruct (writeChunk_ok (length b) b (concat l) st (le_n _) Hi) as (st1 & Hr1 & Hi1 & Ho1).
      rewrite Hr1. destruct (IH st1 Hi1) as (st' & Hr & Ho). exists st'. split; [exact Hr|]. rewrite Ho, Ho1. reflexivity.
Qed.

Lemma writeBlock_ok l : writeBlock l = Some (spec_blocks (concat l)).
Proof.
  unfold writeBlock.
  destruct (writeChunks_ok l (mkW [] (length (concat l)) true false 0)) as (st & Hr & Ho).
  - unfold winv. cbn [wFirst wLast wBlockPos wTRemain]. split; [reflexivity|]. split; [auto|]. split; intros; discriminate.
  - rewrite Hr, Ho. reflexivity.
Qed.

(* ------------------------------------------------------------------ block reading *)

Lemma be_spec k n rest : (n < 256 ^ N.of_nat k)%N -> be k (spec_uint BigE k n ++ rest) = n.
Proof.
  intro H. unfold be. rewrite <- (spec_uint_len BigE k n) at 1. rewrite firstn_app_exact.
  apply getUint_spec_uint, H.
Qed.
Lemma skipn_spec k n rest : skipn k (spec_uint BigE k n ++ rest) = rest.
Proof. rewrite <- (spec_uint_len BigE k n) at 1. apply skipn_app_exact. Qed.

Lemma one_block_read c rest : length c <= 1024 ->
  exists t r1, one_block c ++ rest = t :: r1 /\ r1 <> [] /\ isBlockTag t = true /\
               blockLen t r1 = VOk (N.of_nat (length c), c ++ rest).
Proof.
  intro H. unfold one_block.
  destruct (N.of_nat (length c) <=? 255)%N eqn:E.
  - exists x77, (n2b (N.of_nat (length c)) :: c ++ rest). repeat split; try discriminate.
    unfold blockLen. replace (byte_eqb x77 TC_BLOCKDATA) with true by reflexivity.
    rewrite b2n_n2b_small by lia. reflexivity.
  - exists x7a, (spec_uint BigE 4 (N.of_nat (length c)) ++ c ++ rest). repeat split.
    + discriminate.
    + unfold blockLen. replace (byte_eqb x7a TC_BLOCKDATA) with false by reflexivity.
      rewrite app_length, spec_uint_len. replace (4 + _ <? 4) with false by (symmetry; apply Nat.ltb_ge; lia).
      rewrite be_spec, skipn_spec; [reflexivity|]. change (256 ^ N.of_nat 4)%N with 4294967296%N. lia.
Qed.

Lemma takeN_app c rest : takeN (N.of_nat (length c)) (c ++ rest) = VOk (c, rest).
Proof.
  unfold takeN. rewrite app_length. replace (N.of_nat (length c + length rest) <? N.of_nat (length c))%N with false by lia.
  rewrite Nat2N.id, firstn_app_exact, skipn_app_exact. reflexivity.
Qed.


Lemma spec_blocks_length c : length c <= length (spec_blocks c).
Proof.
  enough (forall n c, length c <= n -> length c <= length (spec_blocks c)) by eauto.
  clear c. induction n as [|n IH]; intros c Hn.
  - destruct c; cbn in *; lia.
  - destruct c as [|x c']; [cbn; lia|]. set (c := x :: c') in *.
    rewrite spec_blocks_step by discriminate. rewrite app_length, one_block_header, app_length, firstn_length.
    assert (Hl : 0 < length c) by (cbn; lia).
    specialize (IH (skipn 1024 c)). rewrite skipn_length in IH. lia.
Qed.

Lemma mod1024_step n : 1024 <= n -> (n - 1024) mod 1024 = n mod 1024.
Proof.
  intro H. replace n with (n - 1024 + 1 * 1024) at 2 by lia. symmetry. apply Nat.mod_add. discriminate.
Qed.

Lemma append_blocks fuel : forall c acc rest, length c < fuel ->
  (length c mod 1024 <> 0 \/ rest = []) ->
  appendBlockBytes fuel acc (spec_blocks c ++ rest) = VOk (acc ++ c, rest).
Proof.
  induction fuel as [|f IH]; intros c acc rest Hf Hm; [lia|].
  destruct c as [|x c'] eqn:Ec.
  - destruct Hm as [Hm|Hm]; [cbn in Hm; contradiction|]. subst rest. cbn. rewrite app_nil_r. reflexivity.
  - rewrite <- Ec in *. assert (Hne : c <> []) by (subst; discriminate).
    rewrite spec_blocks_step by exact Hne. rewrite <- app_assoc.
    destruct (one_block_read (firstn 1024 c) (spec_blocks (skipn 1024 c) ++ rest)) as (t & r1 & E & Hr1 & Ht & Hb).
    { rewrite firstn_length. lia. }
    rewrite E. cbn [appendBlockBytes]. rewrite Ht, Hb. cbn [vbind]. rewrite takeN_app. cbn [vbind].
    rewrite firstn_length.
    destruct (le_lt_dec 1024 (length c)) as [Hl|Hl].
    + rewrite Nat.min_l by exact Hl. change (N.of_nat 1024 =? MAX_BLOCK_N)%N with true. cbv iota.
      rewrite IH.
      * rewrite <- app_assoc, firstn_skipn. reflexivity.
      * rewrite skipn_length. lia.
      * rewrite skipn_length, mod1024_step by exact Hl. exact Hm.
    + rewrite Nat.min_r by lia. replace (N.of_nat (length c) =? MAX_BLOCK_N)%N with false by (unfold MAX_BLOCK_N; lia).
      rewrite firstn_all2, skipn_all2 by lia. reflexivity.
Qed.

Lemma isBlockTag_spec t : isBlockTag t = true <-> t = x77 \/ t = x7a.
Proof. unfold isBlockTag. rewrite orb_true_iff, !byte_eqb_spec. reflexivity. Qed.

Lemma getBlock_ok c rest : c <> [] ->
  (length c mod 1024 <> 0 \/ rest = [] \/ (length c = 1024 /\ ~ starts_block rest)) ->
  getBlock (spec_blocks c ++ rest) = VOk (c, rest).
Proof.
  intros Hne Hm. rewrite spec_blocks_step by exact Hne. rewrite <- app_assoc.
  destruct (one_block_read (firstn 1024 c) (spec_blocks (skipn 1024 c) ++ rest)) as (t & r1 & E & Hr1 & Ht & Hb).
  { rewrite firstn_length. lia. }
  rewrite E. destruct r1 as [|y r1]; [contradiction|]. unfold getBlock. rewrite Ht, Hb. cbn [vbind].
  rewrite takeN_app. cbn [vbind]. rewrite firstn_length.
  destruct (le_lt_dec 1024 (length c)) as [Hl|Hl].
  - rewrite Nat.min_l by exact Hl. change (N.of_nat 1024 =? MAX_BLOCK_N)%N with true. cbv iota.
    destruct (Nat.eq_dec (length c) 1024) as [He|He].
    + rewrite firstn_all2, skipn_all2 by lia. rewrite spec_blocks_nil. cbn [app].
      destruct rest as [|nt rest]; [reflexivity|].
      destruct (isBlockTag nt) eqn:En; [|reflexivity]. exfalso.
      destruct Hm as [Hm|[Hm|[_ Hm]]].
      * rewrite He in Hm. cbn in Hm. contradiction.
      * discriminate.
      * apply Hm. exists nt, rest. split; [reflexivity|]. apply isBlockTag_spec, En.
    + assert (Hm' : length c mod 1024 <> 0 \/ rest = []) by (destruct Hm as [Hm|[Hm|[Hm _]]]; auto; contradiction).
      assert (Hs : skipn 1024 c <> []).
      { intro Es. apply (f_equal (@length byte)) in Es. rewrite skipn_length in Es. cbn in Es. lia. }
      rewrite spec_blocks_step by exact Hs. rewrite <- app_assoc.
      destruct (one_block_read (firstn 1024 (skipn 1024 c)) (spec_blocks (skipn 1024 (skipn 1024 c)) ++ rest)) as (t' & r' & E' & _ & Ht' & _).
      { rewrite firstn_length. lia. }
      rewrite E'. rewrite Ht'. rewrite <- E'. rewrite app_assoc, <- spec_blocks_step by exact Hs.
      rewrite append_blocks.
      * rewrite firstn_skipn. reflexivity.
      * rewrite app_length. pose proof (spec_blocks_length (skipn 1024 c)). lia.
      * rewrite skipn_length, mod1024_step by exact Hl. exact Hm'.
  - rewrite Nat.min_r by lia. replace (N.of_nat (length c) =? MAX_BLOCK_N)%N with false by (unfold MAX_BLOCK_N; lia).
    rewrite firstn_all2, skipn_all2 by lia. reflexivity.
Qed.

(* the reader always consumes something of what follows full blocks *)
Lemma append_consumes fuel : forall acc r c r', r <> [] -> appendBlockBytes fuel acc r = VOk (c, r') -> length r' < length r.
Proof.
  induction fuel as [|f IH]; intros acc r c r' Hr H; [discriminate|]. cbn [appendBlockBytes] in H.
  destruct r as [|t r1]; [contradiction|]. destruct (isBlockTag t).
  - destruct (blockLen t r1) as [[l r2]|e| |] eqn:Eb; try discriminate. cbn [vbind] in H.
    assert (H2 : length r2 <= length r1).
    { unfold blockLen in Eb. destruct (byte_eqb t TC_BLOCKDATA).
      - destruct r1 as [|b r1']; [discriminate|]. injection Eb as <- <-. cbn. lia.
      - destruct (length r1 <? 4); [discriminate|]. assert (E2 : r2 = skipn 4 r1) by congruence. rewrite E2, skipn_length. lia. }
    destruct (takeN l r2) as [[c1 r3]|e| |] eqn:Ek; try discriminate. cbn [vbind] in H.
    assert (H3 : length r3 <= length r2).
    { unfold takeN in Ek. destruct (N.of_nat (length r2) <? l)%N; [discriminate|]. assert (E3 : r3 = skipn (N.to_nat l) r2) by congruence. rewrite E3, skipn_length. lia. }
    cbn [length]. destruct (l =? MAX_BLOCK_N)%N; [|injection H as <- <-; lia].
    destruct r3 as [|y r3'].
    + destruct f; [discriminate|]. cbn in H. injection H as <- <-. cbn. lia.
    + apply IH in H; [|discriminate]. lia.
  - injection H as <- <-. cbn. lia.
Qed.
Lemma append_full fuel : forall c acc rest, length c < fuel -> length c mod 1024 = 0 ->
  exists f, appendBlockBytes fuel acc (spec_blocks c ++ rest) = appendBlockBytes f (acc ++ c) rest.
Proof.
  induction fuel as [|f IH]; intros c acc rest Hf Hm; [lia|].
  destruct c as [|x c'] eqn:Ec.
  - exists (S f). cbn [spec_blocks length cut map concat app]. rewrite app_nil_r. reflexivity.
  - rewrite <- Ec in *. assert (Hne : c <> []) by (subst; discriminate).
    rewrite spec_blocks_step by exact Hne. rewrite <- app_assoc.
    destruct (one_block_read (firstn 1024 c) (spec_blocks (skipn 1024 c) ++ rest)) as (t & r1 & E & Hr1 & Ht & Hb).
    { rewrite firstn_length. lia. }
    rewrite E. cbn [appendBlockBytes]. rewrite Ht, Hb. cbn [vbind]. rewrite takeN_app. cbn [vbind].
    rewrite firstn_length.
    destruct (le_lt_dec 1024 (length c)) as [Hl|Hl].
    + rewrite Nat.min_l by exact Hl. change (N.of_nat 1024 =? MAX_BLOCK_N)%N with true. cbv iota.
      destruct (IH (skipn 1024 c) (acc ++ firstn 1024 c) rest) as [f' E'].
      * rewrite skipn_length. lia.
      * rewrite skipn_length, mod1024_step by exact Hl. exact Hm.
      * exists f'. rewrite E', <- app_assoc, firstn_skipn. reflexivity.
    + rewrite Nat.mod_small in Hm by exact Hl. destruct c; [contradiction|discriminate].
Qed.
Lemma getBlock_only c rest : c <> [] -> getBlock (spec_blocks c ++ rest) = VOk (c, rest) ->
  length c mod 1024 <> 0 \/ rest = [] \/ (length c = 1024 /\ ~ starts_block rest).
Proof.
  intros Hne H. destruct (Nat.eq_dec (length c mod 1024) 0) as [Hm|Hm]; [|left; exact Hm]. right.
  destruct rest as [|y0 rest0] eqn:Er; [left; reflexivity|]. rewrite <- Er in *. right.
  assert (Hrn : rest <> []) by (subst; discriminate).
  rewrite spec_blocks_step in H by exact Hne. rewrite <- app_assoc in H.
  destruct (one_block_read (firstn 1024 c) (spec_blocks (skipn 1024 c) ++ rest)) as (t & r1 & E & Hr1 & Ht & Hb).
  { rewrite firstn_length. lia. }
  rewrite E in H. destruct r1 as [|y r1]; [contradiction|]. unfold getBlock in H. rewrite Ht, Hb in H. cbn [vbind] in H.
  rewrite takeN_app in H. cbn [vbind] in H. rewrite firstn_length in H.
  destruct (le_lt_dec 1024 (length c)) as [Hl|Hl].
  2:{ rewrite Nat.mod_small in Hm by exact Hl. destruct c; [contradiction|discriminate]. }
  rewrite Nat.min_l in H by exact Hl. change (N.of_nat 1024 =? MAX_BLOCK_N)%N with true in H. cbv iota in H.
  destruct (Nat.eq_dec (length c) 1024) as [He|He].
  - split; [exact He|]. intros (t' & r' & Et & Hb').
    apply isBlockTag_spec in Hb'. rewrite skipn_all2 in H by lia. rewrite spec_blocks_nil in H. cbn [app] in H.
    rewrite Et in H. rewrite Hb' in H. apply append_consumes in H; [|discriminate]. lia.
  - exfalso. assert (Hs : skipn 1024 c <> []).
    { intro Es. apply (f_equal (@length byte)) in Es. rewrite skipn_length in Es. cbn in Es. lia. }
    rewrite spec_blocks_step in H by exact Hs. rewrite <- app_assoc in H.
    destruct (one_block_read (firstn 1024 (skipn 1024 c)) (spec_blocks (skipn 1024 (skipn 1024 c)) ++ rest)) as (t' & r' & E' & _ & Ht' & _).
    { rewrite firstn_length. lia. }
    rewrite E' in H. rewrite Ht' in H. rewrite <- E' in H. rewrite app_assoc, <- spec_blocks_step in H by exact Hs.
    destruct (append_full (S (length (spec_blocks (skipn 1024 c) ++ rest))) (skipn 1024 c) (firstn 1024 c) rest) as [f Ef].
    + rewrite app_length. pose proof (spec_blocks_length (skipn 1024 c)). lia.
    + rewrite skipn_length, mod1024_step by exact Hl. exact Hm.
    + rewrite Ef in H. apply append_consumes in H; [lia|exact Hrn].
Qed.

(* ------------------------------------------------------------------ strings and attachments *)

Lemma toSigned16_small n : (n < 2 ^ 15)%N -> toSigned 16 n = Z.of_N n.
Proof. intro H. unfold toSigned. change (2 ^ (16 - 1))%N with (2 ^ 15)%N. replace (n <? 2 ^ 15)%N with true by lia. reflexivity. Qed.

Lemma pow15 : (2 ^ 15 = 32768)%N. Proof. reflexivity. Qed.
Lemma pow16 : (2 ^ 16 = 65536)%N. Proof. reflexivity. Qed.
Lemma pow32 : (2 ^ 32 = 4294967296)%N. Proof. reflexivity. Qed.
Lemma p256_2 : (256 ^ N.of_nat 2 = 65536)%N. Proof. reflexivity. Qed.
Lemma p256_4 : (256 ^ N.of_nat 4 = 4294967296)%N. Proof. reflexivity. Qed.
Lemma p256_8 : (256 ^ N.of_nat 8 = 2 ^ 64)%N. Proof. reflexivity. Qed.
Global Opaque N.pow.

Lemma writeUtf_utf s : utf_ok s -> writeUtf s = utf s.
Proof.
  unfold utf_ok, writeUtf, utf. intro H. rewrite putUint_spec, N.mod_small by (rewrite pow16, pow15 in *; lia). reflexivity.
Qed.

Lemma utf_length s : length (utf s) = 2 + length s.
Proof. unfold utf. rewrite app_length, spec_uint_len. reflexivity. Qed.

Lemma readUtf_utf s rest : utf_ok s -> readUtf (utf s ++ rest) = VOk (s, rest).
Proof.
  unfold utf_ok. intro H. unfold readUtf.
  rewrite app_length, utf_length. replace (2 + length s + length rest <? 2) with false by (symmetry; apply Nat.ltb_ge; lia).
  unfold utf. rewrite <- app_assoc, be_spec, skipn_spec by (rewrite p256_2; rewrite pow15 in H; lia).
  rewrite toSigned16_small by exact H. cbv zeta.
  destruct s as [|x s'] eqn:Es.
  - reflexivity.
  - rewrite <- Es in *. assert (Hs : 0 < length s) by (subst; cbn; lia).
    replace (0 <? Z.of_N (N.of_nat (length s)))%Z with true by lia.
    rewrite app_length. replace (Z.of_nat (length s + length rest) <? Z.of_N (N.of_nat (length s)))%Z with false by lia.
    rewrite nat_N_Z, Nat2Z.id, firstn_app_exact, skipn_app_exact. reflexivity.
Qed.

Definition kv_bytes (kv : bs * bs) : bs := utf (fst kv) ++ utf (snd kv).

Lemma encodeAttachment_ok ver att : attach_ok ver att -> encodeAttachment att ver = attach_bytes ver att.
Proof.
  intros (_ & Hk & Hn). unfold encodeAttachment, attach_bytes, versionV1Compress. f_equal.
  - destruct (byte_eqb ver x02); rewrite putUint_spec, N.mod_small; try reflexivity; rewrite ?pow15, ?pow16, ?pow32 in *; lia.
  - f_equal. apply map_ext_in. intros [k v] Hin. destruct (Hk k v Hin). cbn [fst snd]. rewrite !writeUtf_utf by assumption. reflexivity.
Qed.

Lemma readKVs_ok att : forall fuel acc rest,
  (forall k v, In (k, v) att -> utf_ok k /\ utf_ok v) -> length att <= fuel ->
  NoDup (map fst (acc ++ att)) ->
  readKVs fuel (Z.of_nat (length att)) (concat (map kv_bytes att) ++ rest) acc = VOk (acc ++ att).
Proof.
  induction att as [|[k v] att IH]; intros fuel acc rest Hk Hf Hn; cbn [length].
  - destruct fuel; cbn; rewrite app_nil_r; reflexivity.
  - destruct fuel as [|f]; [cbn in Hf; lia|]. cbn [readKVs].
    replace (Z.of_nat (S (length att)) <=? 0)%Z with false by lia.
    cbn [map concat]. unfold kv_bytes at 1. cbn [fst snd]. rewrite <- !app_assoc.
    destruct (Hk k v (or_introl eq_refl)) as [Hku Hvu].
    rewrite readUtf_utf by exact Hku. cbn [vbind]. rewrite readUtf_utf by exact Hvu. cbn [vbind].
    rewrite aset_fresh.
    + replace (Z.of_nat (S (length att)) - 1)%Z with (Z.of_nat (length att)) by lia.
      rewrite IH.
      * rewrite <- app_assoc. reflexivity.
      * intros k' v' Hin. apply Hk. right. exact Hin.
      * cbn in Hf. lia.
      * rewrite <- app_assoc. exact Hn.
    + rewrite map_app in Hn. cbn [map fst] in Hn. apply NoDup_remove_2 in Hn. intro Hin. apply Hn. apply in_or_app. left. exact Hin.
Qed.

Lemma kv_length_ge att : 4 * length att <= length (concat (map kv_bytes att)).
Proof.
  induction att as [|kv att IH]; cbn [map concat length]; [lia|].
  unfold kv_bytes at 1. rewrite !app_length, !utf_length. lia.
Qed.

Lemma attach_bytes_length ver att : length (attach_bytes ver att) >= 2.
Proof. unfold attach_bytes. rewrite app_length, spec_uint_len. destruct (byte_eqb ver x02); lia. Qed.

Lemma readAttachments_ok ver att : attach_ok ver att -> readAttachments ver (attach_bytes ver att) = VOk att.
Proof.
  intros (Hn & Hk & Hc). unfold readAttachments, attach_bytes, versionV1Compress.
  change (fun kv : bs * bs => utf (fst kv) ++ utf (snd kv)) with kv_bytes in *.
  rewrite app_length, spec_uint_len.
  assert (HK := readKVs_ok att (S (length (spec_uint BigE (if byte_eqb ver x02 then 2 else 4) (N.of_nat (length att)) ++ concat (map kv_bytes att)))) [] [] Hk).
  cbn [app] in HK. rewrite app_nil_r in HK.
  pose proof (kv_length_ge att) as Hge.
  destruct (byte_eqb ver x02); cbv iota zeta;
    match goal with |- (if ?x then _ else _) = _ => replace x with false by (symmetry; apply Nat.ltb_ge; lia) end;
    rewrite be_spec, skipn_spec by (rewrite ?p256_2, ?p256_4, ?pow15, ?pow32 in *; lia);
    rewrite ?toSigned16_small by exact Hc;
    rewrite app_length, spec_uint_len in HK; rewrite ?app_length, ?spec_uint_len; rewrite nat_N_Z; apply HK; try exact Hn; lia.
Qed.

(* ------------------------------------------------------------------ arguments *)

Lemma skipByteArray_new d c rest : length d = 17 -> (N.of_nat (length c) < 2 ^ 32)%N ->
  skipByteArray false (arg_bytes (ArgNew d c) ++ rest) = VOk (c, rest).
Proof.
  intros Hd Hc. unfold skipByteArray, arg_bytes.
  set (r := (x75 :: x72 :: d ++ spec_uint BigE 4 (N.of_nat (length c)) ++ c) ++ rest).
  assert (Hr : r = (x75 :: x72 :: d) ++ spec_uint BigE 4 (N.of_nat (length c)) ++ c ++ rest).
  { unfold r. change (x75 :: x72 :: d) with ([x75; x72] ++ d). change (x75 :: x72 :: d ++ spec_uint BigE 4 (N.of_nat (length c)) ++ c) with ([x75; x72] ++ d ++ spec_uint BigE 4 (N.of_nat (length c)) ++ c). rewrite <- !app_assoc. reflexivity. }
  assert (Hlen : length r = 23 + length c + length rest).
  { rewrite Hr, !app_length, spec_uint_len. cbn [length]. rewrite Hd. lia. }
  rewrite Hlen.
  replace (23 + length c + length rest <? 10) with false by (symmetry; apply Nat.ltb_ge; lia).
  replace (nth 1 r x00) with x72 by (rewrite Hr; reflexivity).
  change (byte_eqb x72 TC_CLASSDESC) with true. cbv iota.
  replace (23 + length c + length rest <? 23) with false by (symmetry; apply Nat.ltb_ge; lia). cbn [vbind].
  assert (Hsk : skipn 19 r = spec_uint BigE 4 (N.of_nat (length c)) ++ c ++ rest).
  { rewrite Hr. replace 19 with (length (x75 :: x72 :: d)) by (cbn [length]; rewrite Hd; reflexivity). apply skipn_app_exact. }
  rewrite Hsk, app_length, spec_uint_len.
  replace (4 + length (c ++ rest) <? 4) with false by (symmetry; apply Nat.ltb_ge; lia).
  rewrite be_spec, skipn_spec by (rewrite p256_4; rewrite pow32 in Hc; lia). cbn [andb].
  rewrite app_length. replace (N.of_nat (length c + length rest) <? N.of_nat (length c))%N with false by lia.
  rewrite Nat2N.id, firstn_app_exact, skipn_app_exact. reflexivity.
Qed.

Lemma skipByteArray_ref h c rest : length h = 4 -> (N.of_nat (length c) < 2 ^ 32)%N ->
  skipByteArray false (arg_bytes (ArgRef h c) ++ rest) = VOk (c, rest).
Proof.
  intros Hd Hc. unfold skipByteArray, arg_bytes.
  set (r := (x75 :: x71 :: h ++ spec_uint BigE 4 (N.of_nat (length c)) ++ c) ++ rest).
  assert (Hr : r = (x75 :: x71 :: h) ++ spec_uint BigE 4 (N.of_nat (length c)) ++ c ++ rest).
  { unfold r. change (x75 :: x71 :: h) with ([x75; x71] ++ h). change (x75 :: x71 :: h ++ spec_uint BigE 4 (N.of_nat (length c)) ++ c) with ([x75; x71] ++ h ++ spec_uint BigE 4 (N.of_nat (length c)) ++ c). rewrite <- !app_assoc. reflexivity. }
  assert (Hlen : length r = 10 + length c + length rest).
  { rewrite Hr, !app_length, spec_uint_len. cbn [length]. rewrite Hd. lia. }
  rewrite Hlen.
  replace (10 + length c + length rest <? 10) with false by (symmetry; apply Nat.ltb_ge; lia).
  replace (nth 1 r x00) with x71 by (rewrite Hr; reflexivity).
  change (byte_eqb x71 TC_CLASSDESC) with false. change (byte_eqb x71 TC_REFERENCE) with true. cbv iota. cbn [vbind].
  assert (Hsk : skipn 6 r = spec_uint BigE 4 (N.of_nat (length c)) ++ c ++ rest).
  { rewrite Hr. replace 6 with (length (x75 :: x71 :: h)) by (cbn [length]; rewrite Hd; reflexivity). apply skipn_app_exact. }
  rewrite Hsk, app_length, spec_uint_len.
  replace (4 + length (c ++ rest) <? 4) with false by (symmetry; apply Nat.ltb_ge; lia).
  rewrite be_spec, skipn_spec by (rewrite p256_4; rewrite pow32 in Hc; lia). cbn [andb].
  rewrite app_length. replace (N.of_nat (length c + length rest) <? N.of_nat (length c))%N with false by lia.
  rewrite Nat2N.id, firstn_app_exact, skipn_app_exact. reflexivity.
Qed.

Lemma arg_bytes_nonempty a : exists t r, arg_bytes a = t :: r /\ (t = x70 \/ t = x75).
Proof. destruct a; cbn [arg_bytes]; eauto. Qed.

Lemma spec_blocks_head c rest : c <> [] -> starts_block (spec_blocks c ++ rest).
Proof.
  intro H. rewrite spec_blocks_step by exact H. rewrite <- app_assoc.
  destruct (one_block_read (firstn 1024 c) (spec_blocks (skipn 1024 c) ++ rest)) as (t & r1 & E & _ & Ht & _).
  { rewrite firstn_length. lia. }
  exists t, r1. split; [exact E|]. apply isBlockTag_spec, Ht.
Qed.

Lemma skipArgs_ok args : forall fuel n ab, Forall arg_ok args -> ab <> [] ->
  length (concat (map arg_bytes args)) < fuel ->
  skipArgs fuel n (concat (map arg_bytes args) ++ spec_blocks ab) = VOk (n + length args, spec_blocks ab, ab).
Proof.
  induction args as [|a args IH]; intros fuel n ab Ha Hab Hf; cbn [map concat length].
  - cbn [map concat app]. destruct fuel as [|f]; [cbn in Hf; lia|]. cbn [skipArgs].
    destruct (spec_blocks_head ab [] Hab) as (t & r' & E & Ht). rewrite app_nil_r in E. rewrite E.
    assert (H1 : byte_eqb t TC_NULL = false /\ byte_eqb t TC_ARRAY = false /\ isBlockTag t = true)
      by (destruct Ht; subst t; repeat split; reflexivity).
    destruct H1 as (-> & -> & ->). rewrite <- E.
    rewrite <- (app_nil_r (spec_blocks ab)) at 1. rewrite getBlock_ok by auto. cbn [vbind]. rewrite Nat.add_0_r. reflexivity.
  - inversion Ha as [|? ? Ha1 Ha2]; subst. cbn [map concat] in Hf. rewrite app_length in Hf.
    destruct fuel as [|f]; [lia|].
    assert (Hpos : 0 < length (arg_bytes a)) by (destruct (arg_bytes_nonempty a) as (t & r & -> & _); cbn; lia).
    rewrite <- app_assoc.
    assert (Hstep : skipArgs (S f) n (arg_bytes a ++ concat (map arg_bytes args) ++ spec_blocks ab) =
                    skipArgs f (S n) (concat (map arg_bytes args) ++ spec_blocks ab)).
    { destruct a as [|d c|h c].
      - reflexivity.
      - assert (Hs := skipByteArray_new d c (concat (map arg_bytes args) ++ spec_blocks ab) (proj1 Ha1) (proj2 Ha1)).
        remember (concat (map arg_bytes args) ++ spec_blocks ab) as q eqn:Eq.
        assert (E : exists r1, arg_bytes (ArgNew d c) ++ q = x75 :: r1) by (cbn [arg_bytes app]; eauto).
        destruct E as [r1 E]. cbn [skipArgs]. rewrite E. rewrite E in Hs.
        change (byte_eqb x75 TC_NULL) with false. change (byte_eqb x75 TC_ARRAY) with true. cbv iota.
        rewrite Hs. reflexivity.
      - assert (Hs := skipByteArray_ref h c (concat (map arg_bytes args) ++ spec_blocks ab) (proj1 Ha1) (proj2 Ha1)).
        remember (concat (map arg_bytes args) ++ spec_blocks ab) as q eqn:Eq.
        assert (E : exists r1, arg_bytes (ArgRef h c) ++ q = x75 :: r1) by (cbn [arg_bytes app]; eauto).
        destruct E as [r1 E]. cbn [skipArgs]. rewrite E. rewrite E in Hs.
        change (byte_eqb x75 TC_NULL) with false. change (byte_eqb x75 TC_ARRAY) with true. cbv iota.
        rewrite Hs. reflexivity. }
    rewrite Hstep, IH; [f_equal; f_equal; f_equal; lia| exact Ha2 | exact Hab | lia].
Qed.

(* ------------------------------------------------------------------ requests *)

Definition seen_target (t : v1target) : bs * bs * bs :=
  match t with ByName s m d => (s, m, d) | BySign g => (compressSign, g, []) end.

Lemma readInfos_ok t rest : target_ok t ->
  readInfos (target_bytes t ++ rest) = VOk (seen_target t, rest).
Proof.
  destruct t as [s m d|g]; cbn [target_ok target_bytes seen_target]; intro H; unfold readInfos.
  - destruct H as (Hs & Hm & Hd & H1). rewrite <- !app_assoc.
    rewrite readUtf_utf by exact Hs. cbn [vbind]. rewrite readUtf_utf by exact Hm. cbn [vbind].
    rewrite (proj2 (bs_eqb_neq s (s2b "1")) H1). rewrite readUtf_utf by exact Hd. reflexivity.
  - rewrite <- !app_assoc. rewrite readUtf_utf by (unfold utf_ok; rewrite pow15; cbn; lia). cbn [vbind].
    rewrite readUtf_utf by exact H. reflexivity.
Qed.

Lemma target_bytes_nonempty t : target_bytes t <> [].
Proof.
  assert (H : 2 <= length (target_bytes t)).
  { destruct t; cbn [target_bytes]; rewrite ?app_length, ?utf_length; lia. }
  intro E. rewrite E in H. cbn in H. lia.
Qed.

Definition parsed (ver : byte) (c : v1call) : v1req :=
  let '(s, m, d) := seen_target (kTarget c) in
  match kArgs c with
  | [] => mkV1Req s m d (kAttach c) 0 [] (target_bytes (kTarget c) ++ attach_bytes ver (kAttach c))
                  (length (target_bytes (kTarget c))) osHeader
  | args => mkV1Req s m d (kAttach c) (length args) (concat (map arg_bytes args)) (target_bytes (kTarget c)) 0 osHeader
  end.

Lemma checkObjectStream_ok r : checkObjectStream ([xac; xed; x00; x05] ++ r) = getBlock r.
Proof. reflexivity. Qed.

Lemma attach_bytes_nonempty ver att : attach_bytes ver att <> [].
Proof. pose proof (attach_bytes_length ver att) as H. intro E. rewrite E in H. cbn in H. lia. Qed.

Lemma parseReq_ok ver c : call_ok ver c -> parseReq ver (call_stream ver c) = VOk (parsed ver c).
Proof.
  intros (Ht & Ha & Hatt & Hlen). unfold parseReq, call_stream, parsed.
  rewrite checkObjectStream_ok.
  change (firstn 4 ([xac; xed; x00; x05] ++ _)) with osHeader.
  destruct (seen_target (kTarget c)) as [[s m] d] eqn:Es.
  destruct (kArgs c) as [|a args] eqn:Ea.
  - rewrite <- (app_nil_r (spec_blocks _)). rewrite getBlock_ok; [|intro E; apply app_eq_nil in E as [E _]; exact (target_bytes_nonempty _ E)|auto].
    cbn [vbind]. rewrite readInfos_ok by exact Ht. rewrite Es. cbn [vbind].
    destruct (attach_bytes ver (kAttach c)) as [|y ys] eqn:Eb; [exfalso; exact (attach_bytes_nonempty _ _ Eb)|].
    rewrite <- Eb. rewrite readAttachments_ok by exact Hatt. cbn [vbind].
    rewrite app_length. do 2 f_equal. lia.
  - rewrite <- Ea in *.
    assert (Hnb : ~ starts_block (concat (map arg_bytes (kArgs c)) ++ spec_blocks (attach_bytes ver (kAttach c)))).
    { rewrite Ea. cbn [map concat]. destruct (arg_bytes_nonempty a) as (t & r & -> & Htt). intros (t' & r' & E & Ht').
      injection E as -> _. destruct Htt, Ht'; congruence. }
    rewrite getBlock_ok; [|apply target_bytes_nonempty|].
    2:{ destruct Hlen as [Hl|[Hl|Hl]]; [rewrite Ea in Hl; discriminate|left; exact Hl|right; right; split; [exact Hl|exact Hnb]]. }
    cbn [vbind]. rewrite <- (app_nil_r (target_bytes (kTarget c))) at 1. rewrite readInfos_ok by exact Ht.
    rewrite Es. cbn [vbind].
    rewrite skipArgs_ok; [|exact Ha|apply attach_bytes_nonempty|rewrite app_length; lia].
    cbn [vbind]. rewrite readAttachments_ok by exact Hatt. cbn [vbind].
    rewrite app_length. do 2 f_equal.
    rewrite Nat.add_sub. apply firstn_app_exact.
Qed.

(* ------------------------------------------------------------------ frames *)

Lemma skipn_plus {A} j : forall i (l : list A), skipn i (skipn j l) = skipn (j + i) l.
Proof.
  induction j as [|j IH]; intros i l; [reflexivity|]. destruct l as [|x l]; [rewrite !skipn_nil; reflexivity|]. apply IH.
Qed.

Lemma copyAt_mid a o n c : length o = length n -> copyAt (a ++ o ++ c) (length a) n = a ++ n ++ c.
Proof.
  intro H. unfold copyAt. rewrite firstn_app_exact. f_equal.
  rewrite !app_length. replace (length a + (length o + length c) - length a) with (length n + length c) by lia.
  rewrite firstn_all2 by lia. f_equal.
  rewrite app_assoc. rewrite <- H, <- app_length. apply skipn_app_exact.
Qed.

Lemma copyAt_mid' a o n c i : length a = i -> length o = length n -> copyAt (a ++ o ++ c) i n = a ++ n ++ c.
Proof. intros <-. apply copyAt_mid. Qed.

(* the 32 header bytes, with their six fields *)
Definition hdr (tag r1 l1 mid r2 l2 : bs) : bs := tag ++ r1 ++ l1 ++ mid ++ r2 ++ l2.
Definition hdr_ok (tag r1 l1 mid r2 l2 : bs) : Prop :=
  length tag = 4 /\ length r1 = 8 /\ length l1 = 4 /\ length mid = 4 /\ length r2 = 8 /\ length l2 = 4.

Lemma hdr_length tag r1 l1 mid r2 l2 : hdr_ok tag r1 l1 mid r2 l2 -> length (hdr tag r1 l1 mid r2 l2) = 32.
Proof. intros (H1 & H2 & H3 & H4 & H5 & H6). unfold hdr. rewrite !app_length. lia. Qed.

Lemma writeV1Rid_hdr tag r1 l1 mid r2 l2 body rid : hdr_ok tag r1 l1 mid r2 l2 ->
  writeV1Rid (hdr tag r1 l1 mid r2 l2 ++ body) rid =
  hdr tag (spec_uint BigE 8 rid) l1 mid (spec_uint BigE 8 rid) l2 ++ body.
Proof.
  intro H. unfold writeV1Rid. rewrite app_length, hdr_length by exact H.
  replace (V1AllHeaderLength <=? 32 + length body) with true by (symmetry; apply Nat.leb_le; unfold V1AllHeaderLength; lia).
  destruct H as (H1 & H2 & H3 & H4 & H5 & H6). unfold hdr. rewrite putUint_spec.
  rewrite <- !app_assoc.
  rewrite (copyAt_mid' tag r1) by (rewrite ?spec_uint_len; assumption).
  replace 20 with (length (tag ++ spec_uint BigE 8 rid ++ l1 ++ mid)) by (rewrite !app_length, spec_uint_len; lia).
  replace (tag ++ spec_uint BigE 8 rid ++ l1 ++ mid ++ r2 ++ l2 ++ body) with
          ((tag ++ spec_uint BigE 8 rid ++ l1 ++ mid) ++ r2 ++ l2 ++ body) by (rewrite <- !app_assoc; reflexivity).
  rewrite copyAt_mid by (rewrite spec_uint_len; exact H5). rewrite <- !app_assoc. reflexivity.
Qed.

Lemma writeV1InnerLength_hdr tag r1 l1 mid r2 l2 body l : hdr_ok tag r1 l1 mid r2 l2 -> (l + 16 < 2 ^ 32)%N ->
  writeV1InnerLength (hdr tag r1 l1 mid r2 l2 ++ body) l =
  hdr tag r1 (spec_uint BigE 4 (l + 16)) mid r2 (spec_uint BigE 4 l) ++ body.
Proof.
  intros H Hl. unfold writeV1InnerLength. rewrite app_length, hdr_length by exact H.
  replace (V1AllHeaderLength <=? 32 + length body) with true by (symmetry; apply Nat.leb_le; unfold V1AllHeaderLength; lia).
  destruct H as (H1 & H2 & H3 & H4 & H5 & H6). unfold hdr. rewrite !putUint_spec.
  rewrite !N.mod_small by lia.
  replace ((tag ++ r1 ++ l1 ++ mid ++ r2 ++ l2) ++ body) with ((tag ++ r1) ++ l1 ++ mid ++ r2 ++ l2 ++ body)
    by (rewrite <- !app_assoc; reflexivity).
  rewrite copyAt_mid' by (rewrite ?app_length, ?spec_uint_len; lia).
  replace ((tag ++ r1) ++ spec_uint BigE 4 (l + 16) ++ mid ++ r2 ++ l2 ++ body) with
     (((tag ++ r1) ++ spec_uint BigE 4 (l + 16) ++ mid ++ r2) ++ l2 ++ body) by (rewrite <- !app_assoc; reflexivity).
  rewrite copyAt_mid' by (rewrite ?app_length, ?spec_uint_len; lia). rewrite <- !app_assoc. reflexivity.
Qed.

Lemma v1_frame_hdr tag ver flag rid stream : v1_frame tag ver flag rid stream =
  hdr tag (spec_uint BigE 8 rid) (spec_uint BigE 4 (N.of_nat (length stream) + 16)) [xf0; xf0; ver; flag]
      (spec_uint BigE 8 rid) (spec_uint BigE 4 (N.of_nat (length stream))) ++ stream.
Proof. unfold v1_frame, hdr. rewrite <- !app_assoc. reflexivity. Qed.

Lemma frame_hdr_ok tag ver flag (rid a b : N) : length tag = 4 ->
  hdr_ok tag (spec_uint BigE 8 rid) (spec_uint BigE 4 a) [xf0; xf0; ver; flag] (spec_uint BigE 8 rid) (spec_uint BigE 4 b).
Proof. intro H. unfold hdr_ok. rewrite !spec_uint_len. repeat split; exact H. Qed.

Definition frame_msg (tag : bs) (ver flag : byte) (rid : N) (stream : bs) : v1msg :=
  mkV1 (v1_frame tag ver flag rid stream) ver flag rid (N.of_nat (length stream)).

Lemma v1_frame_length tag ver flag rid stream : length tag = 4 -> length (v1_frame tag ver flag rid stream) = 32 + length stream.
Proof. intro H. rewrite v1_frame_hdr, app_length, hdr_length by (apply frame_hdr_ok, H). reflexivity. Qed.

Lemma at_field (pre f rest : bs) k (n : N) i : length pre = i -> f = spec_uint BigE k n -> (n < 256 ^ N.of_nat k)%N ->
  be k (skipn i (pre ++ f ++ rest)) = n.
Proof. intros <- -> H. rewrite skipn_app_exact. apply be_spec, H. Qed.

Lemma readV1_frame max tag ver flag rid stream rest : v1_frame_ok max tag rid stream ->
  readV1 max (v1_frame tag ver flag rid stream ++ rest) = ROkV1 (frame_msg tag ver flag rid stream) rest.
Proof.
  intros (Htag & Hrid & Hsz & Hmax). unfold readV1.
  set (f := v1_frame tag ver flag rid stream).
  assert (Hf : length f = 32 + length stream) by (apply v1_frame_length, Htag).
  rewrite app_length, Hf.
  replace (32 + length stream + length rest <? V1L1HeaderLength) with false by (symmetry; apply Nat.ltb_ge; unfold V1L1HeaderLength; lia).
  assert (Hl1 : be 4 (skipn 12 (f ++ rest)) = (N.of_nat (length stream) + 16)%N).
  { unfold f, v1_frame. 
    replace ((tag ++ spec_uint BigE 8 rid ++ spec_uint BigE 4 (N.of_nat (length stream) + 16) ++ [xf0; xf0; ver; flag] ++ spec_uint BigE 8 rid ++ spec_uint BigE 4 (N.of_nat (length stream)) ++ stream) ++ rest)
    with ((tag ++ spec_uint BigE 8 rid) ++ spec_uint BigE 4 (N.of_nat (length stream) + 16) ++ ([xf0; xf0; ver; flag] ++ spec_uint BigE 8 rid ++ spec_uint BigE 4 (N.of_nat (length stream)) ++ stream) ++ rest)
      by (rewrite <- !app_assoc; reflexivity).
    apply at_field; [rewrite app_length, spec_uint_len; lia|reflexivity|rewrite p256_4; rewrite pow32 in Hmax; lia]. }
  rewrite Hl1. cbv zeta.
  replace (16 + (N.of_nat (length stream) + 16) <? 32)%N with false by lia.
  replace (16 + max <? 16 + (N.of_nat (length stream) + 16))%N with false by lia. cbn [orb].
  replace (N.of_nat (32 + length stream + length rest) <? 16 + (N.of_nat (length stream) + 16))%N with false by lia.
  replace (N.to_nat (16 + (N.of_nat (length stream) + 16))) with (length f) by (rewrite Hf; lia).
  rewrite firstn_app_exact, skipn_app_exact.
  assert (Hm : f = (tag ++ spec_uint BigE 8 rid ++ spec_uint BigE 4 (N.of_nat (length stream) + 16)) ++
                   [xf0; xf0; ver; flag] ++ spec_uint BigE 8 rid ++ spec_uint BigE 4 (N.of_nat (length stream)) ++ stream)
    by (unfold f, v1_frame; rewrite <- !app_assoc; reflexivity).
  assert (Hp : length (tag ++ spec_uint BigE 8 rid ++ spec_uint BigE 4 (N.of_nat (length stream) + 16)) = 16)
    by (rewrite !app_length, !spec_uint_len; lia).
  assert (H16 : skipn 16 f = [xf0; xf0; ver; flag] ++ spec_uint BigE 8 rid ++ spec_uint BigE 4 (N.of_nat (length stream)) ++ stream).
  { rewrite Hm. rewrite <- Hp. apply skipn_app_exact. }
  assert (Hsk : forall i, skipn (16 + i) f = skipn i (skipn 16 f)).
  { intro i. symmetry. apply skipn_plus. }
  assert (Hnth : forall i, nth (16 + i) f x00 = nth i (skipn 16 f) x00).
  { intro i. rewrite <- (firstn_skipn 16 f) at 1. rewrite app_nth2 by (rewrite firstn_length; lia).
    f_equal. rewrite firstn_length. lia. }
  rewrite H16. change (be 2 ([xf0; xf0; ver; flag] ++ _)) with 61680%N. cbn [N.eqb Pos.eqb negb].
  change (skipn 28 f) with (skipn (16 + 12) f). change (skipn 20 f) with (skipn (16 + 4) f).
  change (nth 18 f x00) with (nth (16 + 2) f x00). change (nth 19 f x00) with (nth (16 + 3) f x00).
  rewrite !Hsk, !Hnth, H16.
  assert (Hr : be 8 (skipn 4 ([xf0; xf0; ver; flag] ++ spec_uint BigE 8 rid ++ spec_uint BigE 4 (N.of_nat (length stream)) ++ stream)) = rid).
  { apply at_field; [reflexivity|reflexivity|rewrite p256_8; exact Hrid]. }
  assert (Hi : be 4 (skipn 12 ([xf0; xf0; ver; flag] ++ spec_uint BigE 8 rid ++ spec_uint BigE 4 (N.of_nat (length stream)) ++ stream)) = N.of_nat (length stream)).
  { rewrite app_assoc. apply at_field; [rewrite app_length, spec_uint_len; reflexivity|reflexivity|rewrite p256_4; rewrite pow32 in Hmax; lia]. }
  rewrite Hr, Hi. replace (N.of_nat (length stream) + 32 =? 16 + (N.of_nat (length stream) + 16))%N with true by lia.
  reflexivity.
Qed.

Lemma frame_stream tag ver flag rid stream : length tag = 4 ->
  skipn 32 (v1_frame tag ver flag rid stream) = stream.
Proof.
  intro H. rewrite v1_frame_hdr.
  rewrite <- (hdr_length _ _ _ _ _ _ (frame_hdr_ok tag ver flag rid (N.of_nat (length stream) + 16) (N.of_nat (length stream)) H)).
  apply skipn_app_exact.
Qed.

Lemma frame_head tag ver flag rid stream : length tag = 4 ->
  firstn 32 (v1_frame tag ver flag rid stream) =
  hdr tag (spec_uint BigE 8 rid) (spec_uint BigE 4 (N.of_nat (length stream) + 16)) [xf0; xf0; ver; flag]
      (spec_uint BigE 8 rid) (spec_uint BigE 4 (N.of_nat (length stream))).
Proof.
  intro H. rewrite v1_frame_hdr.
  rewrite <- (hdr_length _ _ _ _ _ _ (frame_hdr_ok tag ver flag rid (N.of_nat (length stream) + 16) (N.of_nat (length stream)) H)) at 1.
  apply firstn_app_exact.
Qed.

Lemma objectStream_plain gunzip tag ver flag rid r : length tag = 4 ->
  objectStream gunzip (frame_msg tag ver flag rid ([xac; xed; x00; x05] ++ r)) = VOk ([xac; xed; x00; x05] ++ r).
Proof.
  intro H. unfold objectStream, frame_msg. cbn [vVersion vOrigin]. rewrite frame_stream by exact H.
  change (be 2 ([xac; xed; x00; x05] ++ r)) with 44269%N.
  change (44269 =? 8075)%N with false. rewrite andb_false_r. reflexivity.
Qed.

Lemma objectStream_gzip gunzip tag flag rid z d : length tag = 4 -> z <> [] ->
  gunzip (x1f :: x8b :: z) = Some d ->
  objectStream gunzip (frame_msg tag x02 flag rid (x1f :: x8b :: z)) = VOk d.
Proof.
  intros H Hz Hg. unfold objectStream, frame_msg. cbn [vVersion vOrigin]. rewrite frame_stream, v1_frame_length by exact H.
  change (be 2 (x1f :: x8b :: z)) with 8075%N. cbn [length].
  replace (34 <? 32 + S (S (length z))) with true by (symmetry; apply Nat.ltb_lt; destruct z; [contradiction|cbn; lia]).
  change (byte_eqb x02 x02 && true && (8075 =? 8075)%N) with true. cbv iota. rewrite Hg. reflexivity.
Qed.

Lemma decode_carries gunzip tag ver flag rid stream c : length tag = 4 -> call_ok ver c -> carries gunzip ver stream c ->
  decodeV1Request gunzip (frame_msg tag ver flag rid stream) = VOk (parsed ver c).
Proof.
  intros Htag Hc Hs. unfold decodeV1Request.
  destruct Hs as [->|(-> & (z & -> & Hz) & Hg)].
  - unfold call_stream at 1. rewrite objectStream_plain by exact Htag. cbn [vbind vVersion].
    change (vVersion (frame_msg tag ver flag rid _)) with ver. apply parseReq_ok, Hc.
  - erewrite objectStream_gzip by eauto. cbn [vbind]. change (vVersion (frame_msg tag x02 flag rid _)) with x02. apply parseReq_ok, Hc.
Qed.

Lemma parsed_says ver c : says (parsed ver c) c.
Proof.
  unfold says, parsed. destruct (kTarget c) as [s m d|g], (kArgs c) as [|a args]; cbn [seen_target];
    cbn [rService rMethod rDesc rAttach rArgSize rArgs map concat length]; repeat split.
Qed.

Lemma encode_parsed ver tag flag rid stream c att rid' : length tag = 4 -> attach_ok ver att ->
  (N.of_nat (length (call_stream ver (with_attach c att))) + 16 < 2 ^ 32)%N ->
  encodeV1 (frame_msg tag ver flag rid stream) (parsed ver c) att rid' =
  Some (v1_frame tag ver flag rid' (call_stream ver (with_attach c att))).
Proof.
  intros Htag Hatt Hsz. unfold encodeV1. change (vVersion (frame_msg tag ver flag rid stream)) with ver.
  change (vOrigin (frame_msg tag ver flag rid stream)) with (v1_frame tag ver flag rid stream).
  rewrite encodeAttachment_ok by exact Hatt. rewrite !writeBlock_ok. cbn [concat]. rewrite !app_nil_r.
  assert (Hb : (if rArgSize (parsed ver c) =? 0
          then Some (spec_blocks (firstn (rAttPos (parsed ver c)) (rSBlock (parsed ver c)) ++ attach_bytes ver att))
          else Some (spec_blocks (rSBlock (parsed ver c)) ++ rArgs (parsed ver c) ++ spec_blocks (attach_bytes ver att)))
     = Some (match kArgs c with
             | [] => spec_blocks (target_bytes (kTarget c) ++ attach_bytes ver att)
             | args => spec_blocks (target_bytes (kTarget c)) ++ concat (map arg_bytes args) ++ spec_blocks (attach_bytes ver att)
             end)).
  { unfold parsed. destruct (seen_target (kTarget c)) as [[s m] d].
    destruct (kArgs c) as [|a args]; cbn [rArgSize length Nat.eqb rAttPos rSBlock rArgs].
    - rewrite firstn_app_exact. reflexivity.
    - reflexivity. }
  rewrite Hb. clear Hb.
  assert (Hmag : rMagic (parsed ver c) = [xac; xed; x00; x05]).
  { unfold parsed. destruct (seen_target (kTarget c)) as [[s m] d]. destruct (kArgs c); reflexivity. }
  rewrite Hmag.
  set (b := match kArgs c with [] => _ | _ => _ end).
  assert (Hcs : [xac; xed; x00; x05] ++ b = call_stream ver (with_attach c att)) by (unfold call_stream, with_attach, b; cbn [kArgs kTarget kAttach]; destruct (kArgs c); reflexivity).
  rewrite Hcs. rewrite frame_head by exact Htag.
  rewrite writeV1Rid_hdr by (apply frame_hdr_ok, Htag).
  rewrite app_length, hdr_length by (apply frame_hdr_ok, Htag).
  replace (32 + length (call_stream ver (with_attach c att)) - 32) with (length (call_stream ver (with_attach c att))) by lia.
  rewrite N.mod_small by lia.
  rewrite writeV1InnerLength_hdr by (try (apply frame_hdr_ok, Htag); exact Hsz).
  rewrite <- v1_frame_hdr. reflexivity.
Qed.

Lemma proxy_ok gunzip max tag ver flag rid stream rest c att rid' :
  v1_frame_ok max tag rid stream -> call_ok ver c -> carries gunzip ver stream c ->
  attach_ok ver att -> v1_frame_ok max tag rid' (call_stream ver (with_attach c att)) ->
  exists m q out m' q',
    readV1 max (v1_frame tag ver flag rid stream ++ rest) = ROkV1 m rest /\
    decodeV1Request gunzip m = VOk q /\ vRid m = rid /\ says q c /\
    encodeV1 m q att rid' = Some out /\
    (forall rest', readV1 max (out ++ rest') = ROkV1 m' rest') /\
    decodeV1Request gunzip m' = VOk q' /\ vRid m' = rid' /\ vVersion m' = ver /\ vFlag m' = flag /\
    says q' (with_attach c att) /\ out = v1_frame tag ver flag rid' (call_stream ver (with_attach c att)).
Proof.
  intros Hf Hc Hs Hatt Hf'.
  exists (frame_msg tag ver flag rid stream), (parsed ver c), (v1_frame tag ver flag rid' (call_stream ver (with_attach c att))),
         (frame_msg tag ver flag rid' (call_stream ver (with_attach c att))), (parsed ver (with_attach c att)).
  assert (Htag : length tag = 4) by apply Hf.
  split; [apply readV1_frame, Hf|]. split; [apply decode_carries; assumption|]. split; [reflexivity|].
  split; [apply parsed_says|]. split.
  { apply encode_parsed; try assumption. destruct Hf' as (_ & _ & H1 & H2). lia. }
  split; [intro rest'; apply readV1_frame, Hf'|].
  split. { apply decode_carries; [exact Htag| |left; reflexivity]. destruct Hc as (H1 & H2 & H3 & H4).
           unfold call_ok, with_attach. cbn [kTarget kArgs kAttach]. auto. }
  repeat split; try reflexivity; apply parsed_says.
Qed.

(* ------------------------------------------------------------------ responses *)

Lemma encodeV1Response_ok tag ver flag rid rid' stream : length tag = 4 ->
  encodeV1Response (frame_msg tag ver flag rid stream) rid' = v1_frame tag ver flag rid' stream.
Proof.
  intro H. unfold encodeV1Response, frame_msg. cbn [vOrigin]. rewrite v1_frame_hdr.
  rewrite writeV1Rid_hdr by (apply frame_hdr_ok, H). rewrite <- v1_frame_hdr. reflexivity.
Qed.

Definition hbCall : v1call := mkCall (ByName heartbeatInterface heartbeatStr (s2b "void")) [] [].

Lemma heartbeatReq_frame rid : buildV1HeartbeatReq rid = v1_frame [xf1; xf1; x00; x00] x01 x00 rid (call_stream x01 hbCall).
Proof.
  unfold buildV1HeartbeatReq.
  assert (E : baseV1HeartbeatReq = v1_frame [xf1; xf1; x00; x00] x01 x00 1742013105011949664 (call_stream x01 hbCall)) by (vm_compute; reflexivity).
  rewrite E, v1_frame_hdr, writeV1Rid_hdr by (apply frame_hdr_ok; reflexivity). rewrite <- v1_frame_hdr. reflexivity.
Qed.

Definition hbResStream : bs := skipn 32 baseV1HeartbeatRes.
Lemma heartbeatRes_frame rid : buildV1HeartbeatRes rid = v1_frame [xf1; xf1; x00; x01] x01 x01 rid hbResStream.
Proof.
  unfold buildV1HeartbeatRes.
  assert (E : baseV1HeartbeatRes = v1_frame [xf1; xf1; x00; x01] x01 x01 1742016336082043500 hbResStream) by (vm_compute; reflexivity).
  rewrite E, v1_frame_hdr, writeV1Rid_hdr by (apply frame_hdr_ok; reflexivity). rewrite <- v1_frame_hdr. reflexivity.
Qed.

Lemma heartbeatReq_read gunzip max rid rest : (rid < 2 ^ 64)%N -> (78 <= max)%N -> (max < 2 ^ 32)%N ->
  exists m q, readV1 max (buildV1HeartbeatReq rid ++ rest) = ROkV1 m rest /\ vRid m = rid /\
    decodeV1Request gunzip m = VOk q /\ isV1HeartbeatReq q = true.
Proof.
  intros Hr Hm Hx. rewrite heartbeatReq_frame.
  exists (frame_msg [xf1; xf1; x00; x00] x01 x00 rid (call_stream x01 hbCall)), (parsed x01 hbCall).
  split. { apply readV1_frame. split; [reflexivity|]. split; [exact Hr|]. split; [|exact Hx].
           change (N.of_nat (length (call_stream x01 hbCall))) with 62%N. lia. }
  split; [reflexivity|]. split.
  - apply decode_carries; [reflexivity| |left; reflexivity].
    split; [|split; [constructor|split; [|left; reflexivity]]].
    + unfold target_ok, hbCall. cbn [kTarget]. repeat split; unfold utf_ok; rewrite ?pow15; try (cbn; lia). discriminate.
    + split; [constructor|]. split; [intros k v []|]. cbn. rewrite pow32. lia.
  - vm_compute. reflexivity.
Qed.

Lemma heartbeatRes_read gunzip max rid rest : (rid < 2 ^ 64)%N -> (81 <= max)%N -> (max < 2 ^ 32)%N ->
  exists m s, readV1 max (buildV1HeartbeatRes rid ++ rest) = ROkV1 m rest /\ vRid m = rid /\
    decodeV1Response gunzip m = VOk s /\ isV1HeartbeatRes s = true.
Proof.
  intros Hr Hm Hx. rewrite heartbeatRes_frame.
  exists (frame_msg [xf1; xf1; x00; x01] x01 x01 rid hbResStream), (mkV1Res 0 None (Some heartbeatStr)).
  split. { apply readV1_frame. split; [reflexivity|]. split; [exact Hr|]. split; [|exact Hx].
           change (N.of_nat (length hbResStream)) with 65%N. lia. }
  split; [reflexivity|]. split; [|reflexivity].
  unfold decodeV1Response.
  assert (E : exists r, hbResStream = [xac; xed; x00; x05] ++ r) by (eexists; vm_compute; reflexivity).
  destruct E as [r E]. rewrite E, objectStream_plain by reflexivity. rewrite <- E. cbn [vbind].
  change (vFlag _) with x01. vm_compute. reflexivity.
Qed.

(* ------------------------------------------------------------------ exception responses *)


Lemma setWPos_setWPos b p q : p <= length (bbuf b) -> q <= length (bbuf b) -> setWPos (setWPos b p) q = setWPos b q.
Proof.
  intros Hp Hq. unfold setWPos at 2. destruct (Nat.ltb_spec (length (bbuf b)) p) as [?|_]; [lia|].
  unfold setWPos. cbn [bbuf].
  destruct (Nat.ltb_spec (length (bbuf b)) q) as [?|_]; [lia|]. reflexivity.
Qed.

Lemma writeUint_grows k b v : length (bbuf b) <= length (bbuf (writeUint k b v)).
Proof.
  unfold writeUint. destruct (Nat.ltb_spec (length (bbuf b)) (bwpos b + k)) as [H|H]; cbn [bbuf].
  - unfold copyAt. rewrite !app_length, !firstn_length, skipn_length, putUint_length.
    unfold grow. cbn [bbuf bwpos border]. unfold copyAt. rewrite !app_length, !firstn_length, skipn_length, zeros_length. lia.
  - unfold copyAt. rewrite !app_length, !firstn_length, skipn_length, putUint_length. lia.
Qed.

(* three back-patches in a row *)
Lemma patch_mid a o c (v : N) : length o = 4 ->
  firstn (length a) (a ++ o ++ c) ++ putUint BigE 4 v ++ skipn (length a + 4) (a ++ o ++ c) = a ++ spec_uint BigE 4 v ++ c.
Proof.
  intro H. rewrite firstn_app_exact, putUint_spec. f_equal. f_equal.
  rewrite <- H, <- app_length, app_assoc. apply skipn_app_exact.
Qed.

Lemma writeHessianString_ok s : (N.of_nat (length s) < 65536)%N -> writeHessianString s = hessian_string s.
Proof.
  intro H. unfold writeHessianString, hessian_string. f_equal.
  rewrite N.shiftr_div_pow2. change (2 ^ 8)%N with 256%N.
  set (l := N.of_nat (length s)) in *.
  assert (Hmod : n2b l = n2b (l mod 256)) by (apply b2n_inj; rewrite !b2n_n2b, N.mod_mod by discriminate; reflexivity).
  destruct (N.leb_spec l 31), (N.ltb_spec l 32); try lia; [reflexivity|].
  destruct (N.leb_spec l 1023), (N.ltb_spec l 1024); try lia; rewrite <- Hmod; reflexivity.
Qed.

Lemma writeHessianString_len s : length s <= length (writeHessianString s) <= length s + 3.
Proof.
  unfold writeHessianString. rewrite app_length. destruct (N.of_nat (length s) <=? 31)%N; [cbn; lia|].
  destruct (N.of_nat (length s) <=? 1023)%N; cbn; lia.
Qed.

Definition exc_content (msg : bs) : bs :=
  h_exceptionDesc ++ s2b "NNN" ++ h_motanErrorMsgDesc ++ bytesN [201; 247; 212; 39; 17]%N ++ writeHessianString msg ++ s2b "NN".

Definition exc_raw (msg : bs) : bs :=
  baseV1ResObjectStream ++ spec_uint BigE 4 (N.of_nat (length (exc_content msg))) ++ exc_content msg.

Lemma exception_frame rid msg : msg <> [] -> (N.of_nat (length (exc_raw msg)) + 16 < 2 ^ 32)%N ->
  buildV1ExceptionResponse rid msg = v1_frame [xf1; xf1; x00; x01] x01 x05 rid (exc_raw msg).
Proof.
  intros Hne Hsz. unfold buildV1ExceptionResponse.
  destruct (bs_empty msg) eqn:Em; [apply bs_empty_spec in Em; contradiction|]. clear Em.
  assert (Hb : exists r1 l1 l2, baseV1ExceptionRes = hdr [xf1; xf1; x00; x01] r1 l1 [xf0; xf0; x01; x05] r1 l2 /\ length r1 = 8 /\ length l1 = 4 /\ length l2 = 4).
  { exists (bytesN [24; 46; 120; 216; 224; 128; 0; 1]%N), (bytesN [0; 0; 1; 70]%N), (bytesN [0; 0; 1; 54]%N).
    repeat split. }
  destruct Hb as (r1 & l1 & l2 & Hb & Hr1 & Hl1 & Hl2).
  destruct (write_spec (newBuf (350 + length msg) BigE) baseV1ExceptionRes (newBuf_ok _ _)) as (B0 & O0 & E0 & P0 & W0).
  change (bytesOf (newBuf (350 + length msg) BigE)) with (@nil byte) in B0. cbn [app] in B0.
  change (bwpos (newBuf (350 + length msg) BigE)) with 0 in W0. change (border (newBuf (350 + length msg) BigE)) with BigE in E0.
  change (length baseV1ExceptionRes) with 32 in W0.
  set (b0 := write (newBuf (350 + length msg) BigE) baseV1ExceptionRes) in *. clearbody b0.
  assert (Hhok : hdr_ok [xf1; xf1; x00; x01] r1 l1 [xf0; xf0; x01; x05] r1 l2) by (unfold hdr_ok; repeat split; assumption).
  assert (HR : writeV1Rid (bytesOf b0) rid = hdr [xf1; xf1; x00; x01] (spec_uint BigE 8 rid) l1 [xf0; xf0; x01; x05] (spec_uint BigE 8 rid) l2).
  { rewrite B0, Hb. rewrite <- (app_nil_r (hdr _ _ _ _ _ _)). rewrite writeV1Rid_hdr by exact Hhok. apply app_nil_r. }
  rewrite HR. set (H1 := hdr [xf1; xf1; x00; x01] (spec_uint BigE 8 rid) l1 [xf0; xf0; x01; x05] (spec_uint BigE 8 rid) l2).
  assert (LH1 : length H1 = 32) by (apply hdr_length; unfold hdr_ok; rewrite !spec_uint_len; repeat split; assumption).
  set (b1 := mkBuf (H1 ++ skipn (bwpos b0) (bbuf b0)) (brpos b0) (bwpos b0) (border b0)).
  assert (O1 : buf_ok b1) by (unfold b1, buf_ok; cbn [bbuf bwpos]; rewrite app_length; lia).
  assert (B1 : bytesOf b1 = H1) by (unfold b1, bytesOf; cbn [bbuf bwpos]; rewrite W0, Nat.add_0_l, <- LH1; apply firstn_app_exact).
  assert (E1 : border b1 = BigE) by exact E0.
  assert (W1 : bwpos b1 = 32) by exact W0.
  clearbody b1.
  destruct (write_spec b1 baseV1ResObjectStream O1) as (B2 & O2 & E2 & _ & W2).
  set (b2 := write b1 baseV1ResObjectStream) in *. clearbody b2.
  set (arrPos := getWPos b2). assert (HarrPos : arrPos = 32 + length baseV1ResObjectStream) by (unfold arrPos, getWPos; lia).
  destruct (setWPos_spec b2 (arrPos + 4) O2) as (O3 & E3 & _ & W3 & F3).
  set (b3 := setWPos b2 (arrPos + 4)) in *.
  assert (HB3 : exists gap, length gap = 4 /\ bytesOf b3 = H1 ++ baseV1ResObjectStream ++ gap).
  { exists (skipn arrPos (bytesOf b3)). split.
    - rewrite skipn_length, (bytesOf_length b3 O3), W3. lia.
    - rewrite <- (firstn_skipn arrPos (bytesOf b3)) at 1. rewrite app_assoc. f_equal.
      unfold bytesOf at 1. rewrite W3, firstn_firstn. replace (Nat.min arrPos (arrPos + 4)) with arrPos by lia.
      rewrite F3 by (unfold arrPos, getWPos; lia). unfold arrPos, getWPos. fold (bytesOf b2). rewrite B2, B1. reflexivity. }
  destruct HB3 as (gap & Lgap & B3). clearbody b3.
  destruct (write_spec b3 h_exceptionDesc O3) as (B4 & O4 & E4 & _ & W4).
  set (b4 := write b3 h_exceptionDesc) in *. clearbody b4.
  destruct (write_spec b4 (s2b "NNN") O4) as (B5 & O5 & E5 & _ & W5).
  set (b5 := write b4 (s2b "NNN")) in *. clearbody b5.
  destruct (write_spec b5 h_motanErrorMsgDesc O5) as (B6 & O6 & E6 & _ & W6).
  set (b6 := write b5 h_motanErrorMsgDesc) in *. clearbody b6.
  destruct (write_spec b6 (bytesN [201; 247; 212; 39; 17]%N) O6) as (B7 & O7 & E7 & _ & W7).
  set (b7 := write b6 (bytesN [201; 247; 212; 39; 17]%N)) in *. clearbody b7.
  destruct (write_spec b7 (writeHessianString msg) O7) as (B8 & O8 & E8 & _ & W8).
  set (b8 := write b7 (writeHessianString msg)) in *. clearbody b8.
  destruct (write_spec b8 (s2b "NN") O8) as (B9 & O9 & E9 & _ & W9).
  set (b9 := write b8 (s2b "NN")) in *. clearbody b9.
  assert (HB9 : bytesOf b9 = H1 ++ baseV1ResObjectStream ++ gap ++ exc_content msg).
  { rewrite B9, B8, B7, B6, B5, B4, B3. unfold exc_content. rewrite <- !app_assoc. reflexivity. }
  assert (EB9 : border b9 = BigE) by congruence.
  set (wpos := getWPos b9).
  assert (Hw : wpos = 32 + length baseV1ResObjectStream + 4 + length (exc_content msg)).
  { unfold wpos, getWPos. rewrite <- (bytesOf_length b9 O9), HB9, !app_length, LH1, Lgap. lia. }
  assert (Hraw : length (exc_raw msg) = length baseV1ResObjectStream + 4 + length (exc_content msg)).
  { unfold exc_raw. rewrite !app_length, spec_uint_len. lia. }
  assert (Hlos : length baseV1ResObjectStream = 86) by reflexivity.
  replace (wpos - arrPos - 4) with (length (exc_content msg)) by lia.
  replace (wpos - 32) with (length (exc_raw msg)) by lia.
  replace (wpos - 16) with (length (exc_raw msg) + 16) by lia.
  rewrite !N.mod_small by lia. unfold writeUint32.
  (* first patch *)
  destruct (backpatch b9 arrPos (N.of_nat (length (exc_content msg))) 4 O9 ltac:(unfold wpos, getWPos in Hw; lia)) as (C1 & P1 & Q1 & _ & R1). cbn zeta in *.
  fold (getWPos b9) in C1, P1, Q1, R1. change (getWPos b9) with wpos in C1, P1, Q1, R1.
  set (c1 := writeUint 4 (setWPos b9 arrPos) (N.of_nat (length (exc_content msg)))) in *.
  assert (Lc1 : wpos <= length (bbuf c1)).
  { pose proof (writeUint_grows 4 (setWPos b9 arrPos) (N.of_nat (length (exc_content msg)))). fold c1 in H.
    unfold setWPos in H. destruct (Nat.ltb_spec (length (bbuf b9)) arrPos) as [?|_];
      [unfold buf_ok in O9; unfold wpos, getWPos in Hw; lia|]. cbn [bbuf] in H. unfold buf_ok in O9. unfold wpos, getWPos. lia. }
  rewrite <- (setWPos_setWPos c1 wpos 28) by lia.
  set (d1 := setWPos c1 wpos) in *.
  assert (Wd1 : bwpos d1 = wpos) by exact R1.
  destruct (backpatch d1 28 (N.of_nat (length (exc_raw msg))) 4 P1 ltac:(lia)) as (C2 & P2 & Q2 & _ & R2). cbn zeta in *.
  set (c2 := writeUint 4 (setWPos d1 28) (N.of_nat (length (exc_raw msg)))) in *.
  rewrite Wd1 in C2, P2, Q2, R2.
  assert (Lc2 : wpos <= length (bbuf c2)).
  { pose proof (writeUint_grows 4 (setWPos d1 28) (N.of_nat (length (exc_raw msg)))). fold c2 in H.
    unfold buf_ok in P1. rewrite Wd1 in P1.
    unfold setWPos in H. destruct (Nat.ltb_spec (length (bbuf d1)) 28) as [?|_]; [lia|]. cbn [bbuf] in H. lia. }
  rewrite <- (setWPos_setWPos c2 wpos 12) by lia.
  set (d2 := setWPos c2 wpos) in *.
  assert (Wd2 : bwpos d2 = wpos) by exact R2.
  destruct (backpatch d2 12 (N.of_nat (length (exc_raw msg) + 16)) 4 P2 ltac:(lia)) as (C3 & _). cbn zeta in *.
  rewrite Wd2 in C3. rewrite C3.
  replace (border d2) with BigE by congruence. rewrite C2. replace (border d1) with BigE by congruence. rewrite C1, EB9, HB9.
  assert (Harr : arrPos = length (H1 ++ baseV1ResObjectStream)) by (rewrite app_length; lia).
  rewrite Harr. replace (H1 ++ baseV1ResObjectStream ++ gap ++ exc_content msg) with ((H1 ++ baseV1ResObjectStream) ++ gap ++ exc_content msg)
    by (rewrite <- !app_assoc; reflexivity).
  rewrite patch_mid by exact Lgap.
  replace ((H1 ++ baseV1ResObjectStream) ++ spec_uint BigE 4 (N.of_nat (length (exc_content msg))) ++ exc_content msg) with (H1 ++ exc_raw msg)
    by (unfold exc_raw; rewrite <- !app_assoc; reflexivity).
  unfold H1, hdr.
  set (t := [xf1; xf1; x00; x01]). set (R := spec_uint BigE 8 rid). set (md := [xf0; xf0; x01; x05]).
  assert (LR : length R = 8) by apply spec_uint_len.
  replace ((t ++ R ++ l1 ++ md ++ R ++ l2) ++ exc_raw msg) with ((t ++ R ++ l1 ++ md ++ R) ++ l2 ++ exc_raw msg) by (rewrite <- !app_assoc; reflexivity).
  assert (L28 : length (t ++ R ++ l1 ++ md ++ R) = 28) by (rewrite !app_length, Hl1, LR; reflexivity).
  rewrite <- L28. rewrite patch_mid by exact Hl2.
  replace ((t ++ R ++ l1 ++ md ++ R) ++ spec_uint BigE 4 (N.of_nat (length (exc_raw msg))) ++ exc_raw msg) with
          ((t ++ R) ++ l1 ++ md ++ R ++ spec_uint BigE 4 (N.of_nat (length (exc_raw msg))) ++ exc_raw msg) by (rewrite <- !app_assoc; reflexivity).
  assert (L12 : length (t ++ R) = 12) by (rewrite app_length, LR; reflexivity).
  rewrite <- L12. rewrite patch_mid by exact Hl1.
  unfold v1_frame. rewrite <- !app_assoc. rewrite Nat2N.inj_add. reflexivity.
Qed.

Lemma exc_raw_stream msg : (N.of_nat (length msg) < 65536)%N -> exc_raw msg = exception_stream msg.
Proof.
  intro H. unfold exc_raw, exception_stream, exc_content, exception_object, arg_bytes.
  rewrite writeHessianString_ok by exact H.
  change baseV1ResObjectStream with
    ([xac; xed; x00; x05] ++ spec_blocks (spec_uint BigE 8 2 ++ utf (s2b "com.weibo.api.motan.exception.MotanServiceException")) ++
     [x75; x72] ++ skipn 2 (bytesN [117; 114; 0; 2; 91; 66; 172; 243; 23; 248; 6; 8; 84; 224; 2; 0; 0; 120; 112]%N)).
  rewrite <- !app_assoc. reflexivity.
Qed.

Definition excBlock : bs := spec_uint BigE 8 2 ++ utf (s2b "com.weibo.api.motan.exception.MotanServiceException").

Lemma exception_parse msg : parseRes x05 (exc_raw msg) =
  VOk (mkV1Res 2 (Some (s2b "com.weibo.api.motan.exception.MotanServiceException")) None).
Proof.
  assert (E : exists tail, exc_raw msg = [xac; xed; x00; x05] ++ spec_blocks excBlock ++ tail).
  { exists (skipn 67 baseV1ResObjectStream ++ spec_uint BigE 4 (N.of_nat (length (exc_content msg))) ++ exc_content msg).
    unfold exc_raw. rewrite !app_assoc. do 2 f_equal. }
  destruct E as [tail E]. rewrite E. unfold parseRes. rewrite checkObjectStream_ok.
  rewrite getBlock_ok.
  - cbn [vbind]. change (readLong excBlock) with (VOk (2%Z, utf (s2b "com.weibo.api.motan.exception.MotanServiceException"))).
    cbn [vbind]. change (byte_eqb x05 FLAG_RESPONSE_EXCEPTION) with true. cbv iota.
    rewrite <- (app_nil_r (utf _)). rewrite readUtf_utf by (unfold utf_ok; rewrite pow15; cbn; lia). reflexivity.
  - discriminate.
  - left. change (length excBlock) with 61. discriminate.
Qed.

Lemma exception_read gunzip max rid msg rest : msg <> [] -> (rid < 2 ^ 64)%N -> (N.of_nat (length msg) < 65536)%N ->
  (N.of_nat (length (exception_stream msg)) + 16 <= max)%N -> (max < 2 ^ 32)%N ->
  buildV1ExceptionResponse rid msg = v1_frame [xf1; xf1; x00; x01] x01 x05 rid (exception_stream msg) /\
  exists m, readV1 max (buildV1ExceptionResponse rid msg ++ rest) = ROkV1 m rest /\ vRid m = rid /\
    decodeV1Response gunzip m = VOk (mkV1Res 2 (Some (s2b "com.weibo.api.motan.exception.MotanServiceException")) None).
Proof.
  intros Hne Hr Hl Hsz Hm. rewrite <- exc_raw_stream in * by exact Hl.
  assert (E := exception_frame rid msg Hne ltac:(lia)). split; [exact E|]. rewrite E.
  exists (frame_msg [xf1; xf1; x00; x01] x01 x05 rid (exc_raw msg)). split; [apply readV1_frame; repeat split; assumption|].
  split; [reflexivity|]. unfold decodeV1Response.
  assert (E2 : exists r, exc_raw msg = [xac; xed; x00; x05] ++ r).
  { exists (skipn 4 baseV1ResObjectStream ++ spec_uint BigE 4 (N.of_nat (length (exc_content msg))) ++ exc_content msg). reflexivity. }
  destruct E2 as [r E2]. rewrite E2 at 1. rewrite objectStream_plain by reflexivity. rewrite <- E2. cbn [vbind]. apply exception_parse.
Qed.

(* ------------------------------------------------------------------ arbitrary input *)

Lemma VOk_inj {A B} (a a' : A) (b b' : B) : VOk (a, b) = VOk (a', b') -> a = a' /\ b = b'.
Proof. intro H. inversion H. auto. Qed.

Definition suffix (r s : bs) : Prop := exists p, s = p ++ r.
Lemma suffix_refl s : suffix s s. Proof. exists []. reflexivity. Qed.
Lemma suffix_trans a b c : suffix a b -> suffix b c -> suffix a c.
Proof. intros [p ->] [q ->]. exists (q ++ p). apply app_assoc. Qed.
Lemma suffix_cons x r s : suffix (x :: r) s -> suffix r s.
Proof. intros [p ->]. exists (p ++ [x]). rewrite <- app_assoc. reflexivity. Qed.
Lemma suffix_skipn n s : suffix (skipn n s) s.
Proof. exists (firstn n s). symmetry. apply firstn_skipn. Qed.
Lemma suffix_length a b : suffix a b -> length a <= length b.
Proof. intros [p ->]. rewrite app_length. lia. Qed.
Lemma suffix_ends a b : suffix a b -> ends_in_tag a -> ends_in_tag b.
Proof. intros [p ->] [q ->]. exists (p ++ q). apply app_assoc. Qed.

Lemma takeN_inv l r c r' : takeN l r = VOk (c, r') -> suffix r' r /\ length c + length r' = length r.
Proof.
  unfold takeN. destruct (N.of_nat (length r) <? l)%N; [discriminate|]. intro H. apply VOk_inj in H as [<- <-].
  split; [apply suffix_skipn|]. rewrite <- app_length, firstn_skipn. reflexivity.
Qed.
Lemma takeN_safe l r : takeN l r <> VPanic /\ takeN l r <> VFuel.
Proof. unfold takeN. destruct (N.of_nat (length r) <? l)%N; split; discriminate. Qed.

Lemma blockLen_inv t r l r' : blockLen t r = VOk (l, r') -> suffix r' r /\ length r' < length r.
Proof.
  unfold blockLen. destruct (byte_eqb t TC_BLOCKDATA).
  - destruct r as [|c r1]; [discriminate|]. intro H. apply VOk_inj in H as [<- <-]. split; [exists [c]; reflexivity|cbn; lia].
  - destruct (Nat.ltb_spec (length r) 4) as [?|Hl]; [discriminate|]. intro H. apply VOk_inj in H as [<- <-].
    split; [apply suffix_skipn|]. rewrite skipn_length. lia.
Qed.
Lemma blockLen_safe t r : blockLen t r <> VFuel /\ (blockLen t r = VPanic -> t = x77 /\ r = []).
Proof.
  unfold blockLen. destruct (byte_eqb t TC_BLOCKDATA) eqn:E.
  - apply byte_eqb_spec in E. destruct r; split; try discriminate. intros _. split; [exact E|reflexivity].
  - destruct (length r <? 4); split; discriminate.
Qed.

Lemma append_safe fuel : forall acc r, length r < fuel ->
  appendBlockBytes fuel acc r <> VFuel /\ (appendBlockBytes fuel acc r = VPanic -> ends_in_tag r) /\
  (forall c r', appendBlockBytes fuel acc r = VOk (c, r') -> suffix r' r).
Proof.
  induction fuel as [|f IH]; intros acc r Hf; [lia|]. cbn [appendBlockBytes].
  destruct r as [|t r1].
  - repeat split; try discriminate. intros c r' H. apply VOk_inj in H as [<- <-]. apply suffix_refl.
  - destruct (isBlockTag t) eqn:Et.
    2:{ repeat split; try discriminate. intros c r' H. apply VOk_inj in H as [<- <-]. exists [t]. reflexivity. }
    destruct (blockLen_safe t r1) as [Hb1 Hb2].
    destruct (blockLen t r1) as [[l r2]|e| |] eqn:Eb; cbn [vbind].
    + destruct (blockLen_inv _ _ _ _ Eb) as [Hs2 Hl2].
      destruct (takeN_safe l r2) as [Ht1 Ht2].
      destruct (takeN l r2) as [[c r3]|e| |] eqn:Ek; cbn [vbind]; try contradiction.
      * destruct (takeN_inv _ _ _ _ Ek) as [Hs3 Hl3]. cbn [length] in Hf.
        assert (Hs : suffix r3 (t :: r1)).
        { eapply suffix_trans; [exact Hs3|]. eapply suffix_trans; [exact Hs2|]. exists [t]. reflexivity. }
        destruct (l =? MAX_BLOCK_N)%N.
        -- destruct (IH (acc ++ c) r3 ltac:(lia)) as (I1 & I2 & I3). split; [exact I1|]. split.
           ++ intro Hp. eapply suffix_ends; [exact Hs|apply I2, Hp].
           ++ intros c' r' H. eapply suffix_trans; [apply (I3 _ _ H)|exact Hs].
        -- repeat split; try discriminate. intros c' r' H. apply VOk_inj in H as [<- <-]. exact Hs.
      * repeat split; discriminate.
    + repeat split; discriminate.
    + destruct (Hb2 eq_refl) as [-> ->]. split; [discriminate|]. split; [|discriminate]. intros _. exists []. reflexivity.
    + contradiction.
Qed.

Lemma getBlock_safe r : getBlock r <> VFuel /\ (getBlock r = VPanic -> ends_in_tag r) /\
  (forall c r', getBlock r = VOk (c, r') -> suffix r' r).
Proof.
  unfold getBlock. destruct r as [|t [|y r0]]; try (repeat split; discriminate).
  destruct (isBlockTag t) eqn:Et; [|repeat split; discriminate].
  destruct (blockLen_safe t (y :: r0)) as [Hb1 Hb2].
  destruct (blockLen t (y :: r0)) as [[l r2]|e| |] eqn:Eb; cbn [vbind].
  - destruct (blockLen_inv _ _ _ _ Eb) as [Hs2 Hl2].
    destruct (takeN_safe l r2) as [Ht1 Ht2].
    destruct (takeN l r2) as [[c r3]|e| |] eqn:Ek; cbn [vbind]; try contradiction; [|repeat split; discriminate].
    destruct (takeN_inv _ _ _ _ Ek) as [Hs3 Hl3].
    assert (Hs : suffix r3 (t :: y :: r0)).
    { eapply suffix_trans; [exact Hs3|]. eapply suffix_trans; [exact Hs2|]. exists [t]. reflexivity. }
    assert (Hdone : VOk (c, r3) <> VFuel /\ (VOk (c, r3) = VPanic -> ends_in_tag (t :: y :: r0)) /\
                    (forall c' r', VOk (c, r3) = VOk (c', r') -> suffix r' (t :: y :: r0))).
    { repeat split; try discriminate. intros c' r' H. apply VOk_inj in H as [<- <-]. exact Hs. }
    destruct (l =? MAX_BLOCK_N)%N; [|exact Hdone].
    destruct r3 as [|nt r4]; [exact Hdone|]. destruct (isBlockTag nt); [|exact Hdone].
    destruct (append_safe (S (length (nt :: r4))) c (nt :: r4) ltac:(lia)) as (I1 & I2 & I3).
    split; [exact I1|]. split.
    + intro Hp. eapply suffix_ends; [exact Hs|apply I2, Hp].
    + intros c' r' H. eapply suffix_trans; [apply (I3 _ _ H)|exact Hs].
  - repeat split; discriminate.
  - destruct (Hb2 eq_refl) as [_ H]. discriminate.
  - contradiction.
Qed.

Lemma readUtf_safe b : readUtf b <> VFuel /\ readUtf b <> VPanic /\
  (forall s b', readUtf b = VOk (s, b') -> length b' + 2 <= length b).
Proof.
  unfold readUtf. destruct (Nat.ltb_spec (length b) 2) as [?|Hl]; [repeat split; discriminate|]. cbv zeta.
  destruct (0 <? toSigned 16 (be 2 b))%Z.
  - destruct (Z.of_nat (length (skipn 2 b)) <? toSigned 16 (be 2 b))%Z; [repeat split; discriminate|].
    repeat split; try discriminate. intros s b' H. apply VOk_inj in H as [<- <-]. rewrite !skipn_length. lia.
  - repeat split; try discriminate. intros s b' H. apply VOk_inj in H as [<- <-]. rewrite skipn_length. lia.
Qed.

Lemma readKVs_safe fuel : forall n b acc, length b < fuel ->
  readKVs fuel n b acc <> VFuel /\ readKVs fuel n b acc <> VPanic.
Proof.
  induction fuel as [|f IH]; intros n b acc Hf; [lia|]. cbn [readKVs].
  destruct (n <=? 0)%Z; [split; discriminate|].
  destruct (readUtf_safe b) as (U1 & U2 & U3).
  destruct (readUtf b) as [[k b1]|e| |] eqn:E1; cbn [vbind]; try contradiction; [|split; discriminate].
  specialize (U3 _ _ eq_refl).
  destruct (readUtf_safe b1) as (V1 & V2 & V3).
  destruct (readUtf b1) as [[v b2]|e| |] eqn:E2; cbn [vbind]; try contradiction; [|split; discriminate].
  specialize (V3 _ _ eq_refl). apply IH. lia.
Qed.

Lemma readAttachments_safe ver b : readAttachments ver b <> VFuel /\ readAttachments ver b <> VPanic.
Proof.
  unfold readAttachments. destruct (length b <? _); [split; discriminate|]. cbv zeta.
  apply readKVs_safe. rewrite skipn_length. lia.
Qed.

Lemma skipByteArray_safe w r : skipByteArray w r <> VFuel /\ (w = false -> skipByteArray w r <> VPanic) /\
  (forall c r', skipByteArray w r = VOk (c, r') -> suffix r' r /\ length r' < length r).
Proof.
  unfold skipByteArray. destruct (Nat.ltb_spec (length r) 10) as [?|Hl]; [repeat split; discriminate|].
  assert (Hafter : forall r1, (suffix r1 r /\ length r1 < length r) ->
     forall x, x = (if length r1 <? 4 then VErr VEof
        else let l := be 4 r1 in let r2 := skipn 4 r1 in
         if w && (N.of_nat (length r2) <? l)%N then VPanic
         else if (N.of_nat (length r2) <? l)%N then VOk (r2, [])
         else VOk (firstn (N.to_nat l) r2, skipn (N.to_nat l) r2)) ->
     x <> VFuel /\ (w = false -> x <> VPanic) /\ (forall c r', x = VOk (c, r') -> suffix r' r /\ length r' < length r)).
  { intros r1 [Hs1 Hl1] x ->. destruct (length r1 <? 4); [repeat split; discriminate|]. cbv zeta.
    destruct w; cbn [andb].
    - destruct (N.of_nat (length (skipn 4 r1)) <? be 4 r1)%N; [repeat split; discriminate|].
      split; [discriminate|]. split; [discriminate|]. intros c r' H. apply VOk_inj in H as [<- <-]. split.
      + eapply suffix_trans; [apply suffix_skipn|]. eapply suffix_trans; [apply suffix_skipn|exact Hs1].
      + rewrite !skipn_length. lia.
    - destruct (N.of_nat (length (skipn 4 r1)) <? be 4 r1)%N; (split; [discriminate|]; split; [discriminate|]); intros c r' H; apply VOk_inj in H as [<- <-].
      + split; [exists r; rewrite app_nil_r; reflexivity|cbn; lia].
      + split.
        * eapply suffix_trans; [apply suffix_skipn|]. eapply suffix_trans; [apply suffix_skipn|exact Hs1].
        * rewrite !skipn_length. lia. }
  destruct (byte_eqb (nth 1 r x00) TC_CLASSDESC).
  - destruct (length r <? 23); cbn [vbind]; [repeat split; discriminate|].
    eapply Hafter; [|reflexivity]. split; [apply suffix_skipn|rewrite skipn_length; lia].
  - destruct (byte_eqb (nth 1 r x00) TC_REFERENCE); cbn [vbind]; [|repeat split; discriminate].
    eapply Hafter; [|reflexivity]. split; [apply suffix_skipn|rewrite skipn_length; lia].
Qed.

Lemma skipArgs_safe fuel : forall n r, length r < fuel ->
  skipArgs fuel n r <> VFuel /\ (skipArgs fuel n r = VPanic -> ends_in_tag r).
Proof.
  induction fuel as [|f IH]; intros n r Hf; [lia|]. cbn [skipArgs].
  destruct r as [|t r1]; [split; discriminate|]. cbn [length] in Hf.
  destruct (byte_eqb t TC_NULL).
  { destruct (IH (S n) r1 ltac:(lia)) as [I1 I2]. split; [exact I1|]. intro Hp. eapply suffix_ends; [|apply I2, Hp]. exists [t]. reflexivity. }
  destruct (byte_eqb t TC_ARRAY).
  { destruct (skipByteArray_safe false (t :: r1)) as (S1 & S2 & S3). specialize (S2 eq_refl).
    destruct (skipByteArray false (t :: r1)) as [[c r2]|e| |]; cbn [vbind]; try contradiction; [|split; discriminate].
    destruct (S3 _ _ eq_refl) as [Hs Hl]. cbn [length] in Hl.
    destruct (IH (S n) r2 ltac:(lia)) as [I1 I2]. split; [exact I1|]. intro Hp. eapply suffix_ends; [exact Hs|apply I2, Hp]. }
  destruct (isBlockTag t); [|split; discriminate].
  destruct (getBlock_safe (t :: r1)) as (G1 & G2 & _).
  destruct (getBlock (t :: r1)) as [[b r2]|e| |]; cbn [vbind]; try contradiction; split; try discriminate. intros _. apply G2, eq_refl.
Qed.

Lemma checkObjectStream_safe s : checkObjectStream s <> VFuel /\ (checkObjectStream s = VPanic -> ends_in_tag s) /\
  (forall c r', checkObjectStream s = VOk (c, r') -> suffix r' s).
Proof.
  unfold checkObjectStream. destruct (length s <? 4); [repeat split; discriminate|].
  destruct (bs_eqb (firstn 4 s) osHeader); [|repeat split; discriminate].
  destruct (getBlock_safe (skipn 4 s)) as (G1 & G2 & G3). split; [exact G1|]. split.
  - intro Hp. eapply suffix_ends; [apply suffix_skipn|apply G2, Hp].
  - intros c r' H. eapply suffix_trans; [apply (G3 _ _ H)|apply suffix_skipn].
Qed.

Lemma readInfos_safe b : readInfos b <> VFuel /\ readInfos b <> VPanic.
Proof.
  unfold readInfos.
  destruct (readUtf_safe b) as (U1 & U2 & _). destruct (readUtf b) as [[i0 b1]|e| |]; cbn [vbind]; try contradiction; [|split; discriminate].
  destruct (readUtf_safe b1) as (V1 & V2 & _). destruct (readUtf b1) as [[i1 b2]|e| |]; cbn [vbind]; try contradiction; [|split; discriminate].
  destruct (bs_eqb i0 (s2b "1")); [split; discriminate|].
  destruct (readUtf_safe b2) as (W1 & W2 & _). destruct (readUtf b2) as [[i2 b3]|e| |]; cbn [vbind]; try contradiction; split; discriminate.
Qed.

Lemma parseReq_safe ver s : parseReq ver s <> VFuel /\ (parseReq ver s = VPanic -> ends_in_tag s).
Proof.
  unfold parseReq. destruct (checkObjectStream_safe s) as (C1 & C2 & C3).
  destruct (checkObjectStream s) as [[sb r]|e| |]; cbn [vbind]; try contradiction; try (split; discriminate).
  2:{ split; [discriminate|]. intros _. apply C2, eq_refl. }
  specialize (C3 _ _ eq_refl).
  destruct (readInfos_safe sb) as (I1 & I2).
  destruct (readInfos sb) as [[[[svc mth] dsc] sb1]|e| |]; cbn [vbind]; try contradiction; [|split; discriminate].
  destruct sb1 as [|y sb1].
  - destruct (skipArgs_safe (S (length r)) 0 r ltac:(lia)) as (S1 & S2).
    destruct (skipArgs (S (length r)) 0 r) as [[[n r1] ab]|e| |]; cbn [vbind]; try contradiction; try (split; discriminate).
    + destruct (readAttachments_safe ver ab) as (A1 & A2).
      destruct (readAttachments ver ab); cbn [vbind]; try contradiction; split; discriminate.
    + split; [discriminate|]. intros _. eapply suffix_ends; [exact C3|apply S2, eq_refl].
  - destruct (readAttachments_safe ver (y :: sb1)) as (A1 & A2).
    destruct (readAttachments ver (y :: sb1)); cbn [vbind]; try contradiction; split; discriminate.
Qed.

Lemma be_be_field k i s : be k (skipn i s) = be_field s i k.
Proof. unfold be, be_field. apply getUint_BigE_fold. Qed.

Lemma skipByteArray_panic r : skipByteArray true r = VPanic -> exists k, (k = 6 \/ k = 19) /\ k + 4 <= length r /\
  (N.of_nat (length r - (k + 4)) < be_field r k 4)%N.
Proof.
  unfold skipByteArray. destruct (length r <? 10); [discriminate|].
  assert (G : forall k, (k = 6 \/ k = 19) ->
    (if length (skipn k r) <? 4 then VErr VEof
     else let l := be 4 (skipn k r) in let r2 := skipn 4 (skipn k r) in
         if true && (N.of_nat (length r2) <? l)%N then VPanic
         else if (N.of_nat (length r2) <? l)%N then VOk (r2, [])
         else VOk (firstn (N.to_nat l) r2, skipn (N.to_nat l) r2)) = VPanic ->
    exists k, (k = 6 \/ k = 19) /\ k + 4 <= length r /\ (N.of_nat (length r - (k + 4)) < be_field r k 4)%N).
  { intros k Hk. destruct (Nat.ltb_spec (length (skipn k r)) 4) as [?|Hl]; [discriminate|]. cbv zeta. cbn [andb].
    destruct (N.ltb_spec (N.of_nat (length (skipn 4 (skipn k r)))) (be 4 (skipn k r))) as [Hlt|?]; [|discriminate]. intros _.
    exists k. rewrite !skipn_length in *. rewrite be_be_field in Hlt. split; [exact Hk|]. split; [lia|].
    replace (length r - (k + 4)) with (length r - k - 4) by lia. exact Hlt. }
  destruct (byte_eqb (nth 1 r x00) TC_CLASSDESC).
  - destruct (length r <? 23); [discriminate|]. cbn [vbind]. apply (G 19). auto.
  - destruct (byte_eqb (nth 1 r x00) TC_REFERENCE); [|discriminate]. cbn [vbind]. apply (G 6). auto.
Qed.
Lemma parseRes_safe flag s : parseRes flag s <> VFuel /\
  (parseRes flag s = VPanic -> ends_in_tag s \/ (flag = x01 /\ cut_array s)).
Proof.
  unfold parseRes. destruct (checkObjectStream_safe s) as (C1 & C2 & C3).
  destruct (checkObjectStream s) as [[sb r]|e| |]; cbn [vbind]; try contradiction; try (split; discriminate).
  2:{ split; [discriminate|]. intros _. left. apply C2, eq_refl. }
  unfold readLong. destruct (length sb <? 8); cbn [vbind]; [split; discriminate|].
  destruct (byte_eqb flag FLAG_RESPONSE_EXCEPTION); [split; discriminate|].
  destruct (byte_eqb flag FLAG_RESPONSE) eqn:Ef; [|split; discriminate].
  apply byte_eqb_spec in Ef.
  destruct (readUtf (skipn 8 sb)) as [[c b']|e| |]; try (split; discriminate).
  destruct (bs_eqb c javaString); [|split; discriminate].
  destruct (skipByteArray_safe true r) as (S1 & _). pose proof (skipByteArray_panic r) as SP.
  destruct (skipByteArray true r) as [[cc rr]|e| |]; try (split; discriminate); try contradiction.
  split; [discriminate|]. intros _. right. split; [exact Ef|].
  destruct (C3 _ _ eq_refl) as [p0 E]. destruct (SP eq_refl) as (k & K1 & K2 & K3).
  exists p0, r, k. repeat split; assumption.
Qed.

(* ------------------------------------------------------------------ frames, arbitrary input *)

Lemma skipn_firstn_be k i n (s : bs) : i + k <= n -> be k (skipn i (firstn n s)) = be k (skipn i s).
Proof.
  intro H. unfold be. rewrite skipn_firstn_comm, firstn_firstn, Nat.min_l by lia. reflexivity.
Qed.

Lemma ROkV1_inj a a' b b' : ROkV1 a b = ROkV1 a' b' -> a = a' /\ b = b'.
Proof. intro H. inversion H. auto. Qed.

Lemma readV1_accepts max s m rest : readV1 max s = ROkV1 m rest ->
  s = vOrigin m ++ rest /\ N.of_nat (length (vOrigin m)) = (16 + be_field s 12 4)%N /\
  (16 <= be_field s 12 4 <= max)%N /\ be_field s 16 2 = 61680%N /\ be_field s 28 4 = vInner m /\
  (vInner m + 16 = be_field s 12 4)%N /\ vRid m = be_field s 20 8 /\
  nth_error s 18 = Some (vVersion m) /\ nth_error s 19 = Some (vFlag m).
Proof.
  unfold readV1. unfold V1L1HeaderLength.
  destruct (Nat.ltb_spec (length s) 16) as [?|Hl]; [discriminate|]. cbv zeta.
  destruct (N.ltb_spec (16 + be 4 (skipn 12 s)) 32) as [?|H32]; [discriminate|].
  destruct (N.ltb_spec (16 + max) (16 + be 4 (skipn 12 s))) as [?|Hmax]; [discriminate|]. cbn [orb].
  destruct (N.ltb_spec (N.of_nat (length s)) (16 + be 4 (skipn 12 s))) as [?|Hlen]; [discriminate|].
  set (len := N.to_nat (16 + be 4 (skipn 12 s))).
  assert (Hn : 32 <= len /\ len <= length s) by (unfold len; lia).
  rewrite !skipn_firstn_be by lia.
  destruct (N.eqb_spec (be 2 (skipn 16 s)) 61680) as [Hmn|?]; [|discriminate]. cbn [negb].
  destruct (N.eqb_spec (be 4 (skipn 28 s) + 32) (16 + be 4 (skipn 12 s))) as [Hin|?]; [|discriminate]. cbn [negb].
  intro H. apply ROkV1_inj in H as [<- <-]. cbn [vOrigin vInner vRid vVersion vFlag]. rewrite <- !be_be_field.
  assert (Hnth : forall i, i < 32 -> nth_error s i = Some (nth i (firstn len s) x00)).
  { intros i Hi. rewrite <- (firstn_skipn len s) at 1. rewrite nth_error_app1 by (rewrite firstn_length; lia).
    apply nth_error_nth'. rewrite firstn_length. lia. }
  split; [symmetry; apply firstn_skipn|]. split; [rewrite firstn_length; unfold len; lia|].
  split; [lia|]. split; [exact Hmn|]. split; [reflexivity|]. split; [lia|]. split; [reflexivity|].
  split; apply Hnth; lia.
Qed.

Lemma readV1_consumes max s e rest : readV1 max s = RErrV1 e rest -> exists p, s = p ++ rest /\
  (p = [] \/ (e = VEof /\ rest = [] /\ (N.of_nat (length s) < 16 + be_field s 12 4)%N) \/ N.of_nat (length p) = (16 + be_field s 12 4)%N).
Proof.
  unfold readV1. unfold V1L1HeaderLength. rewrite <- !be_be_field.
  destruct (Nat.ltb_spec (length s) 16) as [?|Hl].
  { intro H0. injection H0 as <- <-. exists []. auto. }
  cbv zeta.
  destruct ((16 + be 4 (skipn 12 s) <? 32)%N || (16 + max <? 16 + be 4 (skipn 12 s))%N).
  { intro H0. injection H0 as <- <-. exists []. auto. }
  destruct (N.ltb_spec (N.of_nat (length s)) (16 + be 4 (skipn 12 s))) as [Hlt|Hlen].
  { intro H0. injection H0 as <- <-. exists s. rewrite app_nil_r. split; [reflexivity|]. right. left. auto. }
  set (len := N.to_nat (16 + be 4 (skipn 12 s))).
  assert (Hp : forall r, r = skipn len s -> exists p, s = p ++ r /\
     (p = [] \/ (e = VEof /\ r = [] /\ (N.of_nat (length s) < 16 + be 4 (skipn 12 s))%N) \/ N.of_nat (length p) = (16 + be 4 (skipn 12 s))%N)).
  { intros r ->. exists (firstn len s). split; [symmetry; apply firstn_skipn|]. right. right. rewrite firstn_length. unfold len. lia. }
  destruct (negb _); [intro H0; injection H0 as <- <-; apply Hp; reflexivity|].
  destruct (negb _); [intro H0; injection H0 as <- <-; apply Hp; reflexivity|discriminate].
Qed.

Lemma readV1_truncated max p t m rest : readV1 max (p ++ t) = ROkV1 m rest -> length p < length (vOrigin m) ->
  exists r, readV1 max p = RErrV1 VEof r.
Proof.
  intros H Hlt. pose proof (readV1_accepts _ _ _ _ H) as (Hs & Hlo & Hrange & _).
  unfold readV1, V1L1HeaderLength. destruct (Nat.ltb_spec (length p) 16) as [?|Hl]; [eexists; reflexivity|]. cbv zeta.
  assert (Hb : be 4 (skipn 12 p) = be 4 (skipn 12 (p ++ t))).
  { unfold be. rewrite skipn_app. replace (12 - length p) with 0 by lia. rewrite firstn_app, skipn_length.
    replace (4 - (length p - 12)) with 0 by lia. rewrite firstn_O, app_nil_r. reflexivity. }
  rewrite Hb. rewrite <- be_be_field in Hlo, Hrange.
  replace (16 + be 4 (skipn 12 (p ++ t)) <? 32)%N with false by lia.
  replace (16 + max <? 16 + be 4 (skipn 12 (p ++ t)))%N with false by lia. cbn [orb].
  replace (N.of_nat (length p) <? 16 + be 4 (skipn 12 (p ++ t)))%N with true by lia. eexists; reflexivity.
Qed.

Lemma readAllV1_frames max l : forall fuel,
  Forall (fun x => let '(tag, ver, flag, rid, stream) := x in v1_frame_ok max tag rid stream) l -> length l <= fuel ->
  readAllV1 fuel max (concat (map (fun x => let '(tag, ver, flag, rid, stream) := x in v1_frame tag ver flag rid stream) l)) =
  Some (map (fun x => let '(tag, ver, flag, rid, stream) := x in
             mkV1 (v1_frame tag ver flag rid stream) ver flag rid (N.of_nat (length stream))) l).
Proof.
  induction l as [|[[[[tag ver] flag] rid] stream] l IH]; intros fuel Hok Hf; [destruct fuel; reflexivity|].
  destruct fuel as [|f]; [cbn in Hf; lia|]. inversion Hok as [|? ? H1 H2]; subst. cbn [map concat].
  assert (Hne : v1_frame tag ver flag rid stream <> []).
  { intro E. apply (f_equal (@length byte)) in E. rewrite v1_frame_length in E by apply H1. cbn in E. lia. }
  assert (Hr := readV1_frame max tag ver flag rid stream (concat (map (fun x => let '(tag, ver, flag, rid, stream) := x in v1_frame tag ver flag rid stream) l)) H1).
  remember (concat (map (fun x => let '(tag, ver, flag, rid, stream) := x in v1_frame tag ver flag rid stream) l)) as q eqn:Eq.
  destruct (v1_frame tag ver flag rid stream ++ q) as [|x xs] eqn:Ex.
  { apply app_eq_nil in Ex as [Ex _]. contradiction. }
  cbn [readAllV1]. rewrite Hr. subst q. rewrite IH by (auto; cbn in Hf; lia). reflexivity.
Qed.
