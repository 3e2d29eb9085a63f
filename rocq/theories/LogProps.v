(* LogProps.v: C88. *)
From Verif Require Import Base GoStrings GoStrings2 Strconv UrlModel LogModel LogSpec LogProofs.
From Coq Require Import Permutation Sorted.
Ltac Zify.zify_post_hook ::= idtac.

(* Whatever is written, rotated, closed, cleaned and restarted, in any order, with system calls failing at any point
   (except the stat just before a log is moved aside): what was in the log at the start followed by everything that
   was reported as written is what the files moved aside had in them, in the order of the moves, followed by what is
   in the log now. *)
Theorem C88_stream : forall gzip c fs l s ev, Forall stat_works l -> Forall sorts l -> logRun gzip c (start fs) l = (s, ev) ->
  content fs (l_name c) ++ written ev = concat (map snd (backed ev)) ++ content (w_fs s) (l_name c).
Proof.
  intros gzip c fs l s ev F S H. destruct (run_stream gzip c l (start fs) s ev F (sorts_ord l S) (start_open c fs) (start_todo c fs) H) as (_ & _ & Q). exact Q.
Qed.
Print Assumptions C88_stream.

(* If no two rotations fall into the same hour, and nothing else has the name of a backup, every file moved aside and
   every other file of the directory keeps its content, plain or compressed, until the cleaning deletes it. *)
Theorem C88_kept : forall gzip gunzip c fs l s ev, (forall x, gunzip (gzip x) = Some x) -> clock_ok c ->
  Forall stat_works l -> Forall sorts l -> logRun gzip c (start fs) l = (s, ev) ->
  NoDup (akeys fs) -> apart (map fst (around c fs)) -> (forall k, In k (akeys fs) -> k ++ s2b ".gz" <> l_name c) ->
  NoDup (map (fun b => wall_hour c (fst (fst b))) (backed ev)) ->
  (forall t n x, In (t, n, x) (backed ev) -> time_ok c t /\ unused (around c fs) n) ->
  forall n x, In (n, x) (around c fs) \/ (exists t, In (t, n, x) (backed ev)) ->
    ~ In n (removed ev) -> ~ In (n ++ s2b ".gz") (removed ev) -> retrievable gunzip (w_fs s) n x.
Proof. exact kept_all. Qed.
Print Assumptions C88_kept.

(* Nothing is deleted unless a number of backups or an age is configured. *)
Theorem C88_no_limit : forall gzip c fs l s ev, l_maxBackups c = 0%Z -> l_maxAge c = 0%Z -> logRun gzip c (start fs) l = (s, ev) -> removed ev = [].
Proof. intros gzip c fs l s ev B A H. apply (run_keeps gzip c l B A (start fs) s ev); [intros k []|exact H]. Qed.
Print Assumptions C88_no_limit.

(* A log that starts within the size limit stays within it, and so do the files moved aside. *)
Theorem C88_size : forall gzip c fs l s ev, Forall stat_works l -> Forall sorts l -> logRun gzip c (start fs) l = (s, ev) ->
  (0 <= maxBytes c)%Z -> (Z.of_nat (length (content fs (l_name c))) <= maxBytes c)%Z ->
  (Z.of_nat (length (content (w_fs s) (l_name c))) <= maxBytes c)%Z /\
  forall t n x, In (t, n, x) (backed ev) -> (Z.of_nat (length x) <= maxBytes c)%Z.
Proof.
  intros gzip c fs l s ev F S H L L0. destruct (run_small gzip c l (start fs) s ev F (sorts_ord l S) (start_open c fs) (start_todo c fs) L L0 H) as [Q1 Q2].
  split; [exact Q1|]. intros t n x I. rewrite Forall_forall in Q2. apply Q2. apply in_map_iff. exists (t, n, x). auto.
Qed.
Print Assumptions C88_size.

(* The limit is the configured number of megabytes, or 2^50 bytes when none is configured. *)
Theorem C88_limit : forall c, ((0 < l_maxSize c < 8796093022208)%Z -> maxBytes c = (l_maxSize c * (1024 * 1024))%Z) /\ (l_maxSize c = 0%Z -> maxBytes c = (2 ^ 50)%Z).
Proof.
  intro c. unfold maxBytes. split; intro H.
  - destruct (Z.eqb_spec (l_maxSize c) 0) as [E|E]; [lia|]. unfold wrapI64. rewrite Z.mod_small by lia. lia.
  - rewrite H. reflexivity.
Qed.
Print Assumptions C88_limit.

(* One write goes to one file: what was taken of it is the end of the log afterwards.  A write that does not fit into
   any file is refused and changes nothing; where nothing fails every other write is taken in full. *)
Theorem C88_write : forall gzip c fs l s ev p t f n s' ev' r, Forall stat_works l -> Forall sorts l -> logRun gzip c (start fs) l = (s, ev) ->
  f_stat2 f = false -> writeLog c p t f n s = (s', ev', r) ->
  match r with
  | Some m => m = length (firstn n p) /\ exists before, content (w_fs s') (l_name c) = before ++ firstn n p
  | None => written ev' = []
  end /\
  ((maxBytes c < Z.of_nat (length p))%Z -> r = None /\ s' = s) /\
  ((Z.of_nat (length p) <= maxBytes c)%Z -> f = noFlt -> length p <= n -> r = Some (length p)).
Proof.
  intros gzip c fs l s ev p t f n s' ev' r F S H F2 W.
  destruct (run_stream gzip c l (start fs) s ev F (sorts_ord l S) (start_open c fs) (start_todo c fs) H) as (O & _ & _). split; [|split].
  - apply write_ok in W as (s1 & ev1 & M & _ & R); auto. destruct r as [m|].
    + destruct R as (-> & -> & -> & _). split; [reflexivity|]. exists (cur c s1). exact (append_cur c s1 _).
    + destruct R as (_ & ->). destruct M; reflexivity.
  - intro L. unfold writeLog in W. destruct (Z.ltb_spec (maxBytes c) (Z.of_nat (length p))) as [Q|Q]; [|lia]. injection W as <- <- <-. auto.
  - intros L -> Ln.
    assert (OK : forall t s, snd (openNew c t noFlt s) = true).
    { intros t0 s0. unfold openNew. cbn. destruct (aget bs_eqb (w_fs s0) (l_name c)); reflexivity. }
    assert (RK : forall t s, snd (rotate c t noFlt s) = true).
    { intros t0 s0. unfold rotate. destruct (w_open s0); apply OK. }
    destruct r as [m|].
    + apply write_ok in W as (s1 & ev1 & _ & _ & R); auto. destruct R as (_ & _ & -> & _). rewrite firstn_all2 by exact Ln. reflexivity.
    + exfalso. unfold writeLog in W. destruct (Z.ltb_spec (maxBytes c) (Z.of_nat (length p))) as [Q|Q]; [lia|].
      assert (E1 : exists s1 ev1 k, match w_open s with Some _ => (s, [], true) | None => openExisting c (Z.of_nat (length p)) t noFlt s end = (s1, ev1, true) /\ w_open s1 = Some k).
      { destruct (w_open s) as [k|] eqn:Os; [exists s, [], k; auto|]. destruct (openExisting c (Z.of_nat (length p)) t noFlt s) as [[s1 ev1] ok] eqn:E.
        assert (ok = true) as ->.
        { unfold openExisting in E. cbn [f_stat f_append noFlt] in E. destruct (aget bs_eqb (w_fs s) (l_name c)).
          - destruct (maxBytes c <=? _)%Z; [pose proof (RK t s) as K; rewrite E in K; exact K|]. injection E as <- <- <-. reflexivity.
          - pose proof (OK t s) as K. rewrite E in K. exact K. }
        apply openExisting_ok in E as (_ & _ & E & _); [|reflexivity|exact Os|lia]. destruct (E eq_refl) as (k & E' & _). exists s1, ev1, k. auto. }
      destruct E1 as (s1 & ev1 & k & E1 & K1). rewrite E1 in W. cbn [negb] in W. rewrite K1 in W.
      assert (E2 : exists s2 ev2 k2, (if (maxBytes c <? k + Z.of_nat (length p))%Z then rotate c t noFlt s1 else (s1, [], true)) = (s2, ev2, true) /\ w_open s2 = Some k2).
      { destruct (maxBytes c <? k + Z.of_nat (length p))%Z; [|exists s1, [], k; auto]. destruct (rotate c t noFlt s1) as [[s2 ev2] ok] eqn:E. pose proof (RK t s1) as K. rewrite E in K. cbn in K. subst ok.
        apply rotate_ok in E as (_ & _ & E & _); [|reflexivity]. destruct (E eq_refl) as [_ E']. exists s2, ev2, 0%Z. auto. }
      destruct E2 as (s2 & ev2 & k2 & E2 & K2). rewrite E2 in W. cbn [negb] in W. rewrite K2 in W. discriminate W.
Qed.
Print Assumptions C88_write.

(* The cleaning touches backups of this log only.  It deletes the backups that are older than the newest MaxBackups
   hours or than MaxAge days, and those alone; the others stay, compressed if that is configured. *)
Theorem C88_clean : forall gzip c ord now fs n, dir_ok c fs -> newest_first ord -> (l_maxAge c <= 106751)%Z ->
  let fs' := cleanAll gzip c ord now fs in
  ((forall h, ~ is_backup c n h) -> aget bs_eqb fs' n = aget bs_eqb fs n) /\
  forall h x, aget bs_eqb fs n = Some x -> is_backup c n h ->
    (too_many c fs h \/ too_old c now h -> aget bs_eqb fs' n = None) /\
    (~ too_many c fs h -> ~ too_old c now h ->
       (l_compress c = false \/ (exists r, n = r ++ s2b ".gz" /\ aget bs_eqb fs r = None) -> aget bs_eqb fs' n = Some x) /\
       (l_compress c = true -> (~ exists r, n = r ++ s2b ".gz") -> aget bs_eqb fs' n = None /\ aget bs_eqb fs' (n ++ s2b ".gz") = Some (gzip x))).
Proof. exact clean_spec. Qed.
Print Assumptions C88_clean.
(* A rotated log is such a backup, of the hour it is named after; the log itself is none. *)
Theorem C88_recognised : forall c t, clock_ok c -> time_ok c t ->
  is_backup c (backupName c t) (if l_perHour c then wall_hour c t - 1 else wall_hour c t)%Z /\ forall h, ~ is_backup c (l_name c) h.
Proof. intros c t C T. split; [exact (backup_time c t C T)|]. intros h B. apply backupTime_pre in B. rewrite name_not_pre in B. discriminate B. Qed.
Print Assumptions C88_recognised.
(* What is taken for a backup of this log: its name, a dash, an hour, its extension, and perhaps .gz. *)
Theorem C88_backup_name : forall c n h, ~ In x2d (fileExt (l_name c)) -> is_backup c n h ->
  exists st e, n = fileBase (l_name c) ++ s2b "-" ++ st ++ e /\ l_parse c st = Some h /\ (e = fileExt (l_name c) \/ e = fileExt (l_name c) ++ s2b ".gz").
Proof.
  intros c n h D B.
  assert (G : forall e, (e = fileExt (l_name c) \/ e = fileExt (l_name c) ++ gzSuffix) -> timeFromName c n e = Some h ->
    exists st, n = fileBase (l_name c) ++ s2b "-" ++ st ++ e /\ l_parse c st = Some h).
  { intros e E T. unfold timeFromName in T. destruct (hasPrefix n _) eqn:P; [|discriminate]. destruct (hasSuffix n e) eqn:X; [|discriminate]. cbn [negb] in T.
    pose proof (slice_ok c n e D E P X) as L. apply hasPrefix_spec in P as [r ->]. apply hasSuffix_spec in X as [q Q]. rewrite Q in L.
    rewrite (app_length q e) in L. assert (Lr : length (fileBase (l_name c) ++ s2b "-") <= length q) by lia.
    assert (exists st, q = (fileBase (l_name c) ++ s2b "-") ++ st /\ r = st ++ e) as (st & -> & ->).
    { pose proof (f_equal (firstn (length q)) Q) as F. rewrite firstn_app_exact in F. rewrite firstn_app, firstn_all2 in F by exact Lr.
      exists (firstn (length q - length (fileBase (l_name c) ++ s2b "-")) r). split; [symmetry; exact F|]. rewrite <- F in Q at 1. rewrite <- !app_assoc in Q. apply app_inv_head in Q. apply app_inv_head in Q. exact Q. }
    exists st. split; [rewrite <- !app_assoc; reflexivity|]. rewrite <- T. f_equal. rewrite skipn_app_exact.
    replace (_ - _ - _) with (length st) by (rewrite !app_length; lia). rewrite firstn_app_exact. reflexivity. }
  unfold is_backup, backupTime in B. destruct (timeFromName c n (fileExt (l_name c))) as [h0|] eqn:T.
  - injection B as ->. destruct (G _ (or_introl eq_refl) T) as (st & E1 & E2). exists st, (fileExt (l_name c)). auto.
  - destruct (G _ (or_intror eq_refl) B) as (st & E1 & E2). exists st, (fileExt (l_name c) ++ gzSuffix). auto.
Qed.
Print Assumptions C88_backup_name.
(* Reading the hour out of a name never goes out of range, unless the extension contains a dash. *)
Theorem C88_no_panic : forall c n e, ~ In x2d (fileExt (l_name c)) -> e = fileExt (l_name c) \/ e = fileExt (l_name c) ++ gzSuffix ->
  hasPrefix n (fileBase (l_name c) ++ s2b "-") = true -> hasSuffix n e = true -> length (fileBase (l_name c) ++ s2b "-") <= length n - length e.
Proof. exact slice_ok. Qed.
Print Assumptions C88_no_panic.

(* Finding: two rotations in one hour.  The second backup takes the name of the first and replaces it: what the first
   one held is gone, whatever the configuration.  (The clocks are the wall clock's: one hour of the autumn has two.) *)
Theorem C88_same_hour_refuted : forall gzip c fs x p t1 t t2 s ev, aget bs_eqb fs (l_name c) = Some x -> (Z.of_nat (length p) <= maxBytes c)%Z ->
  wall_hour c t1 = wall_hour c t2 ->
  logRun gzip c (start fs) [LRotate t1 noFlt; LWrite p t noFlt (length p); LRotate t2 noFlt] = (s, ev) ->
  backed ev = [(t1, backupName c t1, x); (t2, backupName c t1, p)] /\ removed ev = [] /\
  aget bs_eqb (w_fs s) (l_name c) = Some [] /\ aget bs_eqb (w_fs s) (backupName c t1) = Some p /\
  forall n, n <> l_name c -> n <> backupName c t1 -> aget bs_eqb (w_fs s) n = aget bs_eqb fs n.
Proof.
  intros gzip c fs x p t1 t t2 s ev X L W H. pose proof (not_name c _ (pre_backup c t1)) as NB.
  destruct (rotate_plain c t1 (start fs) x X) as (f1 & R1 & A1 & B1 & C1).
  destruct (write_plain c p t (mkW f1 (Some 0%Z) []) 0 [] eq_refl A1 L ltac:(lia)) as (f2 & R2 & A2 & C2).
  destruct (rotate_plain c t2 (mkW f2 (Some (0 + Z.of_nat (length p))%Z) []) p A2) as (f3 & R3 & A3 & B3 & C3).
  rewrite <- (backupName_same c t1 t2 W) in *. cbn [logRun logStep] in H. rewrite R1 in H. cbn [fst w_todo start] in H. rewrite R2 in H. cbn [fst w_todo] in H. rewrite R3 in H. cbn in H.
  injection H as <- <-. cbn [backed removed flat_map app w_fs]. split; [reflexivity|]. split; [reflexivity|]. split; [exact A3|]. split; [exact B3|].
  intros n N1 N2. rewrite C3, C2, C1 by assumption. reflexivity.
Qed.
Print Assumptions C88_same_hour_refuted.

(* Finding: with hourly rotation a single rotation for size is enough: at the beginning of an hour the log is moved to
   the name of the hour before, and the rotation for size later in that hour uses the same name again. *)
Theorem C88_hourly_and_size_refuted : forall gzip c fs x p q t1 t t2 s ev, aget bs_eqb fs (l_name c) = Some x ->
  (Z.of_nat (length p) <= maxBytes c)%Z -> (Z.of_nat (length q) <= maxBytes c)%Z -> (maxBytes c < Z.of_nat (length p) + Z.of_nat (length q))%Z ->
  l_perHour c = true -> ((t1 + l_zone c) mod nsHour = 0)%Z -> (t1 <= t2 < t1 + nsHour)%Z ->
  logRun gzip c (start fs) [LRotate t1 noFlt; LWrite p t noFlt (length p); LWrite q t2 noFlt (length q)] = (s, ev) ->
  backed ev = [(t1, backupName c t1, x); (t2, backupName c t1, p)] /\ aget bs_eqb (w_fs s) (backupName c t1) = Some p /\
  aget bs_eqb (w_fs s) (l_name c) = Some q /\
  forall n, n <> l_name c -> n <> backupName c t1 -> aget bs_eqb (w_fs s) n = aget bs_eqb fs n.
Proof.
  intros gzip c fs x p q t1 t t2 s ev X L1 L2 L3 PH Z T H. pose proof (not_name c _ (pre_backup c t1)) as NB.
  assert (W : wall_hour c t1 = wall_hour c t2).
  { unfold wall_hour. pose proof (Z.div_mod (t1 + l_zone c) nsHour ltac:(discriminate)) as E. rewrite Z in E.
    assert (G : (t2 + l_zone c)%Z = (nsHour * ((t1 + l_zone c) / nsHour) + (t2 - t1))%Z) by lia.
    apply (Z.div_unique (t2 + l_zone c) nsHour ((t1 + l_zone c) / nsHour) (t2 - t1)); [left; lia|exact G]. }
  destruct (rotate_plain c t1 (start fs) x X) as (f1 & R1 & A1 & B1 & C1).
  destruct (write_plain c p t (mkW f1 (Some 0%Z) []) 0 [] eq_refl A1 L1 ltac:(lia)) as (f2 & R2 & A2 & C2).
  set (s2 := mkW f2 (Some (0 + Z.of_nat (length p))%Z) []) in *.
  destruct (rotate_plain c t2 s2 p A2) as (f3 & R3 & A3 & B3 & C3).
  assert (R4 : writeLog c q t2 noFlt (length q) s2 = (mkW (aset bs_eqb f3 (l_name c) q) (Some (Z.of_nat (length q))) [], [EBackup t2 (backupName c t2) p; EWrote q], Some (length q))).
  { unfold writeLog. destruct (Z.ltb_spec (maxBytes c) (Z.of_nat (length q))) as [Q|Q]; [lia|]. cbn [s2 w_open negb].
    destruct (Z.ltb_spec (maxBytes c) (0 + Z.of_nat (length p) + Z.of_nat (length q))) as [Q2|Q2]; [|lia]. fold s2. rewrite R3. cbn [negb w_open w_fs w_todo app s2].
    unfold content. rewrite A3. rewrite firstn_all. reflexivity. }
  rewrite <- (backupName_same c t1 t2 W) in *. cbn [logRun logStep] in H. rewrite R1 in H. cbn [fst w_todo start] in H. rewrite R2 in H. cbn [fst w_todo] in H. fold s2 in H. rewrite R4 in H. cbn in H.
  injection H as <- <-. cbn [backed flat_map app w_fs]. split; [reflexivity|]. split; [|split].
  - rewrite (aget_aset bs_eqb bs_eqb_spec). apply bs_eqb_neq in NB. rewrite NB. exact B3.
  - apply aset_get.
  - intros n N1 N2. rewrite (aget_aset bs_eqb bs_eqb_spec). pose proof N1 as N1'. apply bs_eqb_neq in N1'. rewrite N1', C3 by assumption. cbn [s2 w_fs]. rewrite C2, C1 by assumption. reflexivity.
Qed.
Print Assumptions C88_hourly_and_size_refuted.

(* Finding: a rotation whose stat of the log fails, for whatever reason, takes the log to be missing and empties it. *)
Theorem C88_stat_refuted : forall gzip c fs x t s ev, aget bs_eqb fs (l_name c) = Some x ->
  logRun gzip c (start fs) [LRotate t (mkFlt false true false false false false false false false)] = (s, ev) ->
  aget bs_eqb (w_fs s) (l_name c) = Some [] /\ ev = [] /\ forall n, n <> l_name c -> aget bs_eqb (w_fs s) n = aget bs_eqb fs n.
Proof.
  intros gzip c fs x t s ev X H. cbn [logRun logStep] in H. unfold rotate, openNew in H. cbn [start w_open w_fs f_mkdir f_stat2] in H. rewrite X in H. cbn in H. injection H as <- <-. cbn [w_fs].
  split; [apply aset_get|]. split; [reflexivity|]. intros n N. rewrite (aget_aset bs_eqb bs_eqb_spec). apply bs_eqb_neq in N. rewrite N. reflexivity.
Qed.
Print Assumptions C88_stat_refuted.

(* Finding: an age of more than 106751 days overflows.  With 200000 days every backup is deleted at once. *)
Theorem C88_age_refuted : forall c ord now fs n h, l_maxBackups c = 0%Z -> l_maxAge c = 200000%Z -> newest_first ord ->
  In n (akeys fs) -> is_backup c n h -> (h * nsHour <= now)%Z -> In (TRemove n) (millTasks c ord now fs).
Proof.
  intros c ord now fs n h B A O I K L. unfold millTasks. rewrite B, A. change (0 =? 0)%Z with true. change (200000 =? 0)%Z with false. change (0 <? 0)%Z with false. change (0 <? 200000)%Z with true. cbn [andb].
  cbv zeta. apply in_or_app. left. cbn [app]. apply in_map_iff. exists (h, n). split; [reflexivity|]. apply filter_In. split.
  - apply (Permutation_in (h, n) (Permutation_sym (proj1 (O _)))). apply In_old. auto.
  - cbn [fst]. apply Z.ltb_lt. change (wrapI64 (24 * nsHour * 200000)) with (-1166744073709551616)%Z. lia.
Qed.
Print Assumptions C88_age_refuted.

(* Finding: names are written in local time and read as UTC.  West of Greenwich backups look older than they are: with an
   age of one day and eight hours of difference, a log rotated 17 hours ago is deleted. *)
Theorem C88_zone_refuted : forall c t, clock_ok c -> l_perHour c = false -> l_zone c = (- 8 * nsHour)%Z -> l_maxAge c = 1%Z -> time_ok c t ->
  exists h, is_backup c (backupName c t) h /\ too_old c (t + 17 * nsHour) h.
Proof.
  intros c t C P Z A T. pose proof (backup_time c t C T) as B. rewrite P in B. exists (wall_hour c t). split; [exact B|]. split; [lia|]. rewrite A. unfold wall_hour. rewrite Z.
  pose proof (Z.mul_div_le (t + - 8 * nsHour) nsHour ltac:(reflexivity)) as M. unfold nsHour in *. lia.
Qed.
Print Assumptions C88_zone_refuted.

(* a clock for the examples: strokes *)
Definition strokes (h : Z) : bs := repeat x31 (Z.to_nat h).
Definition unstrokes (s : bs) : option Z := if forallb (fun b => byte_eqb b x31) s then Some (Z.of_nat (length s)) else None.
Definition exLog (maxb : Z) (gz : bool) : lcfg := mkLcfg (s2b "m.log") 0 0 maxb gz false 0 strokes unstrokes.
Lemma strokes_ok maxb gz : clock_ok (exLog maxb gz).
Proof.
  split.
  - intros h [H _]. cbn [l_parse l_stamp exLog]. unfold unstrokes, strokes. assert (E : forallb (fun b => byte_eqb b x31) (repeat x31 (Z.to_nat h)) = true).
    { apply forallb_forall. intros b I. apply repeat_spec in I as ->. reflexivity. }
    rewrite E, repeat_length. f_equal. lia.
  - intros h I. cbn [l_stamp exLog] in I. apply repeat_spec in I. discriminate I.
Qed.
(* sort newest first by insertion *)
Fixpoint insF (a : Z * bs) (l : list (Z * bs)) : list (Z * bs) :=
  match l with [] => [a] | b :: r => if (fst b <=? fst a)%Z then a :: l else b :: insF a r end.
Definition sortF (l : list (Z * bs)) : list (Z * bs) := fold_right insF [] l.
Lemma sortF_ok : newest_first sortF.
Proof.
  intro l. induction l as [|a l [P S]]; [split; [constructor|constructor]|]. cbn [sortF fold_right]. fold (sortF l). split.
  - transitivity (a :: sortF l); [|constructor; exact P]. clear. induction (sortF l) as [|b r IH]; [reflexivity|]. cbn [insF]. destruct (fst b <=? fst a)%Z; [reflexivity|].
    transitivity (b :: a :: r); [constructor; exact IH|constructor].
  - clear P. induction S as [|b r S IH F]; [repeat constructor|]. cbn [insF]. destruct (Z.leb_spec (fst b) (fst a)) as [Q|Q].
    + constructor; [constructor; assumption|]. constructor; [exact Q|]. rewrite Forall_forall in *. intros z I. specialize (F z I). lia.
    + constructor; [exact IH|]. assert (G : forall z, In z (insF a r) -> z = a \/ In z r).
      { clear. induction r as [|y r IH]; intros z I; [destruct I as [<-|[]]; auto|]. cbn [insF] in I. destruct (fst y <=? fst a)%Z; [destruct I as [<-|I]; auto|].
        destruct I as [<-|I]; [right; left; reflexivity|]. apply IH in I as [I|I]; [auto|right; right; exact I]. }
      rewrite Forall_forall in *. intros z I. apply G in I as [->|I]; [lia|exact (F z I)].
Qed.
Definition exGz (x : bs) : bs := x1f :: x.
Definition exGunz (x : bs) : option bs := match x with x1f :: r => Some r | _ => None end.
Definition exFs : list (bs * bs) := [(s2b "m.log", s2b "a"); (s2b "m-1.log", s2b "z"); (s2b "other", s2b "o")].
Definition exOps : list logop :=
  [LWrite (s2b "b") (3 * nsHour) noFlt 1; LRotate (3 * nsHour) noFlt; LMill (3 * nsHour) sortF; LWrite (s2b "cd") (4 * nsHour) noFlt 1; LTask true CDone; LRotate (4 * nsHour) noFlt; LTask true (CLeft []); LRestart;
   LWrite (s2b "e") (5 * nsHour) noFlt 1].
Example C88_example : exists s ev, logRun exGz (exLog 0 true) (start exFs) exOps = (s, ev) /\ Forall stat_works exOps /\ Forall sorts exOps /\
  backed ev = [(3 * nsHour, s2b "m-111.log", s2b "ab"); (4 * nsHour, s2b "m-1111.log", s2b "c")]%Z /\ written ev = s2b "bce" /\
  content (w_fs s) (s2b "m.log") = s2b "e" /\ NoDup (akeys exFs) /\ apart (map fst (around (exLog 0 true) exFs)) /\
  NoDup (map (fun b => wall_hour (exLog 0 true) (fst (fst b))) (backed ev)) /\
  (forall t n x, In (t, n, x) (backed ev) -> time_ok (exLog 0 true) t /\ unused (around (exLog 0 true) exFs) n) /\
  retrievable exGunz (w_fs s) (s2b "m-111.log") (s2b "ab") /\ aget bs_eqb (w_fs s) (s2b "m-1.log") = Some (s2b "z") /\
  retrievable exGunz (w_fs s) (s2b "m-1111.log") (s2b "c").
Proof.
  eexists _, _. split; [vm_compute; reflexivity|]. split; [repeat constructor|]. split; [repeat constructor; apply sortF_ok|]. split; [vm_compute; reflexivity|]. split; [reflexivity|]. split; [reflexivity|].
  split; [repeat constructor; cbn; intros H; repeat destruct H as [H|H]; try discriminate H; auto|]. split.
  { split; [repeat constructor; cbn; intros H; repeat destruct H as [H|H]; try discriminate H; auto|]. intros m n I J.
    repeat destruct I as [<-|I]; try destruct I; repeat destruct J as [<-|J]; try destruct J; discriminate. }
  split; [vm_compute; repeat constructor; cbn; intros H; repeat destruct H as [H|H]; try discriminate H; auto|]. split.
  { intros t n x [I|[I|[]]]; injection I as <- <- <-; (split; [split; vm_compute; [discriminate|reflexivity]|]); intros k I; cbn in I; repeat destruct I as [<-|I]; try destruct I; repeat split; discriminate. }
  split; [|split; [reflexivity|]].
  - right. split; [reflexivity|]. exists (exGz (s2b "ab")). split; reflexivity.
  - left. reflexivity.
Qed.
Definition exFs2 : list (bs * bs) := [(s2b "m-1.log.gz", s2b "z"); (s2b "m.log", s2b "a"); (s2b "m-111.log", s2b "y"); (s2b "m-11.log", s2b "w"); (s2b "m-x.log", s2b "v")].
Example C88_clean_example : dir_ok (exLog 2 true) exFs2 /\ too_many (exLog 2 true) exFs2 1 /\ ~ too_many (exLog 2 true) exFs2 2 /\
  aget bs_eqb (cleanAll exGz (exLog 2 true) sortF 0 exFs2) (s2b "m-1.log.gz") = None /\
  aget bs_eqb (cleanAll exGz (exLog 2 true) sortF 0 exFs2) (s2b "m-11.log.gz") = Some (exGz (s2b "w")).
Proof.
  assert (B : forall n h, In n (akeys exFs2) -> is_backup (exLog 2 true) n h -> (n, h) = (s2b "m-1.log.gz", 1%Z) \/ (n, h) = (s2b "m-111.log", 3%Z) \/ (n, h) = (s2b "m-11.log", 2%Z)).
  { intros n h I B. cbn [akeys exFs2 map fst] in I. repeat destruct I as [<-|I]; try destruct I; vm_compute in B; try discriminate B; injection B as <-; auto. }
  split; [|split; [|split; [|split; vm_compute; reflexivity]]].
  - split; [repeat constructor; cbn; intros H; repeat destruct H as [H|H]; try discriminate H; auto|]. intros n1 n2 h1 h2 s1 s2 I1 I2 B1 B2 S1 S2.
    pose proof (stem_strip n1) as T1. pose proof (stem_strip n2) as T2.
    assert (U : forall n s t, stem n s -> stem n t -> s = t).
    { intros n s t [->|[-> G]] [E|[E G']]; [apply app_inv_tail in E; exact E|contradiction G'; exists s; reflexivity|contradiction G; exists t; exact E|exact E]. }
    rewrite (U _ _ _ S1 T1), (U _ _ _ S2 T2).
    destruct (B n1 h1 I1 B1) as [E1|[E1|E1]], (B n2 h2 I2 B2) as [E2|[E2|E2]]; injection E1 as -> ->; injection E2 as -> ->; vm_compute; split; intro Q; try reflexivity; discriminate Q.
  - split; [reflexivity|]. exists [3%Z; 2%Z]. split; [repeat constructor; cbn; intros H; repeat destruct H as [H|H]; try discriminate H; auto|]. split; [reflexivity|].
    intros h' [<-|[<-|[]]]; (split; [reflexivity|]); [exists (s2b "m-111.log")|exists (s2b "m-11.log")]; (split; [cbn; tauto|reflexivity]).
  - intros [_ (l & N & L & H)]. assert (Q : length l <= length [3%Z]).
    { apply NoDup_incl_length; [exact N|]. intros h' I. destruct (H h' I) as [H1 (n & H2 & H3)]. destruct (B n h' H2 H3) as [E|[E|E]]; injection E as -> ->; [lia|left; reflexivity|lia]. }
    cbn in L, Q. lia.
Qed.
