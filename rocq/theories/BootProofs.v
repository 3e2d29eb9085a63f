(* BootProofs.v: proofs of C105. *)
From Verif Require Import Base Strconv GoStrings GoStrings2 UrlModel UrlSpec UrlProofs ConfModel BootModel BootSpec.
Ltac Zify.zify_post_hook ::= idtac.

Lemma sget_spec sec k v : sget sec k = Some v <-> v <> CNil /\ exists m, sec = Some m /\ aget ckey_eqb m (KStr k) = Some v.
Proof.
  unfold sget, cget. split.
  - intro H. destruct sec as [m|]; [|discriminate H]. destruct (aget ckey_eqb m (KStr k)) as [x|] eqn:E; [|discriminate H].
    destruct x; try discriminate H; injection H as <-; (split; [discriminate|]; exists m; auto).
  - intros (N & m & -> & ->). destruct v; try reflexivity. destruct N. reflexivity.
Qed.
Lemma conf_is_sget T sec k : conf_is T sec k <-> forall v, sget sec k = Some v -> T v.
Proof.
  split.
  - intros H v E. apply sget_spec in E as (N & m & -> & E). destruct (H m v eq_refl E); [contradiction|assumption].
  - intros H m v -> E. destruct v eqn:V; [left; reflexivity|..]; right; apply H, sget_spec; (split; [discriminate|]; exists m; auto).
Qed.
Lemma secInt_conf sec k z : secInt sec k 0 = Some z <-> conf_is is_int sec k /\ z = conf_int sec k.
Proof.
  rewrite conf_is_sget. unfold secInt, conf_int, sget, cget. destruct sec as [m|].
  2:{ split; [intro H; injection H as <-; split; [discriminate|reflexivity]|intros [_ ->]; reflexivity]. }
  destruct (aget ckey_eqb m (KStr k)) as [v|].
  2:{ split; [intro H; injection H as <-; split; [discriminate|reflexivity]|intros [_ ->]; reflexivity]. }
  destruct v; cbn [asInt];
    try (split; [intro H; discriminate H|intros [H _]; destruct (H _ eq_refl) as [? X]; discriminate X]).
  - split; [intro H; injection H as <-; split; [discriminate|reflexivity]|intros [_ ->]; reflexivity].
  - split; [intro H; injection H as <-; split; [intros v V; injection V as <-; eexists; reflexivity|reflexivity]|intros [_ ->]; reflexivity].
Qed.
Lemma secStr_conf sec k z : secStr sec k [] = Some z <-> conf_is is_str sec k /\ z = conf_str sec k.
Proof.
  rewrite conf_is_sget. unfold secStr, conf_str, sget, cget. destruct sec as [m|].
  2:{ split; [intro H; injection H as <-; split; [discriminate|reflexivity]|intros [_ ->]; reflexivity]. }
  destruct (aget ckey_eqb m (KStr k)) as [v|].
  2:{ split; [intro H; injection H as <-; split; [discriminate|reflexivity]|intros [_ ->]; reflexivity]. }
  destruct v; cbn [asStr];
    try (split; [intro H; discriminate H|intros [H _]; destruct (H _ eq_refl) as [? X]; discriminate X]).
  - split; [intro H; injection H as <-; split; [discriminate|reflexivity]|intros [_ ->]; reflexivity].
  - split; [intro H; injection H as <-; split; [intros v V; injection V as <-; eexists; reflexivity|reflexivity]|intros [_ ->]; reflexivity].
Qed.
Definition blist (k : bs) (o : option bool) : list (bs * bs) := match o with Some b => [(k, boolText b)] | None => [] end.
Lemma boolFlag_conf sec k z : boolFlag sec k = Some z <-> conf_is is_bool sec k /\ z = blist k (conf_bool sec k).
Proof.
  rewrite conf_is_sget. unfold boolFlag, conf_bool, sget, cget. destruct sec as [m|].
  2:{ split; [intro H; injection H as <-; split; [discriminate|reflexivity]|intros [_ ->]; reflexivity]. }
  destruct (aget ckey_eqb m (KStr k)) as [v|].
  2:{ split; [intro H; injection H as <-; split; [discriminate|reflexivity]|intros [_ ->]; reflexivity]. }
  destruct v; cbn [asBool obind];
    try (split; [intro H; discriminate H|intros [H _]; destruct (H _ eq_refl) as [? X]; discriminate X]).
  - split; [intro H; injection H as <-; split; [discriminate|reflexivity]|intros [_ ->]; reflexivity].
  - split; [intro H; injection H as <-; split; [intros v V; injection V as <-; eexists; reflexivity|reflexivity]|intros [_ ->]; reflexivity].
Qed.
Definition llist (s : bs) : list (bs * bs) := match s with [] => [] | _ => [(s2b "log_level", s)] end.
Lemma levelFlag_conf sec z : levelFlag sec = Some z <-> conf_is is_str sec (s2b "log_level") /\ z = llist (conf_str sec (s2b "log_level")).
Proof.
  rewrite conf_is_sget. unfold levelFlag, conf_str, sget, cget. destruct sec as [m|].
  2:{ split; [intro H; injection H as <-; split; [discriminate|reflexivity]|intros [_ ->]; reflexivity]. }
  destruct (aget ckey_eqb m (KStr (s2b "log_level"))) as [v|].
  2:{ split; [intro H; injection H as <-; split; [discriminate|reflexivity]|intros [_ ->]; reflexivity]. }
  destruct v; cbn [asStr obind];
    try (split; [intro H; discriminate H|intros [H _]; destruct (H _ eq_refl) as [? X]; discriminate X]).
  - split; [intro H; injection H as <-; split; [discriminate|reflexivity]|intros [_ ->]; reflexivity].
  - split; [intro H; injection H as <-; split; [intros v V; injection V as <-; eexists; reflexivity|reflexivity]|intros [_ ->]; reflexivity].
Qed.
Definition nlist (o : option Z) : list (bs * bs) := match o with Some z => [(s2b "log_buffer_size", fmtZ z)] | None => [] end.
Lemma bufFlag_conf sec z : bufFlag sec = Some z <-> conf_is is_int sec (s2b "log_buffer_size") /\ z = nlist (conf_num sec (s2b "log_buffer_size")).
Proof.
  rewrite conf_is_sget. unfold bufFlag, conf_num, sget, cget. destruct sec as [m|].
  2:{ split; [intro H; injection H as <-; split; [discriminate|reflexivity]|intros [_ ->]; reflexivity]. }
  destruct (aget ckey_eqb m (KStr (s2b "log_buffer_size"))) as [v|].
  2:{ split; [intro H; injection H as <-; split; [discriminate|reflexivity]|intros [_ ->]; reflexivity]. }
  destruct v; cbn [asInt obind];
    try (split; [intro H; discriminate H|intros [H _]; destruct (H _ eq_refl) as [? X]; discriminate X]).
  - split; [intro H; injection H as <-; split; [discriminate|reflexivity]|intros [_ ->]; reflexivity].
  - split; [intro H; injection H as <-; split; [intros v V; injection V as <-; eexists; reflexivity|reflexivity]|intros [_ ->]; reflexivity].
Qed.

Lemma obind_some {A B} (o : option A) (f : A -> option B) y : obind o f = Some y <-> exists x, o = Some x /\ f x = Some y.
Proof. destruct o; cbn; [split; [intro H; eexists; eauto|intros (x & X & H); injection X as <-; exact H]|split; [discriminate|intros (x & X & _); discriminate X]]. Qed.

Lemma portOf_conf flag sec k d z : portOf flag sec k d = Some z <->
  (flag = 0%Z -> conf_is is_int sec k) /\ z = (if Z.eq_dec (if Z.eq_dec flag 0 then conf_int sec k else flag) 0 then d else if Z.eq_dec flag 0 then conf_int sec k else flag).
Proof.
  unfold portOf. rewrite obind_some. destruct (Z.eqb_spec flag 0) as [E|E].
  - destruct (Z.eq_dec flag 0) as [_|N]; [|contradiction]. split.
    + intros (x & Hx & H). apply secInt_conf in Hx as [C ->]. split; [intros _; exact C|]. injection H as <-.
      destruct (Z.eqb_spec (conf_int sec k) 0), (Z.eq_dec (conf_int sec k) 0); congruence.
    + intros [C ->]. exists (conf_int sec k). split; [apply secInt_conf; auto|].
      destruct (Z.eqb_spec (conf_int sec k) 0), (Z.eq_dec (conf_int sec k) 0); congruence.
  - destruct (Z.eq_dec flag 0) as [N|_]; [contradiction|]. split.
    + intros (x & Hx & H). injection Hx as <-. injection H as <-. split; [intro; contradiction|].
      destruct (Z.eqb_spec flag 0), (Z.eq_dec flag 0); congruence.
    + intros [_ ->]. exists flag. split; [reflexivity|]. destruct (Z.eqb_spec flag 0), (Z.eq_dec flag 0); congruence.
Qed.
Lemma first3 a b d : d <> 0%Z -> (if Z.eq_dec (if Z.eq_dec a 0 then b else a) 0 then d else if Z.eq_dec a 0 then b else a) = first_set [a; b; d].
Proof.
  intro D. cbn [first_set]. destruct (Z.eq_dec a 0); [|destruct (Z.eq_dec a 0); [contradiction|reflexivity]].
  destruct (Z.eq_dec b 0); [|reflexivity]. destruct (Z.eq_dec d 0); [contradiction|reflexivity].
Qed.
Lemma portOf_first flag sec k d z : d <> 0%Z -> portOf flag sec k d = Some z <-> (flag = 0%Z -> conf_is is_int sec k) /\ z = first_set [flag; conf_int sec k; d].
Proof. intro D. rewrite portOf_conf, first3 by exact D. reflexivity. Qed.
Lemma mportOf_first c sec z : mportOf c sec = Some z <->
  (fMport c = 0%Z -> cEnvMport c = None -> conf_is is_int sec (s2b "mport")) /\
  z = first_set [fMport c; match cEnvMport c with Some t => num_or_0 t | None => conf_int sec (s2b "mport") end; 8002%Z].
Proof.
  unfold mportOf. rewrite obind_some, <- first3 by discriminate. destruct (Z.eqb_spec (fMport c) 0) as [E|E].
  - destruct (Z.eq_dec (fMport c) 0) as [_|N]; [|contradiction]. destruct (cEnvMport c) as [t|].
    + split.
      * intros (x & Hx & H). injection Hx as <-. fold (num_or_0 t) in H. split; [intros _ X; discriminate X|]. injection H as <-.
        destruct (Z.eqb_spec (num_or_0 t) 0), (Z.eq_dec (num_or_0 t) 0); congruence.
      * intros [_ ->]. exists (num_or_0 t). split; [reflexivity|]. destruct (Z.eqb_spec (num_or_0 t) 0), (Z.eq_dec (num_or_0 t) 0); congruence.
    + split.
      * intros (x & Hx & H). apply secInt_conf in Hx as [C ->]. split; [intros _ _; exact C|]. injection H as <-.
        destruct (Z.eqb_spec (conf_int sec (s2b "mport")) 0), (Z.eq_dec (conf_int sec (s2b "mport")) 0); congruence.
      * intros [C ->]. exists (conf_int sec (s2b "mport")). split; [apply secInt_conf; auto|].
        destruct (Z.eqb_spec (conf_int sec (s2b "mport")) 0), (Z.eq_dec (conf_int sec (s2b "mport")) 0); congruence.
  - destruct (Z.eq_dec (fMport c) 0) as [N|_]; [contradiction|]. split.
    + intros (x & Hx & H). injection Hx as <-. injection H as <-. split; [intro; contradiction|].
      destruct (Z.eqb_spec (fMport c) 0), (Z.eq_dec (fMport c) 0); congruence.
    + intros [_ ->]. exists (fMport c). split; [reflexivity|]. destruct (Z.eqb_spec (fMport c) 0), (Z.eq_dec (fMport c) 0); congruence.
Qed.
Lemma strOf_first flag sec k d z : strOf flag sec k d = Some z <-> (flag = [] -> conf_is is_str sec k) /\ z = first_text [flag; conf_str sec k; d].
Proof.
  unfold strOf. rewrite obind_some. destruct flag as [|c r].
  - cbn [first_text]. split.
    + intros (x & Hx & H). apply secStr_conf in Hx as [C ->]. split; [intros _; exact C|]. injection H as <-.
      destruct (conf_str sec k); [destruct d|]; reflexivity.
    + intros [C ->]. exists (conf_str sec k). split; [apply secStr_conf; auto|]. destruct (conf_str sec k); [destruct d|]; reflexivity.
  - cbn [first_text]. split.
    + intros (x & Hx & H). injection Hx as <-. injection H as <-. split; [discriminate|reflexivity].
    + intros [_ ->]. eexists. split; reflexivity.
Qed.
Lemma args_In c : existsb (bs_eqb (s2b "-log_dir")) (cArgs c) = true <-> In (s2b "-log_dir") (cArgs c).
Proof.
  rewrite existsb_exists. split; [intros (x & H & E); apply bs_eqb_spec in E; subst; exact H|]. intro H. eexists. split; [exact H|apply bs_eqb_refl].
Qed.
Lemma logDir_first c sec z : logDirOf c sec = Some z <->
  (~ In (s2b "-log_dir") (cArgs c) -> conf_is is_str sec (s2b "log_dir")) /\
  (In (s2b "-log_dir") (cArgs c) -> z = first_text [fLogDir c; s2b "."]) /\
  (~ In (s2b "-log_dir") (cArgs c) -> z = first_text [conf_str sec (s2b "log_dir"); s2b "."]).
Proof.
  unfold logDirOf. rewrite obind_some. rewrite <- (args_In c). destruct (existsb (bs_eqb (s2b "-log_dir")) (cArgs c)).
  - split.
    + intros (x & Hx & H). injection Hx as <-. injection H as <-. split; [intro X; destruct X; reflexivity|]. split; [|intro X; destruct X; reflexivity].
      intros _. destruct (fLogDir c); reflexivity.
    + intros (_ & H & _). rewrite (H eq_refl). eexists. split; [reflexivity|]. destruct (fLogDir c); reflexivity.
  - assert (N : false <> true) by discriminate. split.
    + intros (x & Hx & H). apply secStr_conf in Hx as [C ->]. injection H as <-. split; [intros _; exact C|]. split; [discriminate|].
      intros _. destruct (conf_str sec (s2b "log_dir")); reflexivity.
    + intros (C & _ & H). rewrite (H N). exists (conf_str sec (s2b "log_dir")). split; [apply secStr_conf; auto|].
      destruct (conf_str sec (s2b "log_dir")); reflexivity.
Qed.
Lemma switchers_iff m : (exists l, switchers m = Some l) <-> forall k v, In (k, v) m -> exists n b, k = KStr n /\ v = CBool b.
Proof.
  induction m as [|[k v] m IH]; cbn [switchers]; [split; [intros _ ? ? []|eexists; reflexivity]|]. split.
  - intros [l H] k' v' [X|X].
    + injection X as <- <-. destruct k; [|discriminate H]. destruct v; try discriminate H. eauto.
    + destruct k; [|discriminate H]. destruct v; try discriminate H. apply obind_some in H as (l' & H & _). apply (proj1 IH); [eauto|exact X].
  - intro H. destruct (H k v (or_introl eq_refl)) as (n & b & -> & ->). destruct (proj2 IH) as [l L]; [intros k' v' X; apply H; right; exact X|].
    rewrite L. eexists. reflexivity.
Qed.
Lemma switchers_list m l : switchers m = Some l -> m = map (fun p => (KStr (fst p), CBool (snd p))) l.
Proof.
  revert l. induction m as [|[k v] m IH]; intros l H; cbn [switchers] in H; [injection H as <-; reflexivity|].
  destruct k; [|discriminate H]. destruct v; try discriminate H. apply obind_some in H as (l' & H & E). injection E as <-.
  cbn [map fst snd]. rewrite (IH _ H) at 1. reflexivity.
Qed.
Lemma initLog_iff d sec z : initLog d sec = Some z <->
  (forall k, In k [s2b "log_async"; s2b "log_structured"; s2b "rotate_per_hour"; s2b "log_filter_caller"] -> conf_is is_bool sec k) /\
  conf_is is_str sec (s2b "log_level") /\ conf_is is_int sec (s2b "log_buffer_size") /\
  let fs := blist (s2b "log_async") (conf_bool sec (s2b "log_async")) ++ blist (s2b "log_structured") (conf_bool sec (s2b "log_structured")) ++
            blist (s2b "rotate_per_hour") (conf_bool sec (s2b "rotate_per_hour")) ++ llist (conf_str sec (s2b "log_level")) ++
            blist (s2b "log_filter_caller") (conf_bool sec (s2b "log_filter_caller")) ++ nlist (conf_num sec (s2b "log_buffer_size")) in
  z = if bs_eqb d (s2b "stdout") then (fs, false) else (fs ++ [(s2b "log_dir", d)], true).
Proof.
  unfold initLog. split.
  - intro H. repeat (apply obind_some in H; destruct H as (? & ?E & H)).
    apply boolFlag_conf in E as [C1 ->], E0 as [C2 ->], E1 as [C3 ->], E3 as [C5 ->].
    apply levelFlag_conf in E2 as [C4 ->]. apply bufFlag_conf in E4 as [C6 ->].
    split; [|split; [exact C4|split; [exact C6|]]].
    + intros k [<-|[<-|[<-|[<-|[]]]]]; assumption.
    + cbv zeta in *. injection H as <-. reflexivity.
  - intros (B & L & N & ->). 
    rewrite (proj2 (boolFlag_conf sec (s2b "log_async") _) (conj (B _ (or_introl eq_refl)) eq_refl)). cbn [obind].
    rewrite (proj2 (boolFlag_conf sec (s2b "log_structured") _) (conj (B _ (or_intror (or_introl eq_refl))) eq_refl)). cbn [obind].
    rewrite (proj2 (boolFlag_conf sec (s2b "rotate_per_hour") _) (conj (B _ (or_intror (or_intror (or_introl eq_refl)))) eq_refl)). cbn [obind].
    rewrite (proj2 (levelFlag_conf sec _) (conj L eq_refl)). cbn [obind].
    rewrite (proj2 (boolFlag_conf sec (s2b "log_filter_caller") _) (conj (B _ (or_intror (or_intror (or_intror (or_introl eq_refl))))) eq_refl)). cbn [obind].
    rewrite (proj2 (bufFlag_conf sec _) (conj N eq_refl)). cbn [obind]. reflexivity.
Qed.

Lemma starts c sec sw : (exists st, initParam c sec sw = Some st) <-> readable c sec sw.
Proof.
  unfold initParam, readable. split.
  - intros [st H]. repeat (apply obind_some in H; destruct H as (? & ?E & H)).
    apply logDir_first in E as [A1 _]. apply initLog_iff in E0 as (A2 & A3 & A4 & _).
    apply secInt_conf in E2 as [A6 _]. apply portOf_first in E3 as [A7 _]; [|discriminate]. apply mportOf_first in E4 as [A8 _].
    apply portOf_first in E5 as [A9 _]; [|discriminate]. apply portOf_first in E6 as [A10 _]; [|discriminate].
    apply strOf_first in E7 as [A11 _]. apply strOf_first in E8 as [A12 _]. destruct (cMkdir c); [|discriminate H].
    split; [exact A1|]. split; [exact A2|]. split; [exact A3|]. split; [exact A4|]. split.
    { intros m k v -> K. apply (proj1 (switchers_iff m)) with k v in K; [exact K|eauto]. }
    split; [exact A6|]. split; [exact A7|]. split; [exact A8|]. split; [exact A9|]. split; [exact A10|]. split; [exact A11|].
    split; [apply A12; reflexivity|reflexivity].
  - intros (A1 & A2 & A3 & A4 & A5 & A6 & A7 & A8 & A9 & A10 & A11 & A12 & A13).
    destruct (proj2 (switchers_iff (match sw with Some m => m | None => [] end))) as [l L].
    { destruct sw as [m|]; [intros k v K; exact (A5 m k v eq_refl K)|intros ? ? []]. }
    assert (LD : exists d, logDirOf c sec = Some d).
    { destruct (In_dec bs_eq_dec (s2b "-log_dir") (cArgs c)) as [I|I].
      - eexists. apply logDir_first. split; [exact A1|]. split; [intros _; reflexivity|intro; contradiction].
      - eexists. apply logDir_first. split; [exact A1|]. split; [intro; contradiction|intros _; reflexivity]. }
    destruct LD as [d LD]. rewrite LD. cbn [obind].
    destruct (initLog d sec) as [lg|] eqn:LG.
    2:{ exfalso. pose proof (proj2 (initLog_iff d sec _) (conj A2 (conj A3 (conj A4 eq_refl)))) as X. rewrite LG in X. discriminate X. }
    cbn [obind]. rewrite L. cbn [obind].
    rewrite (proj2 (secInt_conf sec (s2b "processPoolSize") _) (conj A6 eq_refl)). cbn [obind].
    rewrite (proj2 (portOf_first (fPort c) sec (s2b "port") 9981%Z _ ltac:(discriminate)) (conj A7 eq_refl)). cbn [obind].
    rewrite (proj2 (mportOf_first c sec _) (conj A8 eq_refl)). cbn [obind].
    rewrite (proj2 (portOf_first (fEport c) sec (s2b "eport") 9982%Z _ ltac:(discriminate)) (conj A9 eq_refl)). cbn [obind].
    rewrite (proj2 (portOf_first (fHport c) sec (s2b "hport") 9983%Z _ ltac:(discriminate)) (conj A10 eq_refl)). cbn [obind].
    rewrite (proj2 (strOf_first (fPid c) sec (s2b "pidfile") (s2b "./agent.pid") _) (conj A11 eq_refl)). cbn [obind].
    rewrite (proj2 (strOf_first [] sec (s2b "runtime_dir") (s2b "./agent_runtime") _) (conj (fun _ => A12) eq_refl)). cbn [obind].
    rewrite A13. eexists. reflexivity.
Qed.

Lemma settings_are c sec sw st : initParam c sec sw = Some st ->
  sPort st = first_set [fPort c; conf_int sec (s2b "port"); 9981%Z] /\
  sMport st = first_set [fMport c; match cEnvMport c with Some t => num_or_0 t | None => conf_int sec (s2b "mport") end; 8002%Z] /\
  sEport st = first_set [fEport c; conf_int sec (s2b "eport"); 9982%Z] /\
  sHport st = first_set [fHport c; conf_int sec (s2b "hport"); 9983%Z] /\
  sPid st = first_text [fPid c; conf_str sec (s2b "pidfile"); s2b "./agent.pid"] /\
  sRun st = first_text [conf_str sec (s2b "runtime_dir"); s2b "./agent_runtime"] /\
  (In (s2b "-log_dir") (cArgs c) -> sLogDir st = first_text [fLogDir c; s2b "."]) /\
  (~ In (s2b "-log_dir") (cArgs c) -> sLogDir st = first_text [conf_str sec (s2b "log_dir"); s2b "."]) /\
  sPool st = (if Z_lt_dec 0 (conf_int sec (s2b "processPoolSize")) then Some (conf_int sec (s2b "processPoolSize")) else None) /\
  sAsync st = match conf_bool sec (s2b "motanEpAsyncInit") with Some b => b | None => true end.
Proof.
  unfold initParam. intro H. repeat (apply obind_some in H; destruct H as (? & ?E & H)).
  apply logDir_first in E as (_ & A1 & A2). 
  apply secInt_conf in E2 as [_ A6]. apply portOf_first in E3 as [_ A7]; [|discriminate]. apply mportOf_first in E4 as [_ A8].
  apply portOf_first in E5 as [_ A9]; [|discriminate]. apply portOf_first in E6 as [_ A10]; [|discriminate].
  apply strOf_first in E7 as [_ A11]. apply strOf_first in E8 as [_ A12]. destruct (cMkdir c); [|discriminate H]. injection H as <-.
  cbn [sPort sMport sEport sHport sPid sRun sLogDir sPool sAsync].
  repeat (split; [assumption|]). split.
  - rewrite A6. destruct (Z.ltb_spec 0 (conf_int sec (s2b "processPoolSize"))), (Z_lt_dec 0 (conf_int sec (s2b "processPoolSize"))); try reflexivity; lia.
  - unfold sget, cget, conf_bool. destruct sec as [m|]; [|reflexivity]. destruct (aget ckey_eqb m (KStr (s2b "motanEpAsyncInit"))) as [[]|]; reflexivity.
Qed.

Lemma find_nil {A} (P : A -> bool) : find P [] = None. Proof. reflexivity. Qed.
Lemma log_settings c sec sw st : initParam c sec sw = Some st ->
  (forall k, In k [s2b "log_async"; s2b "log_structured"; s2b "rotate_per_hour"; s2b "log_filter_caller"] -> flag_set st k = bool_text (conf_bool sec k)) /\
  flag_set st (s2b "log_level") = (match conf_str sec (s2b "log_level") with [] => None | s => Some s end) /\
  flag_set st (s2b "log_buffer_size") = (match conf_num sec (s2b "log_buffer_size") with Some z => Some (fmtZ z) | None => None end) /\
  flag_set st (s2b "log_dir") = (if bs_eq_dec (sLogDir st) (s2b "stdout") then None else Some (sLogDir st)) /\
  (sLogInit st = true <-> sLogDir st <> s2b "stdout") /\
  (forall m, sw = Some m -> m = map (fun p => (KStr (fst p), CBool (snd p))) (sSwitch st)) /\ (sw = None -> sSwitch st = []).
Proof.
  unfold initParam. intro H. repeat (apply obind_some in H; destruct H as (? & ?E & H)).
  apply initLog_iff in E0 as (_ & _ & _ & A). destruct (cMkdir c); [|discriminate H]. injection H as <-. unfold flag_set. cbn [sFlags sLogInit sLogDir sSwitch].
  set (o1 := conf_bool sec (s2b "log_async")) in *. set (o2 := conf_bool sec (s2b "log_structured")) in *. set (o3 := conf_bool sec (s2b "rotate_per_hour")) in *.
  set (o4 := conf_str sec (s2b "log_level")) in *. set (o5 := conf_bool sec (s2b "log_filter_caller")) in *. set (o6 := conf_num sec (s2b "log_buffer_size")) in *.
  cbv zeta in A.
  assert (SW : (forall m, sw = Some m -> m = map (fun p => (KStr (fst p), CBool (snd p))) x1) /\ (sw = None -> x1 = [])).
  { split; [intros m ->; apply switchers_list; exact E1|intros ->; cbn in E1; congruence]. }
  assert (F : forall k, In k [s2b "log_async"; s2b "log_structured"; s2b "rotate_per_hour"; s2b "log_filter_caller"; s2b "log_level"; s2b "log_buffer_size"] ->
       forall fs, find (fun p : bs * bs => bs_eqb (fst p) k) (rev (fs ++ [(s2b "log_dir", x)])) = find (fun p => bs_eqb (fst p) k) (rev fs)).
  { intros k I fs. rewrite rev_app_distr. cbn [rev app find fst].
    destruct I as [<-|[<-|[<-|[<-|[<-|[<-|[]]]]]]]; reflexivity. }
  assert (G : let fs := blist (s2b "log_async") o1 ++ blist (s2b "log_structured") o2 ++ blist (s2b "rotate_per_hour") o3 ++ llist o4 ++ blist (s2b "log_filter_caller") o5 ++ nlist o6 in
     let look k := match find (fun p : bs * bs => bs_eqb (fst p) k) (rev fs) with Some p => Some (snd p) | None => None end in
     look (s2b "log_async") = bool_text o1 /\ look (s2b "log_structured") = bool_text o2 /\ look (s2b "rotate_per_hour") = bool_text o3 /\
     look (s2b "log_filter_caller") = bool_text o5 /\ look (s2b "log_level") = (match o4 with [] => None | b :: l => Some (b :: l) end) /\
     look (s2b "log_buffer_size") = (match o6 with Some z => Some (fmtZ z) | None => None end) /\ look (s2b "log_dir") = None).
  { cbv zeta. rewrite !rev_app_distr. clearbody o1 o2 o3 o4 o5 o6. unfold blist, llist, nlist, bool_text, boolText.
    destruct o1 as [[]|], o2 as [[]|], o3 as [[]|], o5 as [[]|], o4, o6; repeat split; reflexivity. }
  cbv zeta in G. destruct G as (G1 & G2 & G3 & G5 & G4 & G6 & G7).
  destruct (bs_eqb x (s2b "stdout")) eqn:EX.
  - apply bs_eqb_spec in EX. rewrite A. cbn [fst snd]. split; [|split; [|split; [|split; [|split; [|exact SW]]]]].
    + intros k [<-|[<-|[<-|[<-|[]]]]]; assumption.
    + exact G4.
    + exact G6.
    + destruct (bs_eq_dec x (s2b "stdout")); [exact G7|contradiction].
    + split; [discriminate|intro; contradiction].
  - apply bs_eqb_neq in EX. rewrite A. cbn [fst snd]. set (fs := blist (s2b "log_async") o1 ++ _) in *.
    split; [|split; [|split; [|split; [|split; [|exact SW]]]]].
    + intros k [<-|[<-|[<-|[<-|[]]]]]; rewrite F by (cbn [In]; tauto); assumption.
    + rewrite F by (cbn [In]; tauto). exact G4.
    + rewrite F by (cbn [In]; tauto). exact G6.
    + destruct (bs_eq_dec x (s2b "stdout")); [contradiction|]. rewrite rev_app_distr. reflexivity.
    + split; [intros _; exact EX|reflexivity].
Qed.

(* ------------------------------------------------------------ the agent's url *)
Lemma agent_url u m u' app : uParams u = Some m -> initAgentURL u = Some (u', app) ->
  let name := first_text [match param u (s2b "application") with Some a => a | None => uGroup u end; s2b "default_agent_group"] in
  uProtocol u' = uProtocol u /\ uHost u' = uHost u /\ uGroup u' = name /\ uPath u' = first_text [uPath u; name] /\
  uPort u' = (match param u (s2b "mport") with Some t => match parseInt64 t with (z, NumOk) => z | _ => uPort u end | None => uPort u end) /\
  (forall k, param u' k = if bs_eq_dec k (s2b "nodeType") then Some (s2b "agent") else if bs_eq_dec k (s2b "application") then Some name else param u k) /\
  app = match param u (s2b "application") with Some a => a | None => uGroup u end.
Proof.
  intros P H. cbv zeta. unfold initAgentURL in H. rewrite P in H. assert (Pm : forall k, param u k = aget bs_eqb m k) by (intro k; unfold param; rewrite P; reflexivity). rewrite !Pm. set (AP := s2b "application") in *.
  assert (X : forall (g d : bs), d <> [] -> first_text [g; d] = match g with [] => d | _ => g end).
  { intros [|? ?] [|? ?] N; reflexivity. }
  rewrite !X by (try discriminate).
  assert (K : forall (mm : list (bs * bs)) v k, aget bs_eqb (aset bs_eqb mm AP v) k = if bs_eq_dec k AP then Some v else aget bs_eqb mm k).
  { intros mm v k. rewrite (aget_aset bs_eqb bs_eqb_spec). destruct (bs_eqb k AP) eqn:E, (bs_eq_dec k AP); try reflexivity.
    - apply bs_eqb_spec in E. contradiction.
    - apply bs_eqb_neq in E. contradiction. }
  assert (N : forall (mm : list (bs * bs)) v k, aget bs_eqb (aset bs_eqb mm (s2b "nodeType") v) k = if bs_eq_dec k (s2b "nodeType") then Some v else aget bs_eqb mm k).
  { intros mm v k. rewrite (aget_aset bs_eqb bs_eqb_spec). destruct (bs_eqb k (s2b "nodeType")) eqn:E, (bs_eq_dec k (s2b "nodeType")); try reflexivity.
    - apply bs_eqb_spec in E. contradiction.
    - apply bs_eqb_neq in E. contradiction. }
  assert (M1 : forall (mm : list (bs * bs)) v, aget bs_eqb (aset bs_eqb mm AP v) (s2b "mport") = aget bs_eqb mm (s2b "mport")).
  { intros mm v. rewrite (aget_aset bs_eqb bs_eqb_spec). reflexivity. }
  assert (A1 : forall (mm : list (bs * bs)) v, aget bs_eqb (aset bs_eqb mm AP v) AP = Some v).
  { intros mm v. rewrite (aget_aset bs_eqb bs_eqb_spec), bs_eqb_refl. reflexivity. }
  destruct (aget bs_eqb m AP) as [a|] eqn:EA.
  - destruct a as [|c a]; cbv zeta in H; injection H as <- <-; cbn [uProtocol uHost uGroup uPath uPort];
      (split; [reflexivity|]; split; [reflexivity|]; split; [reflexivity|]; split; [destruct (uPath u); reflexivity|]; split; [|split]).
    + rewrite M1. reflexivity.
    + intro k. rewrite Pm. unfold param. cbn [uParams]. rewrite N. destruct (bs_eq_dec k (s2b "nodeType")); [reflexivity|]. apply K.
    + rewrite EA. reflexivity.
    + reflexivity.
    + intro k. rewrite Pm. unfold param. cbn [uParams]. rewrite N. destruct (bs_eq_dec k (s2b "nodeType")); [reflexivity|].
      destruct (bs_eq_dec k AP) as [->|]; [exact EA|reflexivity].
    + rewrite EA. reflexivity.
  - rewrite A1 in H. destruct (uGroup u) as [|c a]; cbv zeta in H; injection H as <- <-; cbn [uProtocol uHost uGroup uPath uPort];
      (split; [reflexivity|]; split; [reflexivity|]; split; [reflexivity|]; split; [destruct (uPath u); reflexivity|]; split; [|split]).
    + rewrite !M1. reflexivity.
    + intro k. rewrite Pm. unfold param. cbn [uParams]. rewrite N. destruct (bs_eq_dec k (s2b "nodeType")); [reflexivity|]. rewrite !K.
      destruct (bs_eq_dec k AP); reflexivity.
    + reflexivity.
    + rewrite M1. reflexivity.
    + intro k. rewrite Pm. unfold param. cbn [uParams]. rewrite N. destruct (bs_eq_dec k (s2b "nodeType")); [reflexivity|]. apply K.
    + reflexivity.
Qed.

(* ------------------------------------------------------------ http clusters *)
Lemma httpFill_param app u k : k <> s2b "application" -> param (httpFill app u) k = param u k.
Proof.
  intro N. unfold httpFill. destruct (getParam u (s2b "application") []); [|reflexivity]. unfold param, withParams, pset. cbn [uParams].
  destruct (uParams u) as [m|]; rewrite (aget_aset bs_eqb bs_eqb_spec); (destruct (bs_eqb k (s2b "application")) eqn:E; [apply bs_eqb_spec in E; contradiction|reflexivity]).
Qed.
Lemma newHttp_ok regs ext u : newHttp regs ext u = true <-> http_ok regs ext u.
Proof.
  unfold newHttp, http_ok. rewrite !getParam_str_or. destruct (str_or u (s2b "domain") []) as [|c d].
  - split; [discriminate|intros [X _]; contradiction].
  - destruct (regs (str_or u (s2b "registry") [])) as [r|].
    + split; [intro H; split; [discriminate|intros r' R; injection R as <-; exact H]|intros [_ H]; apply H; reflexivity].
    + split; [intros _; split; [discriminate|discriminate]|reflexivity].
Qed.
Lemma http_ok_fill app regs ext u : http_ok regs ext (httpFill app u) <-> http_ok regs ext u.
Proof. unfold http_ok, str_or. rewrite !httpFill_param by discriminate. reflexivity. Qed.
Lemma str_or_fill app u : str_or (httpFill app u) (s2b "domain") [] = str_or u (s2b "domain") [].
Proof. unfold str_or. rewrite httpFill_param by discriminate. reflexivity. Qed.
Lemma initHttp_gen app regs ext l : forall m d id, aget bs_eqb (initHttp app regs ext l m) d = Some id ->
  (exists u, In (id, u) l /\ http_ok regs ext u /\ str_or u (s2b "domain") [] = d) \/ aget bs_eqb m d = Some id.
Proof.
  induction l as [|[i u] l IH]; intros m d id H; cbn [initHttp] in H; [right; exact H|]. apply IH in H as [(u' & I & O & D)|H].
  - left. exists u'. split; [right; exact I|]. split; assumption.
  - destruct (newHttp regs ext (httpFill app u)) eqn:E; [|right; exact H]. rewrite getParam_str_or, str_or_fill in H.
    rewrite (aget_aset bs_eqb bs_eqb_spec) in H. destruct (bs_eqb d (str_or u (s2b "domain") [])) eqn:B; [|right; exact H].
    injection H as <-. left. exists u. split; [left; reflexivity|]. apply newHttp_ok, http_ok_fill in E. split; [exact E|]. apply bs_eqb_spec in B. auto.
Qed.
Lemma initHttp_mono app regs ext l : forall m d, aget bs_eqb m d <> None -> aget bs_eqb (initHttp app regs ext l m) d <> None.
Proof.
  induction l as [|[i u] l IH]; intros m d H; cbn [initHttp]; [exact H|]. apply IH. destruct (newHttp regs ext (httpFill app u)); [|exact H].
  rewrite (aget_aset bs_eqb bs_eqb_spec). destruct (bs_eqb d _); [discriminate|exact H].
Qed.
Lemma initHttp_has app regs ext l : forall m id u, In (id, u) l -> http_ok regs ext u ->
  aget bs_eqb (initHttp app regs ext l m) (str_or u (s2b "domain") []) <> None.
Proof.
  induction l as [|[i v] l IH]; intros m id u I O; [destruct I|]. cbn [initHttp]. destruct I as [I|I]; [|apply (IH _ _ _ I O)].
  injection I as -> ->. apply initHttp_mono. rewrite (proj2 (newHttp_ok regs ext (httpFill app u)) (proj2 (http_ok_fill app regs ext u) O)).
  rewrite getParam_str_or, str_or_fill, (aget_aset bs_eqb bs_eqb_spec), bs_eqb_refl. discriminate.
Qed.

(* ------------------------------------------------------------ the management port *)
Lemma firstFree_spec free a b p : firstFree free a b = Some p <-> (a <= p <= b)%Z /\ free p = true /\ forall q, (a <= q < p)%Z -> free q = false.
Proof.
  unfold firstFree.
  assert (G : forall n s, find free (map (fun i => (a + Z.of_nat i)%Z) (seq s n)) = Some p <->
     (a + Z.of_nat s <= p < a + Z.of_nat s + Z.of_nat n)%Z /\ free p = true /\ forall q, (a + Z.of_nat s <= q < p)%Z -> free q = false).
  { induction n as [|n IH]; intro s; cbn [seq map find]; [split; [discriminate|lia]|]. destruct (free (a + Z.of_nat s)%Z) eqn:E.
    - split.
      + intro H. injection H as <-. split; [lia|]. split; [exact E|]. intros q Q. lia.
      + intros (H1 & H2 & H3). f_equal. destruct (Z.eq_dec (a + Z.of_nat s) p) as [X|X]; [exact X|]. rewrite H3 in E by lia. discriminate E.
    - rewrite IH. split.
      + intros (H1 & H2 & H3). split; [lia|]. split; [exact H2|]. intros q Q. destruct (Z.eq_dec q (a + Z.of_nat s)) as [->|X]; [exact E|]. apply H3. lia.
      + intros (H1 & H2 & H3). destruct (Z.eq_dec p (a + Z.of_nat s)) as [->|X]; [congruence|]. split; [lia|]. split; [exact H2|]. intros q Q. apply H3. lia. }
  rewrite G. split; intros (H1 & H2 & H3); (split; [lia|]; split; [exact H2|]; intros q Q; apply H3; lia).
Qed.
Lemma manage_port u mport unixOk free p t : str_or u (s2b "managementUnixSock") [] = [] -> manageListen u mport unixOk free = LPort p t -> t = p /\
  ((str_or u (s2b "managementPortRange") [] = [] /\ p = mport /\ free p = true) \/
   exists a b r x y, filter nonblank (map trimSpace (splitStr (s2b "-") (str_or u (s2b "managementPortRange") []))) = a :: b :: r /\
     parseInt64 a = (x, NumOk) /\ parseInt64 b = (y, NumOk) /\ (x <= p <= y)%Z /\ free p = true /\ forall q, (x <= q < p)%Z -> free q = false).
Proof.
  intros U H. unfold manageListen in H. rewrite !getParam_str_or, U in H. destruct (str_or u (s2b "managementPortRange") []) as [|c d] eqn:R.
  - destruct (free mport) eqn:F; [|discriminate H]. injection H as <- <-. split; [reflexivity|]. left. auto.
  - rewrite trimSplit_spec in H by discriminate. destruct (filter nonblank (map trimSpace (splitStr (s2b "-") (c :: d)))) as [|a [|b r]]; try discriminate H.
    destruct (parseInt64 a) as [x []] eqn:PA; try discriminate H. destruct (parseInt64 b) as [y []] eqn:PB; try discriminate H.
    destruct (firstFree free x y) as [p'|] eqn:F; [|discriminate H]. injection H as <- <-. split; [reflexivity|]. right.
    apply firstFree_spec in F as (F1 & F2 & F3). exists a, b, r, x, y. auto 8.
Qed.
Lemma firstFree_none free a b p : (a <= p <= b)%Z -> free p = true -> firstFree free a b <> None.
Proof.
  intros R F. unfold firstFree. intro H. apply find_none with (x := p) in H; [congruence|]. apply in_map_iff. exists (Z.to_nat (p - a)).
  split; [lia|]. apply in_seq. lia.
Qed.
Lemma manage_free u mport unixOk free a b r x y p : str_or u (s2b "managementUnixSock") [] = [] ->
  str_or u (s2b "managementPortRange") [] <> [] ->
  filter nonblank (map trimSpace (splitStr (s2b "-") (str_or u (s2b "managementPortRange") []))) = a :: b :: r ->
  parseInt64 a = (x, NumOk) -> parseInt64 b = (y, NumOk) -> (x <= p <= y)%Z -> free p = true -> exists q, manageListen u mport unixOk free = LPort q q.
Proof.
  intros U N S PA PB R F. unfold manageListen. rewrite !getParam_str_or, U. destruct (str_or u (s2b "managementPortRange") []) as [|c d] eqn:E; [contradiction|].
  rewrite trimSplit_spec by discriminate. rewrite S, PA, PB. pose proof (firstFree_none free x y p R F) as X. destruct (firstFree free x y) as [q|]; [|contradiction].
  exists q. reflexivity.
Qed.
Lemma manage_unix u mport unixOk free addr : str_or u (s2b "managementUnixSock") [] = addr -> addr <> [] ->
  manageListen u mport unixOk free = if unixOk then LUnix addr 0 else LNone.
Proof. intros U N. unfold manageListen. rewrite !getParam_str_or, U. destruct addr; [contradiction|]. reflexivity. Qed.
