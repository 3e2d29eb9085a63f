(* WefProps.v: C103, what a weighted load balancer uses and when it is told. *)
From Verif Require Import Base Strconv UrlModel EpProofs LbModel WefModel WefSpec WefProofs WefProofs2.
From Coq Require Import Lia.
Ltac Zify.zify_post_hook ::= idtac.

(* If no answer came late: whenever nothing is under way, the balancer uses exactly the endpoints of the list given last, in its order, each with
   the weight its server told last, within 1 and 500, or with its static weight. *)
Theorem C103_installed : forall static sup dynamic os s, wruns static sup dynamic winit os = Some s -> on_time os -> quiet s ->
  match last_list os None with
  | None => inst s = None
  | Some eps => exists hs l, stored s = Some hs /\ inst s = Some l /\ map fst l = eps /\ up_to_date static (said s) hs l /\ Forall2 (fun e h => ep_of s h = Some e) eps hs
  end.
Proof. exact on_time_installed. Qed.
Print Assumptions C103_installed.

(* a tick asks exactly the servers whose endpoints allow it and that have never answered that they do not support it *)
Theorem C103_asked : forall static sup dynamic os s s', wruns static sup dynamic winit os = Some s -> wstep static sup dynamic s OTick = Some s' ->
  exists t, tik s' = Some t /\
    map rHolder (tReaders t) = filter (fun h => match ep_of s h with Some e => sup e && negb (refused (said s) h) | None => false end) (holders s) /\
    forall r, In r (tReaders t) -> rPc r = RNew.
Proof.
  intros static sup dynamic os s s' H T. pose proof (base_runs _ _ _ _ _ H) as (_ & (K & _) & _). unfold wstep in T. destruct (crashed s); [discriminate|]. cbn [wstep1] in T.
  destruct (tik s); [discriminate|]. destruct (stopped s || negb dynamic); [discriminate|]. injection T as <-. cbn [tik setTik]. eexists. split; [reflexivity|]. unfold newTask. cbn [tReaders]. split.
  - fold (holders s). induction (holders s) as [|h r IH]; [reflexivity|]. unfold readersFor. cbn [flat_map filter]. fold (readersFor (heap s) r). rewrite map_app, IH. unfold ep_of.
    destruct (nth_error (heap s) h) as [x|] eqn:X; [|reflexivity]. cbn [option_map]. destruct (K h x X) as (_ & _ & ->). destruct (sup (whEp x) && negb (refused (said s) h)); reflexivity.
  - intros r. apply readersFor_new.
Qed.
Print Assumptions C103_asked.

(* a new list keeps what is known of the endpoints it shares with the one in use; only the others are asked *)
Theorem C103_kept : forall static sup dynamic os s eps s', wruns static sup dynamic winit os = Some s -> wstep static sup dynamic s (OList eps) = Some s' ->
  exists a t, lst s' = Some (a, t) /\
    Forall2 (fun e h => ep_of s' h = Some e /\ ((exists h', In h' (holders s) /\ ep_of s h' = Some e) -> In h (holders s) /\ nth_error (heap s') h = nth_error (heap s) h)
                        /\ ((forall h', In h' (holders s) -> ep_of s h' <> Some e) -> length (heap s) <= h)) eps a /\
    forall r, In r (tReaders t) -> length (heap s) <= rHolder r.
Proof.
  intros static sup dynamic os s eps s' H T. pose proof (base_runs _ _ _ _ _ H) as (V & _ & _). unfold wstep in T. destruct (crashed s); [discriminate|]. cbn [wstep1] in T.
  destruct (lst s); [discriminate|]. fold (holders s) in T. destruct (holdersFor static sup (heap s) (holders s) eps) as [[a n] hp] eqn:E. injection T as <-.
  apply holders_ok in E; [|exact (proj1 V)]. destruct E as ((l & ->) & F & _ & N & Q). cbn [lst setLst]. do 2 eexists. split; [reflexivity|]. split.
  - cbn [heap setLst setHeap]. revert N V Q. clear H. intros N V Q. induction F as [|e h r a (x & X & E) _ IH]; [constructor|]. inversion Q as [|? ? ? ? Q1 Q2]; subst. constructor; [|exact (IH Q2)].
    unfold ep_of at 1. cbn [heap setLst setHeap]. rewrite X. split; [reflexivity|]. unfold findHolder in Q1. destruct (find _ (holders s)) as [h'|] eqn:Fi.
    + subst h'. apply find_some in Fi as [Fi Fe]. split.
      * intros _. split; [exact Fi|]. assert (L : nth_error (heap s ++ l) h = nth_error (heap s) h) by (apply nth_error_app1; exact (proj1 V _ Fi)). cbn [heap setLst setHeap] in *. congruence.
      * intros Hno. exfalso. apply (Hno _ Fi). unfold ep_of. destruct (nth_error (heap s) h) as [y|] eqn:Y; [|discriminate]. cbn. apply Nat.eqb_eq in Fe. congruence.
    + split.
      * intros (h' & Hh & He). exfalso. pose proof (find_none _ _ Fi _ Hh) as Fn. cbv beta in Fn. unfold ep_of in He. destruct (nth_error (heap s) h') as [y|]; [|discriminate]. cbn in He. injection He as He. rewrite He, Nat.eqb_refl in Fn. discriminate.
      * intros _. exact (proj1 (N _ Q1)).
  - intros r Hr. destruct n as [|n0 n]; [destruct Hr|]. unfold newTask in Hr. cbn [tReaders] in Hr. apply N. apply (readersFor_in (heap s ++ l) (n0 :: n)). unfold ids. apply in_map. exact Hr.
Qed.
Print Assumptions C103_kept.

(* an endpoint never gets a weight outside 1 to 500, on time or not *)
Theorem C103_bounded : forall static sup dynamic os s, (forall e, (1 <= static e <= 500)%Z) -> wruns static sup dynamic winit os = Some s ->
  forall l, inst s = Some l -> forall e w, In (e, w) l -> (1 <= w <= 500)%Z.
Proof.
  intros static sup dynamic os s ST. revert s. induction os as [|o os IH] using rev_ind; intros s H; [injection H as <-; discriminate|].
  apply runs_snoc in H as (s1 & H1 & _ & H2). pose proof (base_runs _ _ _ _ _ H1) as B.
  assert (W : forall l, seen s1 = Some l -> forall e w, In (e, w) l -> (1 <= w <= 500)%Z).
  { intros l E e w Hin. rewrite seen_obs in E. destruct (stored s1) as [hs|]; [|exact (IH _ H1 _ E _ _ Hin)]. injection E as <-. apply in_flat_map in Hin as (h & _ & Hin).
    unfold obs in Hin. destruct (nth_error (heap s1) h) as [x|] eqn:X; [|destruct Hin]. destruct Hin as [E|[]]. injection E as <- <-.
    destruct (proj1 (proj1 (proj2 B)) h x X) as (A1 & A2 & _). erewrite (adjust_weight static sup (whEp x) x (said s1) h A1 A2). unfold weight_for.
    destruct (told (said s1) h) as [[|c v]|]; [apply ST| |apply ST]. destruct (parseInt64 (c :: v)) as [z [| |]]; try apply ST. lia. }
  assert (E : inst s = inst s1 \/ inst s = seen s1).
  { destruct o; cbn [wstep1] in H2.
    - destruct (lst s1); [discriminate|]. destruct (holdersFor _ _ _ _ _) as [[? ?] ?]. injection H2 as <-. left. reflexivity.
    - destruct (tik s1); [discriminate|]. destruct (stopped s1 || negb dynamic); [discriminate|]. injection H2 as <-. left. reflexivity.
    - destruct (nth_error (readersOf s1 k) i) as [r|]; [|discriminate]. destruct (rPc r); try discriminate. destruct (nth_error (heap s1) (rHolder r)) as [x|]; [|discriminate]. injection H2 as <-. left. apply heap_setReaders.
    - destruct (nth_error (readersOf s1 k) i) as [r|]; [|discriminate]. destruct (rPc r); try discriminate. destruct (nth_error (heap s1) (rHolder r)) as [x|]; [|discriminate]. injection H2 as <-. left.
      match goal with |- context [setReaders ?a ?b ?c ?d] => destruct (heap_setReaders a b c d) as (_ & _ & _ & -> & _) end. reflexivity.
    - destruct (taskOf s1 k) as [t|]; [|discriminate]. destruct (tPc t); try discriminate. destruct (idle t && negb (tSending t)); [|discriminate]. injection H2 as <-. left. unfold setTask. destruct k; try reflexivity. destruct (lst s1) as [[? ?]|]; reflexivity.
    - destruct (taskOf s1 k) as [t|]; [|discriminate]. destruct (tPc t); try discriminate. destruct (tSending t); [|discriminate]. injection H2 as <-. left. unfold returned, setTask. destruct k; cbn; [destruct (lst s1) as [[? ?]|]|destruct (tChanged t)|]; reflexivity.
    - destruct (taskOf s1 k) as [t|]; [|discriminate]. destruct (tPc t); try discriminate. injection H2 as <-. left. unfold returned, setTask. destruct k; cbn; [destruct (lst s1) as [[? ?]|]|destruct (tChanged t)|]; reflexivity.
    - destruct (lst s1) as [[? t]|]; [|discriminate]. destruct (tPc t); try discriminate. injection H2 as <-. left. reflexivity.
    - destruct (taskOf s1 k) as [t|]; [|discriminate]. destruct (tPc t); try discriminate. injection H2 as <-. right. destruct k; reflexivity.
    - injection H2 as <-. left. reflexivity.
    - destruct (tik s1); [discriminate|]. destruct (cancelled s1 && negb (stopped s1)); [|discriminate]. injection H2 as <-. left. reflexivity. }
  destruct E as [->| ->]; [exact (IH _ H1)|exact W].
Qed.
Print Assumptions C103_bounded.

(* ------------------------------------------------------------ waiting *)
Lemma tik_pc : forall static sup dynamic os s, wruns static sup dynamic winit os = Some s -> forall t, tik s = Some t -> tPc t <> PStore.
Proof.
  intros static sup dynamic. induction os as [|o os IH] using rev_ind; intros s H; [injection H as <-; discriminate|].
  apply runs_snoc in H as (s1 & H1 & _ & H2). specialize (IH _ H1). destruct o; cbn [wstep1] in H2.
  - destruct (lst s1); [discriminate|]. destruct (holdersFor _ _ _ _ _) as [[? ?] ?]. injection H2 as <-. exact IH.
  - destruct (tik s1); [discriminate|]. destruct (stopped s1 || negb dynamic); [discriminate|]. injection H2 as <-. intros t E. injection E as <-. discriminate.
  - destruct (nth_error (readersOf s1 k) i) as [r|]; [|discriminate]. destruct (rPc r); try discriminate. destruct (nth_error (heap s1) (rHolder r)) as [x|]; [|discriminate]. injection H2 as <-. intros t. rewrite tik_setReaders.
    destruct k; destruct (tik s1) as [t1|]; try discriminate; intros E; try (injection E as <-; exact (IH _ eq_refl)).
  - destruct (nth_error (readersOf s1 k) i) as [r|]; [|discriminate]. destruct (rPc r); try discriminate. destruct (nth_error (heap s1) (rHolder r)) as [x|]; [|discriminate]. injection H2 as <-. intros t. rewrite tik_setReaders. cbn [tik setHeap].
    destruct k; destruct (tik s1) as [t1|]; try discriminate; intros E; try (injection E as <-; exact (IH _ eq_refl)).
  - destruct (taskOf s1 k) as [t|]; [|discriminate]. destruct (tPc t); try discriminate. destruct (idle t && negb (tSending t)); [|discriminate]. injection H2 as <-. unfold setTask. destruct k; [destruct (lst s1) as [[? ?]|]; exact IH|intros t0 E; injection E as <-; discriminate|exact IH].
  - destruct (taskOf s1 k) as [t|]; [|discriminate]. destruct (tPc t); try discriminate. destruct (tSending t); [|discriminate]. injection H2 as <-. unfold returned, setTask. destruct k; cbn; [destruct (lst s1) as [[? ?]|]; exact IH|destruct (tChanged t); [intros t0 E; injection E as <-; discriminate|discriminate]|exact IH].
  - destruct (taskOf s1 k) as [t|]; [|discriminate]. destruct (tPc t); try discriminate. injection H2 as <-. unfold returned, setTask. destruct k; cbn; [destruct (lst s1) as [[? ?]|]; exact IH|destruct (tChanged t); [intros t0 E; injection E as <-; discriminate|discriminate]|exact IH].
  - destruct (lst s1) as [[? t]|]; [|discriminate]. destruct (tPc t); try discriminate. injection H2 as <-. exact IH.
  - destruct (taskOf s1 k) as [t|]; [|discriminate]. destruct (tPc t); try discriminate. injection H2 as <-. destruct k; [exact IH|discriminate|discriminate].
  - injection H2 as <-. exact IH.
  - destruct (tik s1); [discriminate|]. destruct (cancelled s1 && negb (stopped s1)); [|discriminate]. injection H2 as <-. exact IH.
Qed.
(* neither a new list nor a tick waits on a server: without any further answer each can be brought to its end, in at most three steps *)
Theorem C103_ends : forall static sup dynamic os0 s, wruns static sup dynamic winit os0 = Some s -> crashed s = false ->
  (forall a t, lst s = Some (a, t) -> exists os s', length os <= 3 /\ (forall o, In o os -> o = OTake WList \/ o = OTimeout WList \/ o = OStore \/ o = ONotify WList) /\
     wruns static sup dynamic s os = Some s' /\ lst s' = None /\ stored s' = Some a /\ crashed s' = false) /\
  (forall t, tik s = Some t -> exists os s', length os <= 2 /\ (forall o, In o os -> o = OTake WTick \/ o = OTimeout WTick \/ o = ONotify WTick) /\
     wruns static sup dynamic s os = Some s' /\ tik s' = None /\ crashed s' = false).
Proof.
  intros static sup dynamic os0 s RN C. pose proof (base_runs _ _ _ _ _ RN) as (_ & _ & LI). pose proof (tik_pc _ _ _ _ _ RN) as TP. clear RN. unfold lists in LI.
  destruct s as [hp st ins l tk la ca sp cr sd]. cbn [lst tik stored heap crashed] in *. subst cr. split.
  - intros a [rs ch se pc] E. subst l. destruct LI as (_ & LI). cbn [tPc] in LI. destruct pc; [destruct se| |].
    + exists [OTake WList; OStore; ONotify WList]. eexists. split; [cbn; lia|]. split; [intros o [<-|[<-|[<-|[]]]]; auto|]. split; [reflexivity|repeat split].
    + exists [OTimeout WList; OStore; ONotify WList]. eexists. split; [cbn; lia|]. split; [intros o [<-|[<-|[<-|[]]]]; auto|]. split; [reflexivity|repeat split].
    + exists [OStore; ONotify WList]. eexists. split; [cbn; lia|]. split; [intros o [<-|[<-|[]]]; auto|]. split; [reflexivity|repeat split].
    + exists [ONotify WList]. eexists. split; [cbn; lia|]. split; [intros o [<-|[]]; auto|]. split; [reflexivity|]. split; [reflexivity|]. split; [exact (LI eq_refl)|reflexivity].
  - intros [rs ch se pc] E. subst tk. specialize (TP _ eq_refl). cbn [tPc] in TP. destruct pc; [destruct se; destruct ch|congruence|].
    + exists [OTake WTick; ONotify WTick]. eexists. split; [cbn; lia|]. split; [intros o [<-|[<-|[]]]; auto|]. split; [reflexivity|split; reflexivity].
    + exists [OTake WTick]. eexists. split; [cbn; lia|]. split; [intros o [<-|[]]; auto|]. split; [reflexivity|split; reflexivity].
    + exists [OTimeout WTick; ONotify WTick]. eexists. split; [cbn; lia|]. split; [intros o [<-|[<-|[]]]; auto|]. split; [reflexivity|split; reflexivity].
    + exists [OTimeout WTick]. eexists. split; [cbn; lia|]. split; [intros o [<-|[]]; auto|]. split; [reflexivity|split; reflexivity].
    + exists [ONotify WTick]. eexists. split; [cbn; lia|]. split; [intros o [<-|[]]; auto|]. split; [reflexivity|split; reflexivity].
Qed.
Print Assumptions C103_ends.

(* the process can only be brought down when the time runs out just after the last answer: on time it never is *)
Theorem C103_crash : forall static sup dynamic os s, wruns static sup dynamic winit os = Some s -> crashed s = true ->
  exists os' k s0 t, os = os' ++ [OTimeout k] /\ wruns static sup dynamic winit os' = Some s0 /\ taskOf s0 k = Some t /\ tSending t = true.
Proof.
  intros static sup dynamic os s H C. destruct (rev_ind (fun os => os = [] \/ exists os' o, os = os' ++ [o]) (or_introl eq_refl) (fun o l _ => or_intror (ex_intro _ l (ex_intro _ o eq_refl))) os) as [->|(os' & o & ->)]; [injection H as <-; discriminate|].
  apply runs_snoc in H as (s1 & H1 & C1 & H2). destruct o; cbn [wstep1] in H2.
  1: destruct (lst s1); [discriminate|]; destruct (holdersFor _ _ _ _ _) as [[? ?] ?]; injection H2 as <-; cbn in C; congruence.
  1: destruct (tik s1); [discriminate|]; destruct (stopped s1 || negb dynamic); [discriminate|]; injection H2 as <-; cbn in C; congruence.
  1, 2: destruct (nth_error (readersOf s1 k) i) as [r|]; [|discriminate]; destruct (rPc r); try discriminate; destruct (nth_error (heap s1) (rHolder r)) as [x|]; [|discriminate]; injection H2 as <-;
     match type of C with context [setReaders ?a ?b ?c ?d] => destruct (heap_setReaders a b c d) as (_ & _ & _ & _ & _ & _ & Q); rewrite Q in C; cbn in C; congruence end.
  1: destruct (taskOf s1 k) as [t|]; [|discriminate]; destruct (tPc t); try discriminate; destruct (idle t && negb (tSending t)); [|discriminate]; injection H2 as <-; unfold setTask in C; destruct k; [destruct (lst s1) as [[? ?]|]| |]; cbn in C; congruence.
  1: destruct (taskOf s1 k) as [t|]; [|discriminate]; destruct (tPc t); try discriminate; destruct (tSending t); [|discriminate]; injection H2 as <-; unfold returned, setTask in C; destruct k; cbn in C; [destruct (lst s1) as [[? ?]|]|destruct (tChanged t)|]; cbn in C; congruence.
  1: { destruct (taskOf s1 k) as [t|] eqn:T; [|discriminate]. destruct (tPc t); try discriminate. injection H2 as <-. cbn in C. exists os', k, s1, t. auto. }
  1: destruct (lst s1) as [[? t]|]; [|discriminate]; destruct (tPc t); try discriminate; injection H2 as <-; cbn in C; congruence.
  1: destruct (taskOf s1 k) as [t|]; [|discriminate]; destruct (tPc t); try discriminate; injection H2 as <-; destruct k; cbn in C; congruence.
  1: injection H2 as <-; cbn in C; congruence.
  destruct (tik s1); [discriminate|]. destruct (cancelled s1 && negb (stopped s1)); [|discriminate]. injection H2 as <-. cbn in C. congruence.
Qed.
Print Assumptions C103_crash.
Theorem C103_on_time_no_crash : forall static sup dynamic os s, wruns static sup dynamic winit os = Some s -> on_time os -> crashed s = false.
Proof.
  intros static sup dynamic os s H T. destruct (crashed s) eqn:C; [|reflexivity]. destruct (C103_crash _ _ _ _ _ H C) as (os' & k & s0 & t & -> & _). exfalso. apply (T k), in_or_app. right. left. reflexivity.
Qed.
(* ... and then it is: the goroutine that waited for the answers sends on a channel that has just been closed *)
Theorem C103_crash_refuted : exists os s, wruns (fun _ => 10%Z) (fun _ => true) true winit os = Some s /\ crashed s = true.
Proof. eexists [OList [1]; OBegin WList 0; OAnswer WList 0 (AWeight (s2b "20")); OWaited WList; OTimeout WList], _. split; reflexivity. Qed.
Print Assumptions C103_crash_refuted.

(* A weight told after the time has run out is kept but not used: the balancer is not told, and however often the server repeats it on time,
   it never is. *)
Definition late_run : list wop := [OList [1; 2]; OBegin WList 0; OBegin WList 1; OAnswer WList 1 (AWeight (s2b "10")); OTimeout WList; OStore; ONotify WList; OAnswer WLate 0 (AWeight (s2b "200"))].
Definition tick_run : list wop := [OTick; OBegin WTick 0; OBegin WTick 1; OAnswer WTick 0 (AWeight (s2b "200")); OAnswer WTick 1 (AWeight (s2b "10")); OWaited WTick; OTake WTick].
Theorem C103_late_refuted : forall n, exists s hs, wruns (fun _ => 10%Z) (fun _ => true) true winit (late_run ++ concat (repeat tick_run n)) = Some s /\ quiet s /\
  stored s = Some hs /\ inst s = Some [(1, 10%Z); (2, 10%Z)] /\ told (said s) 0 = Some (s2b "200") /\ ~ up_to_date (fun _ => 10%Z) (said s) hs [(1, 10%Z); (2, 10%Z)].
Proof.
  intros n. set (st := fun la sd => mkWef [mkWh 1 10 true 200; mkWh 2 10 true 10] (Some [0; 1]) (Some [(1, 10%Z); (2, 10%Z)]) None None la false false false sd).
  assert (T : forall la sd, wruns (fun _ => 10%Z) (fun _ => true) true (st la sd) tick_run = Some (st (la ++ []) ((1, AWeight (s2b "10")) :: (0, AWeight (s2b "200")) :: sd))) by (intros la sd; reflexivity).
  assert (I0 : wruns (fun _ => 10%Z) (fun _ => true) true winit late_run = Some (st [mkReader 0 RDone] [(0, AWeight (s2b "200")); (1, AWeight (s2b "10"))])) by reflexivity.
  assert (G : forall m la sd, told sd 0 = Some (s2b "200") -> exists la' sd', wruns (fun _ => 10%Z) (fun _ => true) true (st la sd) (concat (repeat tick_run m)) = Some (st la' sd') /\ told sd' 0 = Some (s2b "200")).
  { induction m as [|m IH]; intros la sd E; [exists la, sd; split; [reflexivity|exact E]|]. cbn [repeat concat]. rewrite runs_app, T. apply IH. reflexivity. }
  destruct (G n [mkReader 0 RDone] [(0, AWeight (s2b "200")); (1, AWeight (s2b "10"))] eq_refl) as (la & sd & R & E).
  exists (st la sd), [0; 1]. rewrite runs_app, I0, R. split; [reflexivity|]. split; [split; reflexivity|]. split; [reflexivity|]. split; [reflexivity|]. split; [exact E|].
  intros U. inversion U as [|? ? ? ? U1 _]; subst. cbn [fst snd said st] in U1. unfold st in U1. cbn [said] in U1. rewrite E in U1. vm_compute in U1. discriminate.
Qed.
Print Assumptions C103_late_refuted.

(* once the refresher has stopped there are no more ticks *)
Theorem C103_stopped : forall static sup dynamic os s s', stopped s = true -> tik s = None -> wruns static sup dynamic s os = Some s' -> ~ In OTick os /\ stopped s' = true /\ tik s' = None.
Proof.
  intros static sup dynamic. induction os as [|o os IH]; intros s s' ST TK H; [injection H as <-; auto|]. cbn [wruns] in H. unfold wstep in H. destruct (crashed s); [discriminate|].
  destruct (wstep1 static sup dynamic s o) as [s1|] eqn:E; [|discriminate].
  assert (G : stopped s1 = true /\ tik s1 = None /\ o <> OTick).
  { destruct o; cbn [wstep1] in E; try rewrite TK in E; try rewrite ST in E.
    - destruct (lst s); [discriminate|]. destruct (holdersFor _ _ _ _ _) as [[? ?] ?]. injection E as <-. repeat split; auto; discriminate.
    - discriminate.
    - destruct (nth_error (readersOf s k) i) as [r|]; [|discriminate]. destruct (rPc r); try discriminate. destruct (nth_error (heap s) (rHolder r)) as [x|]; [|discriminate]. injection E as <-. rewrite tik_setReaders, TK.
      match goal with |- context [stopped (setReaders ?a ?b ?c ?d)] => destruct (heap_setReaders a b c d) as (_ & _ & _ & _ & -> & _) end. repeat split; auto; [destruct k; reflexivity|discriminate].
    - destruct (nth_error (readersOf s k) i) as [r|]; [|discriminate]. destruct (rPc r); try discriminate. destruct (nth_error (heap s) (rHolder r)) as [x|]; [|discriminate]. injection E as <-. rewrite tik_setReaders. cbn [tik setHeap]. rewrite TK.
      match goal with |- context [stopped (setReaders ?a ?b ?c ?d)] => destruct (heap_setReaders a b c d) as (_ & _ & _ & _ & -> & _) end. repeat split; auto; [destruct k; reflexivity|discriminate].
    - destruct k; cbn [taskOf] in E; try rewrite TK in E; try discriminate. destruct (lst s) as [[a t]|] eqn:EL; [|discriminate]. destruct (tPc t); try discriminate. destruct (idle t && negb (tSending t)); [|discriminate]. injection E as <-. unfold setTask. rewrite EL. repeat split; auto; discriminate.
    - destruct k; cbn [taskOf] in E; try rewrite TK in E; try discriminate. destruct (lst s) as [[a t]|] eqn:EL; [|discriminate]. destruct (tPc t); try discriminate. destruct (tSending t); [|discriminate]. injection E as <-. unfold returned, setTask. cbn [lst setLate]. rewrite EL. repeat split; auto; discriminate.
    - destruct k; cbn [taskOf] in E; try rewrite TK in E; try discriminate. destruct (lst s) as [[a t]|] eqn:EL; [|discriminate]. destruct (tPc t); try discriminate. injection E as <-. unfold returned, setTask. cbn [lst setLate]. rewrite EL. repeat split; auto; discriminate.
    - destruct (lst s) as [[? t]|]; [|discriminate]. destruct (tPc t); try discriminate. injection E as <-. repeat split; auto; discriminate.
    - destruct k; cbn [taskOf] in E; try rewrite TK in E; try discriminate. destruct (lst s) as [[a t]|] eqn:EL; [|discriminate]. destruct (tPc t); try discriminate. injection E as <-. repeat split; auto; discriminate.
    - injection E as <-. repeat split; auto; discriminate.
    - rewrite andb_false_r in E. discriminate. }
  destruct G as (G1 & G2 & G3). destruct (IH _ _ G1 G2 H) as (A & B). split; [|exact B]. intros [X|X]; [exact (G3 X)|exact (A X)].
Qed.
Print Assumptions C103_stopped.
Theorem C103_can_stop : forall static sup dynamic s, crashed s = false -> cancelled s = true -> tik s = None -> stopped s = false -> exists s', wstep static sup dynamic s OStop = Some s' /\ stopped s' = true.
Proof. intros static sup dynamic s C1 C2 T S0. unfold wstep. rewrite C1. cbn [wstep1]. rewrite T, C2, S0. eexists. split; reflexivity. Qed.
Print Assumptions C103_can_stop.

(* ------------------------------------------------------------ the period *)
(* the ticker's period in nanoseconds, 3 seconds when none is configured; ticks ask unless dynamicMeta says no *)
Theorem C103_period : forall u,
  (pget (uParams u) (s2b "weightRefreshPeriodSecond") = None -> newRefresher (fresh u) = Some (3000000000%Z, getBoolValue u (s2b "dynamicMeta") true)) /\
  (forall t n, pget (uParams u) (s2b "weightRefreshPeriodSecond") = Some t -> parseInt64 t = (n, NumOk) -> (1 <= n <= 9223372036)%Z ->
     newRefresher (fresh u) = Some ((n * 1000000000)%Z, getBoolValue u (s2b "dynamicMeta") true)).
Proof.
  intros u. unfold newRefresher, getIntValue, getInt. cbn [aget fresh cInt cUrl]. split.
  - intros ->. reflexivity.
  - intros t n -> P R. cbn [parseParam]. rewrite P. change (wrapI64 1000000000) with 1000000000%Z.
    assert (E : wrapI64 (1000000000 * n) = (n * 1000000000)%Z) by (rewrite wrapI64_id; lia). rewrite E.
    destruct (n * 1000000000 <=? 0)%Z eqn:L; [apply Z.leb_le in L; lia|reflexivity].
Qed.
Print Assumptions C103_period.
(* a configured 0, or a number of seconds too large for the clock's unit, ends the process *)
Theorem C103_period_refuted : forall t, In t ["0"; "-1"; "9223372037"]%string ->
  newRefresher (fresh (mkUrl [] [] 0 [] [] (Some [(s2b "weightRefreshPeriodSecond", s2b t)]))) = None.
Proof. intros t [<-|[<-|[<-|[]]]]; vm_compute; reflexivity. Qed.
Print Assumptions C103_period_refuted.

Definition ex103 : list wop :=
  [OList [7; 8; 9]; OBegin WList 0; OBegin WList 1; OAnswer WList 1 (AWeight (s2b "700")); OAnswer WList 0 ANot; OWaited WList; OTake WList; OStore; ONotify WList;
   OTick; OBegin WTick 0; OAnswer WTick 0 (AWeight (s2b "33")); OWaited WTick; OTake WTick; ONotify WTick;
   OList [8; 7]; OStore; ONotify WList].
Example C103_example : exists s, wruns (fun e => Z.of_nat e) (fun e => Nat.ltb e 9) true winit ex103 = Some s /\ on_time ex103 /\ quiet s /\ last_list ex103 None = Some [8; 7] /\
  inst s = Some [(8, 33%Z); (7, 7%Z)] /\ wstep (fun e => Z.of_nat e) (fun e => Nat.ltb e 9) true s OTick <> None.
Proof.
  eexists. split; [vm_compute; reflexivity|]. split; [|split; [split; reflexivity|split; [reflexivity|split; [reflexivity|vm_compute; discriminate]]]].
  intros k H. unfold ex103 in H. cbn in H. repeat destruct H as [H|H]; try discriminate; exact H.
Qed.
Example C103_stopped_example : exists s, wruns (fun _ => 1%Z) (fun _ => true) true winit [ODestroy; OStop] = Some s /\ stopped s = true /\ tik s = None /\ crashed s = false.
Proof. eexists. repeat split. Qed.
