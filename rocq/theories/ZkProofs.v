(* ZkProofs.v: proofs for C46 and C74. *)
From Verif Require Import Base Strconv GoStrings GoStrings2 UrlModel UrlSpec UrlProofs ZkModel ZkSpec.
Ltac Zify.zify_post_hook ::= idtac.
Set Implicit Arguments.

(* ---- paths *)
Lemma last_sep (a b x y : bs) : ~ In x2f x -> ~ In x2f y -> a ++ sep ++ x = b ++ sep ++ y -> a = b /\ x = y.
Proof.
  intros Hx Hy H. change sep with [x2f] in H. revert b H. induction a as [|c a IH]; intros [|d b] H; cbn [app] in H.
  - injection H as ->. split; reflexivity.
  - exfalso. injection H as <- H. apply Hx. rewrite H. apply in_app_iff. right. left. reflexivity.
  - exfalso. injection H as -> H. apply Hy. rewrite <- H. apply in_app_iff. right. left. reflexivity.
  - injection H as -> H. destruct (IH b H) as [-> ->]. split; reflexivity.
Qed.
Lemma first_sep (a b x y : bs) : ~ In x2f a -> ~ In x2f b -> a ++ sep ++ x = b ++ sep ++ y -> a = b /\ x = y.
Proof.
  intros Ha Hb H. change sep with [x2f] in H. revert b Hb H. induction a as [|c a IH]; intros [|d b] Hb H; cbn [app] in H.
  - injection H as ->. split; reflexivity.
  - exfalso. injection H as <- H. apply Hb. left. reflexivity.
  - exfalso. injection H as -> H. apply Ha. left. reflexivity.
  - injection H as -> H. destruct (IH (fun I => Ha (or_intror I)) b (fun I => Hb (or_intror I)) H) as [-> ->]. split; reflexivity.
Qed.
Definition kind_ (ty : bs) : Prop := ty = server \/ ty = unavailable.
Lemma kind_free ty : kind_ ty -> ~ In x2f ty.
Proof. intros [->| ->] H; vm_compute in H; repeat (destruct H as [H|H]; [discriminate H|]); destruct H. Qed.
Lemma nodePath_inj ty ty' u v : kind_ ty -> kind_ ty' -> plain u -> plain v -> nodePath ty u = nodePath ty' v -> ty = ty' /\ same_place u v.
Proof.
  intros K K' [G [A _]] [G' [A' _]] H. unfold nodePath in H. apply app_inv_head in H. apply app_inv_head in H.
  apply first_sep in H as [E1 H]; [|exact G|exact G'].
  assert (X : (uPath u ++ sep ++ ty) ++ sep ++ addr u = (uPath v ++ sep ++ ty') ++ sep ++ addr v) by (rewrite <- !app_assoc; exact H).
  apply last_sep in X as [X E3]; [|exact A|exact A']. apply last_sep in X as [E2 E4]; [|exact (kind_free K)|exact (kind_free K')].
  split; [exact E4|]. split; [exact E1|]. split; [exact E2|exact E3].
Qed.
Lemma server_ne : server <> unavailable. Proof. discriminate. Qed.

(* ---- moving nodes *)
Definition url_eq_dec (u v : url) : {u = v} + {u <> v}.
Proof. decide equality; try apply bs_eq_dec; try apply Z.eq_dec. decide equality. apply list_eq_dec. decide equality; apply bs_eq_dec. Defined.
(* a set of URLs of which the nodes do not get into each other's way *)
Definition apart (U : url -> Prop) : Prop := forall u v ty ty', U u -> U v -> kind_ ty -> kind_ ty' -> nodePath ty u = nodePath ty' v -> u = v /\ ty = ty'.
Lemma get_move from to t u p :
  aget bs_eqb (move from to t u) p = if bs_eqb p (nodePath to u) then Some (true, ext_info u) else if bs_eqb p (nodePath from u) then None else aget bs_eqb t p.
Proof.
  unfold move, createAt, removeAt. rewrite (aget_aset bs_eqb bs_eqb_spec). destruct (bs_eqb p (nodePath to u)) eqn:E; [reflexivity|].
  rewrite (aget_adel bs_eqb bs_eqb_spec), E, (aget_adel bs_eqb bs_eqb_spec). reflexivity.
Qed.
Lemma moves from to (U : url -> Prop) : kind_ from -> kind_ to -> from <> to -> apart U -> forall l, (forall u, In u l -> U u) -> forall t,
  (forall u ty, U u -> kind_ ty -> aget bs_eqb (fold_left (move from to) l t) (nodePath ty u) =
     if in_dec url_eq_dec u l then (if bs_eqb ty to then Some (true, ext_info u) else None) else aget bs_eqb t (nodePath ty u)) /\
  (forall p, (forall u ty, U u -> kind_ ty -> p <> nodePath ty u) -> aget bs_eqb (fold_left (move from to) l t) p = aget bs_eqb t p).
Proof.
  intros KF KT D AP. induction l as [|v l IH]; intros HU t; cbn [fold_left].
  { split; [|reflexivity]. intros u ty _ _. destruct (in_dec url_eq_dec u []) as [[]|_]. reflexivity. }
  assert (Uv : U v) by (apply HU; left; reflexivity).
  destruct (IH (fun u I => HU u (or_intror I)) (move from to t v)) as [A B]. split.
  - intros u ty Uu K. rewrite (A u ty Uu K). destruct (in_dec url_eq_dec u l) as [I|NI].
    + destruct (in_dec url_eq_dec u (v :: l)) as [_|N]; [reflexivity|]. exfalso. apply N. right. exact I.
    + rewrite get_move. destruct (url_eq_dec v u) as [->|NE].
      * destruct (in_dec url_eq_dec u (u :: l)) as [_|N]; [|exfalso; apply N; left; reflexivity].
        destruct (bs_eqb ty to) eqn:E.
        -- apply bs_eqb_spec in E. subst ty. rewrite bs_eqb_refl. reflexivity.
        -- apply bs_eqb_neq in E. destruct (bs_eqb (nodePath ty u) (nodePath to u)) eqn:E1.
           { exfalso. apply bs_eqb_spec in E1. destruct (AP _ _ _ _ Uu Uu K KT E1) as [_ X]. congruence. }
           assert (ty = from) as ->. { destruct K as [->| ->], KF as [->| ->], KT as [->| ->]; congruence. }
           rewrite bs_eqb_refl. reflexivity.
      * destruct (in_dec url_eq_dec u (v :: l)) as [[I|I]|N]; [congruence|contradiction|].
        destruct (bs_eqb (nodePath ty u) (nodePath to v)) eqn:E1. { exfalso. apply bs_eqb_spec in E1. destruct (AP _ _ _ _ Uu Uv K KT E1). congruence. }
        destruct (bs_eqb (nodePath ty u) (nodePath from v)) eqn:E2. { exfalso. apply bs_eqb_spec in E2. destruct (AP _ _ _ _ Uu Uv K KF E2). congruence. }
        reflexivity.
  - intros p H. rewrite (B p H), get_move.
    destruct (bs_eqb p (nodePath to v)) eqn:E1. { exfalso. apply bs_eqb_spec in E1. exact (H v to Uv KT E1). }
    destruct (bs_eqb p (nodePath from v)) eqn:E2. { exfalso. apply bs_eqb_spec in E2. exact (H v from Uv KF E2). }
    reflexivity.
Qed.

(* ---- the invariant *)
Definition reg_of (w : wish) (u : url) : Prop := exists b, aget bs_eqb (wReg w) (ident u) = Some (u, b).
Fixpoint wfq (flag : bool) (q : list zev) (up : bool) : Prop :=
  match q with
  | [] => flag = up
  | EvDisconnected :: r => flag = true /\ wfq false r up
  | EvHasSession :: r => flag = false /\ wfq true r up
  end.
Lemma wfq_snoc_d q : forall f, wfq f q true -> wfq f (q ++ [EvDisconnected]) false.
Proof. induction q as [|[|] q IH]; intros f H; cbn [app wfq] in *; [split; [exact H|reflexivity]| |]; destruct H as [A B]; (split; [exact A|apply IH; exact B]). Qed.
Lemma wfq_snoc_s q : forall f, wfq f q false -> wfq f (q ++ [EvHasSession]) true.
Proof. induction q as [|[|] q IH]; intros f H; cbn [app wfq] in *; [split; [exact H|reflexivity]| |]; destruct H as [A B]; (split; [exact A|apply IH; exact B]). Qed.

(* what the session's nodes say about a registered service *)
Definition shows (t : tree) (u : url) (b : bool) : Prop :=
  (aget bs_eqb t (nodePath server u) = Some (true, ext_info u) <-> b = true) /\
  (aget bs_eqb t (nodePath unavailable u) = Some (true, ext_info u) <-> b = false).
Definition owned (t : tree) (w : wish) : Prop :=
  forall p d, aget bs_eqb t p = Some (true, d) -> exists u ty, reg_of w u /\ kind_ ty /\ p = nodePath ty u /\ d = ext_info u.
Record zinv (s : zst) (w : wish) : Prop := {
  zv_q : wfq (zFlag s) (zQueue s) (zUp s);
  zv_nw : NoDup (akeys (wReg w)); zv_nr : NoDup (akeys (zReg s)); zv_na : NoDup (akeys (zAvail s));
  zv_key : forall k u b, aget bs_eqb (wReg w) k = Some (u, b) -> k = ident u /\ plain u;
  zv_place : forall u v, reg_of w u -> reg_of w v -> same_place u v -> u = v;
  zv_reg : forall k, aget bs_eqb (zReg s) k = option_map fst (aget bs_eqb (wReg w) k);
  zv_av : forall k, aget bs_eqb (zAvail s) k <> None <-> exists u, aget bs_eqb (wReg w) k = Some (u, true);
  zv_avu : forall k v, aget bs_eqb (zAvail s) k = Some (Some v) -> exists b, aget bs_eqb (wReg w) k = Some (v, b);
  zv_nil : forall k, aget bs_eqb (zAvail s) k = Some None -> wAll w = true;
  zv_owned : owned (zTree s) w;
  zv_exact : zUp s = true -> zQueue s = [] -> forall u b, aget bs_eqb (wReg w) (ident u) = Some (u, b) -> shows (zTree s) u b }.

Lemma apart_of s w : zinv s w -> apart (reg_of w).
Proof.
  intros V u v ty ty' RU RV KT KT' E. pose proof RU as [b B]. pose proof RV as [c C].
  destruct (nodePath_inj KT KT' (proj2 (zv_key V _ B)) (proj2 (zv_key V _ C)) E) as [ET P].
  split; [|exact ET]. exact (zv_place V RU RV P).
Qed.
Lemma in_reg s w u : zinv s w -> In u (map snd (zReg s)) <-> reg_of w u.
Proof.
  intro V. split.
  - intro I. apply in_map_iff in I as [[k v] [E I]]. cbn in E. subst v. pose proof (In_aget bs_eqb bs_eqb_spec _ _ _ (zv_nr V) I) as G.
    rewrite (zv_reg V) in G. destruct (aget bs_eqb (wReg w) k) as [[v b]|] eqn:W; [|discriminate G]. cbn in G. injection G as ->.
    destruct (zv_key V _ W) as [-> _]. exists b. exact W.
  - intros [b B]. apply in_map_iff. exists (ident u, u). split; [reflexivity|]. apply (aget_In bs_eqb bs_eqb_spec). rewrite (zv_reg V), B. reflexivity.
Qed.

(* ---- availability of several services *)
Definition targets (s : zst) (a : option url) : list url := match a with None => map snd (zReg s) | Some u => [u] end.
Lemma avail_step s a : doAvailable s a =
  mkZ (zUp s) (if zUp s then fold_left (move unavailable server) (targets s a) (zTree s) else zTree s) (zFlag s) (zReg s)
      (fold_left (fun m u => aset bs_eqb m (ident u) a) (targets s a) (zAvail s)) (zQueue s).
Proof.
  destruct a as [u|]; cbn [targets doAvailable fold_left].
  - destruct s as [up t f r a q]. unfold setTree, setAvail. cbn [zUp zTree zFlag zReg zAvail zQueue]. destruct up; reflexivity.
  - generalize (map snd (zReg s)) as l. intro l. revert s. induction l as [|u l IH]; intros s; cbn [fold_left].
    + destruct s as [up t f r a q]. cbn. destruct up; reflexivity.
    + rewrite IH. destruct s as [up t f r a q]. unfold setTree, setAvail. cbn [zUp zTree zFlag zReg zAvail zQueue]. destruct up; reflexivity.
Qed.
Lemma unavail_step s a : doUnavailable s a =
  mkZ (zUp s) (if zUp s then fold_left (move server unavailable) (targets s a) (zTree s) else zTree s) (zFlag s) (zReg s)
      (fold_left (fun m u => adel bs_eqb m (ident u)) (targets s a) (zAvail s)) (zQueue s).
Proof.
  destruct a as [u|]; cbn [targets doUnavailable fold_left].
  - destruct s as [up t f r a q]. unfold setTree, setAvail. cbn [zUp zTree zFlag zReg zAvail zQueue]. destruct up; reflexivity.
  - generalize (map snd (zReg s)) as l. intro l. revert s. induction l as [|u l IH]; intros s; cbn [fold_left].
    + destruct s as [up t f r a q]. cbn. destruct up; reflexivity.
    + rewrite IH. destruct s as [up t f r a q]. unfold setTree, setAvail. cbn [zUp zTree zFlag zReg zAvail zQueue]. destruct up; reflexivity.
Qed.
Lemma register_all l : forall s, (forall u, In u l -> isAgent u = false) -> fold_left doRegister l s =
  mkZ (zUp s) (if zUp s then fold_left (move server unavailable) l (zTree s) else zTree s) (zFlag s) (zReg s) (zAvail s) (zQueue s).
Proof.
  induction l as [|u l IH]; intros s H; cbn [fold_left].
  - destruct s as [up t f r a q]. cbn. destruct up; reflexivity.
  - rewrite (IH _ (fun v I => H v (or_intror I))). unfold doRegister. rewrite (H u (or_introl eq_refl)).
    destruct s as [up t f r a q]. unfold setTree. cbn [zUp zTree zFlag zReg zAvail zQueue]. destruct up; reflexivity.
Qed.
Definition has_id (k : bs) (l : list url) : bool := existsb (fun u => bs_eqb k (ident u)) l.
Lemma has_id_spec k l : has_id k l = true <-> exists u, In u l /\ ident u = k.
Proof.
  unfold has_id. rewrite existsb_exists. split; intros [u [I E]]; exists u; (split; [exact I|]); [apply bs_eqb_spec in E; congruence|apply bs_eqb_spec; congruence].
Qed.
Lemma get_asets {B} (a : B) l k : forall m, aget bs_eqb (fold_left (fun m u => aset bs_eqb m (ident u) a) l m) k = if has_id k l then Some a else aget bs_eqb m k.
Proof.
  induction l as [|u l IH]; intro m; [reflexivity|]. cbn [fold_left]. rewrite IH. cbn [has_id existsb]. unfold has_id. destruct (existsb (fun u => bs_eqb k (ident u)) l).
  - rewrite orb_true_r. reflexivity.
  - rewrite orb_false_r, (aget_aset bs_eqb bs_eqb_spec). reflexivity.
Qed.
Lemma get_adels {B} l k : forall m : list (bs * B), aget bs_eqb (fold_left (fun m u => adel bs_eqb m (ident u)) l m) k = if has_id k l then None else aget bs_eqb m k.
Proof.
  induction l as [|u l IH]; intro m; [reflexivity|]. cbn [fold_left]. rewrite IH. cbn [has_id existsb]. unfold has_id. destruct (existsb (fun u => bs_eqb k (ident u)) l).
  - rewrite orb_true_r. reflexivity.
  - rewrite orb_false_r, (aget_adel bs_eqb bs_eqb_spec). reflexivity.
Qed.
Lemma nodup_asets {B} (a : B) l : forall m, NoDup (akeys m) -> NoDup (akeys (fold_left (fun m u => aset bs_eqb m (ident u) a) l m)).
Proof. induction l as [|u l IH]; intros m H; [exact H|]. apply IH. apply NoDup_aset; [exact bs_eqb_spec|exact H]. Qed.
Lemma nodup_adels {B} l : forall m : list (bs * B), NoDup (akeys m) -> NoDup (akeys (fold_left (fun m u => adel bs_eqb m (ident u)) l m)).
Proof. induction l as [|u l IH]; intros m H; [exact H|]. apply IH. apply NoDup_adel. exact H. Qed.

(* ---- what a move does to the nodes of the registered services *)
Lemma moves_owned from to w l t : kind_ from -> kind_ to -> from <> to -> apart (reg_of w) -> (forall u, In u l -> reg_of w u) ->
  owned t w -> owned (fold_left (move from to) l t) w.
Proof.
  intros KF KT D AP HL O p d H. destruct (moves KF KT D AP l HL t) as [A B].
  assert (X : (exists u ty, reg_of w u /\ kind_ ty /\ p = nodePath ty u) -> exists u ty, reg_of w u /\ kind_ ty /\ p = nodePath ty u /\ d = ext_info u).
  { intros [u [ty [R [K ->]]]]. exists u, ty. split; [exact R|]. split; [exact K|]. split; [reflexivity|]. rewrite (A u ty R K) in H.
    destruct (in_dec url_eq_dec u l).
    - destruct (bs_eqb ty to); [injection H as <-; reflexivity|discriminate H].
    - destruct (O _ _ H) as [u' [ty' [R' [K' [E ->]]]]]. destruct (AP _ _ _ _ R R' K K' E) as [-> _]. reflexivity. }
  (* either it is one of the paths, or it was there before *)
  destruct (existsb (fun u => bs_eqb p (nodePath server u) || bs_eqb p (nodePath unavailable u)) l) eqn:EX.
  - apply X. apply existsb_exists in EX as [u [I E]]. apply orb_true_iff in E as [E|E]; apply bs_eqb_spec in E; subst p.
    + exists u, server. split; [exact (HL u I)|]. split; [left; reflexivity|reflexivity].
    + exists u, unavailable. split; [exact (HL u I)|]. split; [right; reflexivity|reflexivity].
  - assert (Y : aget bs_eqb (fold_left (move from to) l t) p = aget bs_eqb t p).
    { clear -EX KF KT. revert t. induction l as [|u l IH]; intro t; [reflexivity|]. cbn [fold_left]. cbn [existsb] in EX. apply orb_false_iff in EX as [E EX].
      rewrite (IH EX), get_move. apply orb_false_iff in E as [E1 E2].
      assert (Z : forall ty, kind_ ty -> bs_eqb p (nodePath ty u) = false) by (intros ty [->| ->]; assumption).
      rewrite (Z _ KT), (Z _ KF). reflexivity. }
    rewrite Y in H. exact (O _ _ H).
Qed.
Lemma moves_shows to (b : bool) w l t u : to = (if b then server else unavailable) -> apart (reg_of w) -> (forall v, In v l -> reg_of w v) -> reg_of w u -> In u l ->
  shows (fold_left (move (if b then unavailable else server) to) l t) u b.
Proof.
  intros -> AP HL R I.
  assert (KF : kind_ (if b then unavailable else server)) by (destruct b; [right|left]; reflexivity).
  assert (KT : kind_ (if b then server else unavailable)) by (destruct b; [left|right]; reflexivity).
  assert (D : (if b then unavailable else server) <> (if b then server else unavailable)) by (destruct b; discriminate).
  destruct (moves KF KT D AP l HL t) as [A _]. unfold shows.
  rewrite (A u server R (or_introl eq_refl)), (A u unavailable R (or_intror eq_refl)). destruct (in_dec url_eq_dec u l) as [_|N]; [|contradiction].
  destruct b.
  - rewrite bs_eqb_refl. replace (bs_eqb unavailable server) with false by reflexivity. split; split; intro X; try reflexivity; discriminate X.
  - rewrite bs_eqb_refl. replace (bs_eqb server unavailable) with false by reflexivity. split; split; intro X; try reflexivity; discriminate X.
Qed.
Lemma moves_keeps from to w l t u b : kind_ from -> kind_ to -> from <> to -> apart (reg_of w) -> (forall v, In v l -> reg_of w v) -> reg_of w u -> ~ In u l ->
  shows t u b -> shows (fold_left (move from to) l t) u b.
Proof.
  intros KF KT D AP HL R N S. destruct (moves KF KT D AP l HL t) as [A _]. unfold shows.
  rewrite (A u server R (or_introl eq_refl)), (A u unavailable R (or_intror eq_refl)). destruct (in_dec url_eq_dec u l) as [I|_]; [contradiction|exact S].
Qed.

(* the wishes that only availability distinguishes *)
Lemma owned_ext t w w' : (forall u, reg_of w u -> reg_of w' u) -> owned t w -> owned t w'.
Proof. intros H O p d G. destruct (O p d G) as [u [ty [R X]]]. exists u, ty. split; [exact (H u R)|exact X]. Qed.
Lemma get_set_all b l k : aget bs_eqb (set_all b l) k = option_map (fun e => (fst e, b)) (aget bs_eqb l k).
Proof.
  induction l as [|[k' [u c]] l IH]; [reflexivity|]. unfold set_all in *. cbn [map aget fst snd]. destruct (bs_eqb k k'); [reflexivity|exact IH].
Qed.
Lemma keys_set_all b l : akeys (set_all b l) = akeys l.
Proof. unfold akeys, set_all. rewrite map_map. reflexivity. Qed.

(* ---- setting availability *)
Definition flagged (b : bool) (l : list url) (w w' : wish) : Prop :=
  forall k, aget bs_eqb (wReg w') k = if has_id k l then option_map (fun e => (fst e, b)) (aget bs_eqb (wReg w) k) else aget bs_eqb (wReg w) k.
Lemma flagged_reg b l w w' u : flagged b l w w' -> reg_of w' u <-> reg_of w u.
Proof.
  intro F. unfold reg_of. rewrite (F (ident u)). destruct (has_id (ident u) l); [|reflexivity].
  destruct (aget bs_eqb (wReg w) (ident u)) as [[v c]|]; cbn; split; intros [d D]; try discriminate D.
  - injection D as -> _. exists c. reflexivity.
  - injection D as -> _. exists b. reflexivity.
Qed.
Lemma flagged_key b l w w' k u c : flagged b l w w' -> aget bs_eqb (wReg w') k = Some (u, c) -> exists d, aget bs_eqb (wReg w) k = Some (u, d).
Proof.
  intros F H. rewrite (F k) in H. destruct (has_id k l); [|exists c; exact H]. destruct (aget bs_eqb (wReg w) k) as [[v d]|]; [|discriminate H].
  cbn in H. injection H as -> _. exists d. reflexivity.
Qed.
Lemma targets_reg s w a : zinv s w -> (forall u, a = Some u -> reg_of w u) -> forall u, In u (targets s a) -> reg_of w u.
Proof. intros V H u I. destruct a as [v|]; cbn [targets] in I; [destruct I as [<-|[]]; apply H; reflexivity|apply (in_reg u V); exact I]. Qed.
Lemma kS : kind_ server. Proof. left; reflexivity. Qed.
Lemma kU : kind_ unavailable. Proof. right; reflexivity. Qed.
Lemma same_ident s w u v : zinv s w -> reg_of w u -> reg_of w v -> ident u = ident v -> u = v.
Proof. intros V [b B] [c C] E. rewrite E, C in B. congruence. Qed.
Lemma has_id_in s w u l : zinv s w -> (forall v, In v l -> reg_of w v) -> reg_of w u -> has_id (ident u) l = true <-> In u l.
Proof.
  intros V H R. rewrite has_id_spec. split; [|intro I; exists u; split; [exact I|reflexivity]].
  intros [v [I E]]. rewrite <- (@same_ident s w v u V (H v I) R E). exact I.
Qed.
Lemma flagged_inv s w w' b a m' : zinv s w -> (forall u, a = Some u -> reg_of w u) -> flagged b (targets s a) w w' -> NoDup (akeys (wReg w')) ->
  NoDup (akeys m') ->
  (forall k, aget bs_eqb m' k <> None <-> exists u, aget bs_eqb (wReg w') k = Some (u, true)) ->
  (forall k v, aget bs_eqb m' k = Some (Some v) -> exists b, aget bs_eqb (wReg w') k = Some (v, b)) ->
  (forall k, aget bs_eqb m' k = Some None -> wAll w' = true) ->
  zinv (mkZ (zUp s) (if zUp s then fold_left (move (if b then unavailable else server) (if b then server else unavailable)) (targets s a) (zTree s) else zTree s)
            (zFlag s) (zReg s) m' (zQueue s)) w'.
Proof.
  intros V HA F N NM X1 X2 X3. pose proof (@targets_reg s w a V HA) as TR. pose proof (apart_of V) as AP.
  assert (KF : kind_ (if b then unavailable else server)) by (destruct b; [right|left]; reflexivity).
  assert (KT : kind_ (if b then server else unavailable)) by (destruct b; [left|right]; reflexivity).
  assert (D : (if b then unavailable else server) <> (if b then server else unavailable)) by (destruct b; discriminate).
  constructor; cbn [zUp zTree zFlag zReg zAvail zQueue]; try assumption.
  - exact (zv_q V).
  - exact (zv_nr V).
  - intros k u c G. destruct (@flagged_key _ _ _ _ _ _ _ F G) as [d G']. exact (zv_key V _ G').
  - intros u v RU RV. apply (@flagged_reg _ _ _ _ u F) in RU. apply (@flagged_reg _ _ _ _ v F) in RV. exact (zv_place V RU RV).
  - intro k. rewrite (zv_reg V), (F k). destruct (has_id k (targets s a)); [|reflexivity]. destruct (aget bs_eqb (wReg w) k) as [[u c]|]; reflexivity.
  - assert (O : owned (if zUp s then fold_left (move (if b then unavailable else server) (if b then server else unavailable)) (targets s a) (zTree s) else zTree s) w).
    { destruct (zUp s); [|exact (zv_owned V)]. exact (@moves_owned _ _ w _ _ KF KT D AP TR (zv_owned V)). }
    exact (owned_ext (fun u R => proj2 (@flagged_reg _ _ _ _ u F) R) O).
  - intros UP Q u c G. rewrite UP. assert (R : reg_of w u) by (destruct (@flagged_key _ _ _ _ _ _ _ F G) as [d G']; exists d; exact G').
    rewrite (F (ident u)) in G. destruct (has_id (ident u) (targets s a)) eqn:HI.
    + apply (@has_id_in s w u _ V TR R) in HI. destruct (aget bs_eqb (wReg w) (ident u)) as [[v e]|]; [|discriminate G]. cbn in G. injection G as _ <-.
      exact (@moves_shows _ b w _ (zTree s) u eq_refl AP TR R HI).
    + apply (@moves_keeps _ _ w); try assumption; [|exact (zv_exact V UP Q G)].
      intro I. apply (@has_id_in s w u _ V TR R) in I. congruence.
Qed.
Lemma avail_inv s w a w' : zinv s w -> (forall u, a = Some u -> reg_of w u) -> flagged true (targets s a) w w' -> NoDup (akeys (wReg w')) ->
  (wAll w = true -> wAll w' = true) -> (a = None -> wAll w' = true) -> zinv (doAvailable s a) w'.
Proof.
  intros V HA F N W1 W2. rewrite avail_step. pose proof (@targets_reg s w a V HA) as TR. apply (@flagged_inv s w w' true a); try assumption.
  - apply nodup_asets. exact (zv_na V).
  - intro k. rewrite get_asets, (F k). destruct (has_id k (targets s a)) eqn:HI; [|exact (zv_av V k)]. split; [|discriminate]. intros _.
    apply has_id_spec in HI as [u [I <-]]. destruct (TR u I) as [c C]. exists u. rewrite C. reflexivity.
  - intros k v. rewrite get_asets, (F k). destruct (has_id k (targets s a)) eqn:HI; [|exact (@zv_avu _ _ V k v)]. intro E. injection E as ->.
    apply has_id_spec in HI as [u [[<-|[]] <-]]. destruct (TR v (or_introl eq_refl)) as [c C]. exists true. rewrite C. reflexivity.
  - intros k. rewrite get_asets. destruct (has_id k (targets s a)) eqn:HI; [intro E; injection E as ->; apply W2; reflexivity|]. intro E. exact (W1 (zv_nil V _ E)).
Qed.
Lemma unavail_inv s w a w' : zinv s w -> (forall u, a = Some u -> reg_of w u) -> flagged false (targets s a) w w' -> NoDup (akeys (wReg w')) ->
  (wAll w = true -> wAll w' = true) -> zinv (doUnavailable s a) w'.
Proof.
  intros V HA F N W1. rewrite unavail_step. apply (@flagged_inv s w w' false a); try assumption.
  - apply nodup_adels. exact (zv_na V).
  - intro k. rewrite get_adels, (F k). destruct (has_id k (targets s a)) eqn:HI; [|exact (zv_av V k)]. split; [intro X; exfalso; apply X; reflexivity|].
    intros [u U]. destruct (aget bs_eqb (wReg w) k); cbn in U; discriminate U.
  - intros k v. rewrite get_adels, (F k). destruct (has_id k (targets s a)); [discriminate|exact (@zv_avu _ _ V k v)].
  - intros k. rewrite get_adels. destruct (has_id k (targets s a)); [discriminate|]. intro E. exact (W1 (zv_nil V _ E)).
Qed.

(* ---- recovering *)
Lemma avail_fold L : forall s, fold_left doAvailable L s =
  mkZ (zUp s) (if zUp s then fold_left (move unavailable server) (flat_map (targets s) L) (zTree s) else zTree s) (zFlag s) (zReg s)
      (fold_left (fun m a => fold_left (fun m u => aset bs_eqb m (ident u) a) (targets s a) m) L (zAvail s)) (zQueue s).
Proof.
  induction L as [|a L IH]; intro s; cbn [fold_left flat_map].
  - destruct s as [up t f r m q]. cbn. destruct up; reflexivity.
  - rewrite IH, avail_step. cbn [zUp zTree zFlag zReg zAvail zQueue].
    assert (T : forall a', targets (mkZ (zUp s) (if zUp s then fold_left (move unavailable server) (targets s a) (zTree s) else zTree s) (zFlag s) (zReg s)
      (fold_left (fun m u => aset bs_eqb m (ident u) a) (targets s a) (zAvail s)) (zQueue s)) a' = targets s a') by (intros [?|]; reflexivity).
    rewrite fold_left_app. rewrite (flat_map_ext _ _ T). destruct (zUp s); f_equal;
    generalize (fold_left (fun m u => aset bs_eqb m (ident u) a) (targets s a) (zAvail s)) as m; clear IH; induction L as [|a' L IH2]; intro m; try reflexivity;
    cbn [fold_left]; rewrite T; apply IH2.
Qed.
Lemma avail_map_fold s L : forall m, let m' := fold_left (fun m a => fold_left (fun m u => aset bs_eqb m (ident u) a) (targets s a) m) L m in
  (NoDup (akeys m) -> NoDup (akeys m')) /\
  (forall k, aget bs_eqb m' k <> None <-> aget bs_eqb m k <> None \/ has_id k (flat_map (targets s) L) = true) /\
  (forall k v, aget bs_eqb m' k = Some (Some v) -> aget bs_eqb m k = Some (Some v) \/ (In (Some v) L /\ ident v = k)) /\
  (forall k, aget bs_eqb m' k = Some None -> aget bs_eqb m k = Some None \/ In None L).
Proof.
  induction L as [|a L IH]; intro m; cbv zeta; cbn [fold_left flat_map].
  - split; [tauto|]. split; [|split; [intros k v H; left; exact H|intros k H; left; exact H]]. intro k. cbn. split; [tauto|]. intros [X|X]; [exact X|discriminate X].
  - destruct (IH (fold_left (fun m u => aset bs_eqb m (ident u) a) (targets s a) m)) as [A [B [C D]]]. split; [intro N; apply A, nodup_asets, N|]. split; [|split].
    + intro k. rewrite B, get_asets. unfold has_id at 3. rewrite existsb_app. fold (has_id k (targets s a)). fold (has_id k (flat_map (targets s) L)).
      destruct (has_id k (targets s a)); cbn [orb]; [split; [right; reflexivity|left; discriminate]|reflexivity].
    + intros k v H. destruct (C k v H) as [X|[I E]]; [|right; split; [right; exact I|exact E]]. rewrite get_asets in X.
      destruct (has_id k (targets s a)) eqn:HI; [|left; exact X]. injection X as ->. right. split; [left; reflexivity|].
      apply has_id_spec in HI as [u [[<-|[]] E]]. exact E.
    + intros k H. destruct (D k H) as [X|I]; [|right; right; exact I]. rewrite get_asets in X.
      destruct (has_id k (targets s a)) eqn:HI; [|left; exact X]. injection X as ->. right. left. reflexivity.
Qed.

Lemma recover_inv s w : zinv s w -> zFlag s = false -> (wAll w = false \/ forall k v b, aget bs_eqb (wReg w) k = Some (v, b) -> b = true) ->
  forall r, zQueue s = EvHasSession :: r -> zinv (recoverService (mkZ (zUp s) (zTree s) true (zReg s) (zAvail s) r)) w.
Proof.
  intros V FL OK r Q. set (s0 := mkZ (zUp s) (zTree s) true (zReg s) (zAvail s) r).
  assert (IR : forall u, In u (map snd (zReg s0)) <-> reg_of w u) by (intro u; exact (in_reg u V)).
  assert (AG : forall u, In u (map snd (zReg s0)) -> isAgent u = false).
  { intros u I. apply IR in I as [b B]. exact (proj2 (proj2 (proj2 (zv_key V _ B)))). }
  pose proof (apart_of V) as AP.
  unfold recoverService. rewrite (register_all (map snd (zReg s0)) s0 AG). cbn [zAvail].
  set (s1 := mkZ (zUp s0) _ (zFlag s0) (zReg s0) (zAvail s0) (zQueue s0)). rewrite avail_fold.
  set (L := map snd (zAvail s0)). set (LL := flat_map (targets s1) L).
  assert (AE : forall k v, aget bs_eqb (zAvail s) k = Some (Some v) -> k = ident v /\ reg_of w v).
  { intros k v G. destruct (@zv_avu _ _ V k v G) as [b B]. destruct (zv_key V _ B) as [-> _]. split; [reflexivity|exists b; exact B]. }
  assert (IL : forall a, In a L -> exists k, aget bs_eqb (zAvail s) k = Some a).
  { intros a I. unfold L in I. cbn [s0 zAvail] in I. apply in_map_iff in I as [[k a'] [E I]]. cbn in E. subst a'. exists k. exact (In_aget bs_eqb bs_eqb_spec _ _ _ (zv_na V) I). }
  assert (LR : forall u, In u LL -> reg_of w u).
  { intros u I. unfold LL in I. apply in_flat_map in I as [a [Ia Iu]]. destruct a as [v|]; cbn [targets] in Iu.
    - destruct Iu as [<-|[]]. destruct (IL _ Ia) as [k G]. exact (proj2 (AE k v G)).
    - apply IR. exact Iu. }
  (* who is made available *)
  assert (LT : forall u, reg_of w u -> In u LL <-> aget bs_eqb (wReg w) (ident u) = Some (u, true)).
  { intros u [b B]. split.
    - intro I. destruct OK as [OK|OK]; [|rewrite B; f_equal; f_equal; exact (OK _ _ _ B)].
      unfold LL in I. apply in_flat_map in I as [a [Ia Iu]]. destruct (IL _ Ia) as [k G]. destruct a as [v|].
      + destruct Iu as [<-|[]]. destruct (AE k v G) as [-> _]. assert (X : aget bs_eqb (zAvail s) (ident v) <> None) by congruence.
        apply (zv_av V) in X as [v' X]. rewrite B in X. injection X as <- ->. exact B.
      + pose proof (zv_nil V _ G). congruence.
    - intro T. assert (X : aget bs_eqb (zAvail s) (ident u) <> None) by (apply (zv_av V); exists u; exact T).
      destruct (aget bs_eqb (zAvail s) (ident u)) as [a|] eqn:G; [|congruence]. unfold LL. apply in_flat_map. exists a. split.
      + unfold L. cbn [s0 zAvail]. apply in_map_iff. exists (ident u, a). split; [reflexivity|]. exact (aget_In bs_eqb bs_eqb_spec _ _ _ G).
      + destruct a as [v|]; cbn [targets]; [|apply IR; exists b; exact B]. destruct (@zv_avu _ _ V _ _ G) as [c C]. rewrite B in C. injection C as -> _. left. reflexivity. }
  destruct (avail_map_fold s1 L (zAvail s1)) as [M1 [M2 [M3 M4]]]. constructor; cbn [zUp zTree zFlag zReg zAvail zQueue].
  - cbn [s1 s0 zUp zFlag zQueue]. pose proof (zv_q V) as WQ. rewrite Q, FL in WQ. cbn [wfq] in WQ. exact (proj2 WQ).
  - exact (zv_nw V).
  - exact (zv_nr V).
  - apply M1. exact (zv_na V).
  - exact (zv_key V).
  - exact (zv_place V).
  - exact (zv_reg V).
  - intro k. rewrite M2. cbn [s1 s0 zAvail]. rewrite (zv_av V k). split; [|intro X; left; exact X].
    intros [X|X]; [exact X|]. apply has_id_spec in X as [u [I <-]]. exists u. apply LT; [exact (LR u I)|exact I].
  - intros k v G. destruct (M3 k v G) as [X|[I E]]; [exact (@zv_avu _ _ V k v X)|]. destruct (IL _ I) as [k' G']. destruct (AE k' v G') as [E' [b B]]. exists b. rewrite <- E. exact B.
  - intros k G. destruct (M4 k G) as [X|I]; [exact (zv_nil V _ X)|]. destruct (IL _ I) as [k' G']. exact (zv_nil V _ G').
  - cbn [s1 s0 zUp zTree]. destruct (zUp s); [|exact (zv_owned V)]. apply (@moves_owned _ _ w _ _ kU kS (fun E => server_ne (eq_sym E)) AP LR).
    apply (@moves_owned _ _ w _ _ kS kU server_ne AP); [intros u I; apply IR; exact I|exact (zv_owned V)].
  - intros UP _ u b B. cbn [s1 s0 zUp zTree] in UP |- *. rewrite UP. assert (R : reg_of w u) by (exists b; exact B).
    destruct (in_dec url_eq_dec u LL) as [I|NI].
    + pose proof (proj1 (LT u R) I) as T. rewrite B in T. injection T as ->. exact (@moves_shows server true w LL _ u eq_refl AP LR R I).
    + destruct b; [exfalso; apply NI; apply LT; assumption|]. apply (@moves_keeps _ _ w); try assumption; [exact kU|exact kS|exact (fun E => server_ne (eq_sym E))|].
      apply (@moves_shows unavailable false w); [reflexivity|exact AP|intros v I; apply IR; exact I|exact R|apply IR; exact R].
Qed.

(* ---- the steps *)
Lemma zinv_init : zinv zinit wnone.
Proof.
  constructor; cbn; try reflexivity; try (apply NoDup_nil); try (intros; discriminate).
  - intros u v [b B]. discriminate B.
  - intro k. split; [intro X; exfalso; apply X; reflexivity|intros [u U]; discriminate U].
Qed.
Lemma flag_one s w u b c : zinv s w -> aget bs_eqb (wReg w) (ident u) = Some (u, c) ->
  flagged b [u] w (mkWish (aset bs_eqb (wReg w) (ident u) (u, b)) (wAll w)).
Proof.
  intros V G k. cbn [wReg]. rewrite (aget_aset bs_eqb bs_eqb_spec). unfold has_id. cbn [existsb]. rewrite orb_false_r.
  destruct (bs_eqb k (ident u)) eqn:E; [|reflexivity]. apply bs_eqb_spec in E. subst k. rewrite G. reflexivity.
Qed.
Lemma flag_all s w b x : zinv s w -> flagged b (targets s None) w (mkWish (set_all b (wReg w)) x).
Proof.
  intros V k. cbn [wReg targets]. rewrite get_set_all. destruct (has_id k (map snd (zReg s))) eqn:HI; [reflexivity|].
  destruct (aget bs_eqb (wReg w) k) as [[u c]|] eqn:G; [|reflexivity]. exfalso. destruct (zv_key V _ G) as [-> _].
  assert (X : has_id (ident u) (map snd (zReg s)) = true); [|congruence]. apply has_id_spec. exists u. split; [|reflexivity]. apply (in_reg u V). exists c. exact G.
Qed.
Lemma sub_inv s w u : zinv s w -> forall t', (forall p, aget bs_eqb t' p = if bs_eqb p (nodePath unavailable u) then None else if bs_eqb p (nodePath server u) then None else aget bs_eqb (zTree s) p) ->
  aget bs_eqb (wReg w) (ident u) = Some (u, false) ->
  zinv (mkZ (zUp s) t' (zFlag s) (adel bs_eqb (zReg s) (ident u)) (zAvail s) (zQueue s)) (mkWish (adel bs_eqb (wReg w) (ident u)) (wAll w)).
Proof.
  intros V t' T G. pose proof (apart_of V) as AP. assert (RU : reg_of w u) by (exists false; exact G).
  assert (RW : forall v, reg_of (mkWish (adel bs_eqb (wReg w) (ident u)) (wAll w)) v <-> reg_of w v /\ ident v <> ident u).
  { intro v. unfold reg_of. cbn [wReg]. rewrite (aget_adel bs_eqb bs_eqb_spec). destruct (bs_eqb (ident v) (ident u)) eqn:E.
    - apply bs_eqb_spec in E. split; [intros [b B]; discriminate B|intros [_ N]; contradiction].
    - apply bs_eqb_neq in E. tauto. }
  assert (KE : forall k v b, aget bs_eqb (adel bs_eqb (wReg w) (ident u)) k = Some (v, b) -> aget bs_eqb (wReg w) k = Some (v, b) /\ k <> ident u).
  { intros k v b H. rewrite (aget_adel bs_eqb bs_eqb_spec) in H. destruct (bs_eqb k (ident u)) eqn:E; [discriminate H|]. apply bs_eqb_neq in E. split; assumption. }
  assert (NA : aget bs_eqb (zAvail s) (ident u) = None).
  { destruct (aget bs_eqb (zAvail s) (ident u)) as [a|] eqn:X; [|reflexivity]. assert (Y : aget bs_eqb (zAvail s) (ident u) <> None) by congruence.
    apply (zv_av V) in Y as [v Y]. congruence. }
  constructor; cbn [zUp zTree zFlag zReg zAvail zQueue wReg wAll].
  - exact (zv_q V).
  - apply NoDup_adel. exact (zv_nw V).
  - apply NoDup_adel. exact (zv_nr V).
  - exact (zv_na V).
  - intros k v b H. apply KE in H as [H _]. exact (zv_key V _ H).
  - intros v v' R R' P. apply RW in R as [R _]. apply RW in R' as [R' _]. exact (zv_place V R R' P).
  - intro k. rewrite !(aget_adel bs_eqb bs_eqb_spec). destruct (bs_eqb k (ident u)); [reflexivity|apply (zv_reg V)].
  - intro k. rewrite (zv_av V k), (aget_adel bs_eqb bs_eqb_spec). destruct (bs_eqb k (ident u)) eqn:E; [|reflexivity]. apply bs_eqb_spec in E. subst k.
    rewrite G. split; intros [v X]; discriminate X.
  - intros k v H. destruct (@zv_avu _ _ V k v H) as [b B]. exists b. rewrite (aget_adel bs_eqb bs_eqb_spec). destruct (bs_eqb k (ident u)) eqn:E; [|exact B].
    apply bs_eqb_spec in E. subst k. congruence.
  - exact (zv_nil V).
  - intros p d H. rewrite T in H. destruct (bs_eqb p (nodePath unavailable u)) eqn:E1; [discriminate H|]. destruct (bs_eqb p (nodePath server u)) eqn:E2; [discriminate H|].
    destruct (zv_owned V _ H) as [v [ty [R [K [-> ->]]]]]. exists v, ty. split; [|split; [exact K|split; reflexivity]]. apply RW. split; [exact R|]. intro E.
    assert (v = u) by exact (same_ident V R RU E). subst v. destruct K as [->| ->]; rewrite bs_eqb_refl in *; discriminate.
  - intros UP Q v b B. apply KE in B as [B N]. assert (RV : reg_of w v) by (exists b; exact B).
    pose proof (zv_exact V UP Q B) as S. unfold shows in *. rewrite !T.
    assert (Z : forall ty ty', kind_ ty -> kind_ ty' -> bs_eqb (nodePath ty v) (nodePath ty' u) = false).
    { intros ty ty' K K'. apply bs_eqb_neq. intro E. destruct (AP _ _ _ _ RV RU K K' E) as [-> _]. apply N. reflexivity. }
    rewrite (Z _ _ kS kU), (Z _ _ kS kS), (Z _ _ kU kU), (Z _ _ kU kS). exact S.
Qed.
Lemma add_inv s w u : zinv s w -> zFlag s = true -> plain u -> aget bs_eqb (wReg w) (ident u) = None ->
  (forall k v b, aget bs_eqb (wReg w) k = Some (v, b) -> same_place u v -> ident u = k) ->
  zinv (mkZ (zUp s) (if zUp s then move server unavailable (zTree s) u else zTree s) (zFlag s) (aset bs_eqb (zReg s) (ident u) u) (zAvail s) (zQueue s))
       (mkWish (aset bs_eqb (wReg w) (ident u) (u, false)) (wAll w)).
Proof.
  intros V FL PL G SP. set (w' := mkWish _ _).
  assert (GW : forall k, aget bs_eqb (wReg w') k = if bs_eqb k (ident u) then Some (u, false) else aget bs_eqb (wReg w) k) by (intro k; apply (aget_aset bs_eqb bs_eqb_spec)).
  assert (RW : forall v, reg_of w' v <-> v = u \/ reg_of w v).
  { intro v. unfold reg_of. rewrite GW. destruct (bs_eqb (ident v) (ident u)) eqn:E.
    - apply bs_eqb_spec in E. split; [intros [b B]; injection B as <- _; left; reflexivity|]. intros [->|[b B]]; [exists false; reflexivity|congruence].
    - apply bs_eqb_neq in E. split; [tauto|]. intros [->|R]; [contradiction|exact R]. }
  assert (SN : forall v, reg_of w v -> ~ same_place u v).
  { intros v [b B] P. pose proof (SP _ _ _ B P) as E. rewrite <- E in B. congruence. }
  assert (NA : aget bs_eqb (zAvail s) (ident u) = None).
  { destruct (aget bs_eqb (zAvail s) (ident u)) as [a|] eqn:X; [|reflexivity]. assert (Y : aget bs_eqb (zAvail s) (ident u) <> None) by congruence.
    apply (zv_av V) in Y as [v Y]. congruence. }
  assert (V0 : forall up t, wfq (zFlag s) (zQueue s) up -> owned t w' ->
     (up = true -> zQueue s = [] -> forall v b, aget bs_eqb (wReg w') (ident v) = Some (v, b) -> shows t v b) ->
     zinv (mkZ up t (zFlag s) (aset bs_eqb (zReg s) (ident u) u) (zAvail s) (zQueue s)) w').
  { intros up t WQ O EX. constructor; cbn [zUp zTree zFlag zReg zAvail zQueue]; try assumption.
    - apply NoDup_aset; [exact bs_eqb_spec|exact (zv_nw V)].
    - apply NoDup_aset; [exact bs_eqb_spec|exact (zv_nr V)].
    - exact (zv_na V).
    - intros k v b H. rewrite GW in H. destruct (bs_eqb k (ident u)) eqn:E; [|exact (zv_key V _ H)]. apply bs_eqb_spec in E. injection H as <- _. split; assumption.
    - intros v v' R R' P. apply RW in R. apply RW in R'. destruct R as [->|R], R' as [->|R']; [reflexivity| | |exact (zv_place V R R' P)].
      + exfalso. exact (SN _ R' P).
      + exfalso. apply (SN _ R). destruct P as [A [B C]]. split; [congruence|split; congruence].
    - intro k. rewrite GW, (aget_aset bs_eqb bs_eqb_spec). destruct (bs_eqb k (ident u)); [reflexivity|apply (zv_reg V)].
    - intro k. rewrite (zv_av V k), GW. destruct (bs_eqb k (ident u)) eqn:E; [|reflexivity]. apply bs_eqb_spec in E. subst k. rewrite G. split; intros [v X]; discriminate X.
    - intros k v H. destruct (@zv_avu _ _ V k v H) as [b B]. exists b. rewrite GW. destruct (bs_eqb k (ident u)) eqn:E; [|exact B]. apply bs_eqb_spec in E. subst k. congruence.
    - exact (zv_nil V). }
  assert (O : owned (zTree s) w') by (apply (@owned_ext _ w); [intros v R; apply RW; right; exact R|exact (zv_owned V)]).
  destruct (zUp s) eqn:UP.
  - assert (A0 : zinv (mkZ false (zTree s) false (aset bs_eqb (zReg s) (ident u) u) (zAvail s) []) w').
    { pose proof (V0 false (zTree s)) as X. clear V0. constructor; cbn [zUp zTree zFlag zReg zAvail zQueue].
      - reflexivity.
      - apply NoDup_aset; [exact bs_eqb_spec|exact (zv_nw V)].
      - apply NoDup_aset; [exact bs_eqb_spec|exact (zv_nr V)].
      - exact (zv_na V).
      - intros k v b H. rewrite GW in H. destruct (bs_eqb k (ident u)) eqn:E; [|exact (zv_key V _ H)]. apply bs_eqb_spec in E. injection H as <- _. split; assumption.
      - intros v v' R R' P. apply RW in R. apply RW in R'. destruct R as [->|R], R' as [->|R']; [reflexivity| | |exact (zv_place V R R' P)].
        + exfalso. exact (SN _ R' P).
        + exfalso. apply (SN _ R). destruct P as [A [B C]]. split; [congruence|split; congruence].
      - intro k. rewrite GW, (aget_aset bs_eqb bs_eqb_spec). destruct (bs_eqb k (ident u)); [reflexivity|apply (zv_reg V)].
      - intro k. rewrite (zv_av V k), GW. destruct (bs_eqb k (ident u)) eqn:E; [|reflexivity]. apply bs_eqb_spec in E. subst k. rewrite G. split; intros [v Y]; discriminate Y.
      - intros k v H. destruct (@zv_avu _ _ V k v H) as [b B]. exists b. rewrite GW. destruct (bs_eqb k (ident u)) eqn:E; [|exact B]. apply bs_eqb_spec in E. subst k. congruence.
      - exact (zv_nil V).
      - exact O.
      - discriminate. }
    pose proof (apart_of A0) as AP. assert (RU : reg_of w' u) by (apply RW; left; reflexivity).
    assert (HL : forall v, In v [u] -> reg_of w' v) by (intros v [<-|[]]; exact RU).
    change (move server unavailable (zTree s) u) with (fold_left (move server unavailable) [u] (zTree s)). apply V0.
    + pose proof (zv_q V) as WQ. rewrite UP in WQ. exact WQ.
    + exact (@moves_owned _ _ w' _ _ kS kU server_ne AP HL O).
    + intros _ Q v b B. assert (RV : reg_of w' v) by (exists b; exact B). rewrite GW in B. destruct (bs_eqb (ident v) (ident u)) eqn:E.
      * injection B as <- <-. exact (@moves_shows unavailable false w' [u] (zTree s) u eq_refl AP HL RU (or_introl eq_refl)).
      * apply (@moves_keeps server unavailable w' [u]); try assumption; [exact kS|exact kU|exact server_ne| |exact (zv_exact V UP Q B)].
        intros [<-|[]]. rewrite bs_eqb_refl in E. discriminate E.
  - apply V0; [|exact O|discriminate]. pose proof (zv_q V) as WQ. rewrite UP in WQ. exact WQ.
Qed.

Lemma tree_inv s w t up q f : zinv s w -> wfq f q up -> owned t w -> (up = true -> q = [] -> forall u b, aget bs_eqb (wReg w) (ident u) = Some (u, b) -> shows t u b) ->
  zinv (mkZ up t f (zReg s) (zAvail s) q) w.
Proof. intros V WQ O E. destruct V. constructor; cbn [zUp zTree zFlag zReg zAvail zQueue]; assumption. Qed.
Lemma app_one_ne {A} (l : list A) x : l ++ [x] <> []. Proof. destruct l; discriminate. Qed.
Lemma zstep_inv s w o s' : zinv s w -> orderly s w o -> zstep s o = Some s' -> zinv s' (wstep (zFlag s) w o).
Proof.
  intros V OR H. destruct o as [u|u|a|a| | | | |p d]; cbn [zstep orderly] in H, OR.
  - unfold wstep. destruct (zFlag s) eqn:FL; [|injection H as <-; exact V]. rewrite (zv_reg V) in H.
    destruct (aget bs_eqb (wReg w) (ident u)) as [e|] eqn:G; cbn [option_map] in H; [injection H as <-; exact V|]. injection H as <-. destruct OR as [PL SP].
    pose proof (add_inv V FL PL G SP) as X. unfold doRegister, setReg, setTree. rewrite (proj2 (proj2 PL)). cbn [zUp zTree zFlag zReg zAvail zQueue]. exact X.
  - unfold wstep. destruct OR as [UP OR]. destruct (zFlag s) eqn:FL; [|injection H as <-; exact V]. rewrite (zv_reg V) in H.
    destruct (aget bs_eqb (wReg w) (ident u)) as [e|] eqn:G; cbn [option_map] in H.
    + destruct OR as [OR|OR]; [discriminate OR|]. injection OR as ->. injection H as <-. unfold setReg, setTree. cbn [zUp zTree zFlag zReg zAvail zQueue]. rewrite UP.
      pose proof (@sub_inv s w u V (removeAt (removeAt (zTree s) (nodePath server u)) (nodePath unavailable u))) as X. rewrite UP, FL in X. rewrite FL. apply X; [|exact G].
      intro p. unfold removeAt. rewrite !(aget_adel bs_eqb bs_eqb_spec). reflexivity.
    + injection H as <-. pose proof V as V'. destruct V'.
      assert (GE : forall k, aget bs_eqb (adel bs_eqb (wReg w) (ident u)) k = aget bs_eqb (wReg w) k).
      { intro k. rewrite (aget_adel bs_eqb bs_eqb_spec). destruct (bs_eqb k (ident u)) eqn:E; [|reflexivity]. apply bs_eqb_spec in E. congruence. }
      assert (RE : forall v, reg_of (mkWish (adel bs_eqb (wReg w) (ident u)) (wAll w)) v <-> reg_of w v) by (intro v; unfold reg_of; cbn [wReg]; rewrite GE; reflexivity).
      constructor; cbn [wReg wAll]; try assumption.
      * apply NoDup_adel. assumption.
      * intros k v b B. rewrite GE in B. exact (zv_key V _ B).
      * intros v v' R R'. apply RE in R. apply RE in R'. exact (zv_place V R R').
      * intro k. rewrite GE. apply zv_reg0.
      * intro k. rewrite GE. apply zv_av0.
      * intros k v B. rewrite GE. exact (zv_avu0 k v B).
      * apply (@owned_ext _ w); [intros v R; apply RE; exact R|assumption].
      * intros UP' Q v b B. rewrite GE in B. exact (zv_exact0 UP' Q v b B).
  - destruct (zFlag s) eqn:FL; [|injection H as <-; exact V]. injection H as <-. unfold wstep. destruct a as [u|].
    + destruct OR as [b B]. apply (@avail_inv s w (Some u)); try assumption.
      * intros v E. injection E as <-. exists b. exact B.
      * exact (flag_one true V B).
      * apply NoDup_aset; [exact bs_eqb_spec|exact (zv_nw V)].
      * intro X; exact X.
      * discriminate.
    + apply (@avail_inv s w None); try assumption; try (intros; reflexivity); [discriminate|exact (@flag_all s w true true V)|]. cbn [wReg]. rewrite keys_set_all. exact (zv_nw V).
  - destruct (zFlag s) eqn:FL; [|injection H as <-; exact V]. injection H as <-. unfold wstep. destruct a as [u|].
    + destruct OR as [b B]. apply (@unavail_inv s w (Some u)); try assumption.
      * intros v E. injection E as <-. exists b. exact B.
      * exact (flag_one false V B).
      * apply NoDup_aset; [exact bs_eqb_spec|exact (zv_nw V)].
      * intro X; exact X.
    + apply (@unavail_inv s w None); try assumption; [discriminate|exact (@flag_all s w false (wAll w) V)| |intro X; exact X]. cbn [wReg]. rewrite keys_set_all. exact (zv_nw V).
  - destruct (zUp s) eqn:UP; [|discriminate H]. injection H as <-. assert (E : wstep (zFlag s) w ZLose = w) by (unfold wstep; destruct (zFlag s); reflexivity). rewrite E.
    apply tree_inv; [exact V| |exact (zv_owned V)|discriminate]. apply wfq_snoc_d. pose proof (zv_q V) as Q. rewrite UP in Q. exact Q.
  - destruct (zUp s) eqn:UP; [discriminate H|]. injection H as <-. assert (E : wstep (zFlag s) w ZExpire = w) by (unfold wstep; destruct (zFlag s); reflexivity). rewrite E.
    apply tree_inv; [exact V|pose proof (zv_q V) as Q; rewrite UP in Q; exact Q| |discriminate].
    intros p d G. exfalso. apply (aget_In bs_eqb bs_eqb_spec) in G. apply filter_In in G as [_ G]. discriminate G.
  - destruct (zUp s) eqn:UP; [discriminate H|]. injection H as <-. assert (E : wstep (zFlag s) w ZBack = w) by (unfold wstep; destruct (zFlag s); reflexivity). rewrite E.
    apply tree_inv; [exact V| |exact (zv_owned V)|intros _ X; exfalso; exact (@app_one_ne _ _ _ X)]. apply wfq_snoc_s. pose proof (zv_q V) as Q. rewrite UP in Q. exact Q.
  - assert (E : wstep (zFlag s) w ZHandle = w) by (unfold wstep; destruct (zFlag s); reflexivity). rewrite E. pose proof (zv_q V) as Q.
    destruct (zQueue s) as [|[|] r] eqn:QE; [discriminate H| |]; cbn [wfq] in Q; destruct Q as [Q1 Q2].
    + injection H as <-. apply tree_inv; [exact V|exact Q2|exact (zv_owned V)|]. intros UP R. subst r. cbn [wfq] in Q2. rewrite UP in Q2. discriminate Q2.
    + rewrite Q1 in H. injection H as <-. exact (@recover_inv s w V Q1 OR r QE).
  - assert (E : wstep (zFlag s) w (ZForeign p d) = w) by (unfold wstep; destruct (zFlag s); reflexivity). rewrite E.
    destruct (aget bs_eqb (zTree s) p) as [[[|] x]|] eqn:G; [injection H as <-; exact V| |].
    all: injection H as <-.
    all: assert (SM : forall q y, aget bs_eqb (match d with Some x => aset bs_eqb (zTree s) p (false, x) | None => adel bs_eqb (zTree s) p end) q = Some (true, y) <-> aget bs_eqb (zTree s) q = Some (true, y)) by
      (intros q y; destruct d as [z|]; [rewrite (aget_aset bs_eqb bs_eqb_spec)|rewrite (aget_adel bs_eqb bs_eqb_spec)]; (destruct (bs_eqb q p) eqn:EQ; [apply bs_eqb_spec in EQ; subst q; rewrite G; split; intro X; discriminate X|reflexivity])).
    all: apply tree_inv; [exact V|exact (zv_q V)|intros q y Y; apply SM in Y; exact (zv_owned V _ Y)|].
    all: intros UP Q u b B; pose proof (zv_exact V UP Q B) as S; unfold shows in *; rewrite !SM; exact S.
Qed.
Lemma follows_inv s w os s' w' : follows s w os s' w' -> zinv s w -> zinv s' w'.
Proof. induction 1 as [|s w o s1 os s2 w2 H OR F IH]; intro V; [exact V|]. apply IH. exact (zstep_inv o V OR H). Qed.

(* ---- C46 *)
Lemma restored os s w : follows zinit wnone os s w -> settled s ->
  (forall k u b, aget bs_eqb (wReg w) k = Some (u, b) ->
     (mine s (nodePath server u) (ext_info u) <-> b = true) /\ (mine s (nodePath unavailable u) (ext_info u) <-> b = false)) /\
  (forall p d, mine s p d -> exists k u b, aget bs_eqb (wReg w) k = Some (u, b) /\ p = nodePath (if b then server else unavailable) u /\ d = ext_info u).
Proof.
  intros F [UP Q]. pose proof (follows_inv F zinv_init) as V. split.
  - intros k u b G. destruct (zv_key V _ G) as [-> _]. exact (zv_exact V UP Q G).
  - intros p d H. destruct (zv_owned V _ H) as [u [ty [[b B] [K [-> ->]]]]]. exists (ident u), u, b. split; [exact B|]. split; [|reflexivity].
    destruct (zv_exact V UP Q B) as [X Y]. destruct K as [->| ->]; [apply X in H|apply Y in H]; rewrite H; reflexivity.
Qed.
Lemma known os s w : follows zinit wnone os s w -> forall k, aget bs_eqb (zReg s) k = option_map fst (aget bs_eqb (wReg w) k).
Proof. intros F. exact (zv_reg (follows_inv F zinv_init)). Qed.

(* ---- C74 *)
Lemma info_plain d : not_java d -> getNodeInfo d = d.
Proof.
  intro H. unfold getNodeInfo. destruct d as [|a [|b [|c [|e [|t [|f [|g [|h r]]]]]]]]; try reflexivity.
  destruct (byte_eqb a xac && byte_eqb b xed) eqn:E; [|reflexivity]. apply andb_true_iff in E as [A B]. apply byte_eqb_spec in A. apply byte_eqb_spec in B. subst a b.
  exfalso. exact (H _ eq_refl).
Qed.
Lemma info_short a b c d text : text <> [] -> getNodeInfo ([xac; xed; a; b; x74; c; d] ++ text) = text.
Proof. intro H. destruct text as [|x text]; [contradiction|]. reflexivity. Qed.
Lemma info_long a b l8 text : length l8 = 8 -> text <> [] -> getNodeInfo ([xac; xed; a; b; x7c] ++ l8 ++ text) = text.
Proof.
  intros L H. destruct l8 as [|b1 [|b2 [|b3 [|b4 [|b5 [|b6 [|b7 [|b8 [|]]]]]]]]]; try discriminate L. destruct text as [|x text]; [contradiction|]. reflexivity.
Qed.
Lemma ext_info_ne u : ext_info u <> [].
Proof. rewrite ext_info_shape. destruct (uProtocol u); discriminate. Qed.
Lemma children_urls u0 : forall children us, Forall2 written_by children us -> Forall (fun u => clean u /\ has_address u /\ not_java (ext_info u)) us ->
  exists l, nodeChildsToURLs u0 children = Some l /\ Forall2 same_url us l.
Proof.
  induction 1 as [|[name d] u cs us W F2 IH]; intro F; [exists []; split; [reflexivity|constructor]|].
  apply Forall_cons_iff in F as [[CL [HA NJ]] F]. destruct (IH F) as [l [E S]]. unfold written_by in W. cbn [snd] in W. subst d.
  destruct (@roundtrip u CL) as [u' [E' SU]]. cbn [nodeChildsToURLs]. rewrite (info_plain NJ).
  destruct (ext_info u) as [|x r] eqn:EI; [exfalso; exact (@ext_info_ne u EI)|]. rewrite E', E.
  destruct SU as [S1 [S2 [S3 S4]]]. assert (X : negb (uPort u' =? 0)%Z || negb (bs_eqb (uHost u') []) = true).
  { rewrite <- S2, <- S3. apply orb_true_iff. destruct HA as [P|P]; [left|right]; apply negb_true_iff; [apply Z.eqb_neq; exact P|apply bs_eqb_neq; exact P]. }
  rewrite X. exists (u' :: l). split; [reflexivity|]. constructor; [|exact S]. split; [exact S1|]. split; [exact S2|]. split; [exact S3|exact S4].
Qed.

Lemma parse_one u a : parseOne u a = [] /\ (forall h p, ~ host_port a h p) /\ ~ socket a \/
  (socket a /\ exists v, parseOne u a = [v] /\ uHost v = a /\ uPort v = 0%Z /\ uGroup v = uGroup u) \/
  (exists h p v, host_port a h p /\ parseOne u a = [v] /\ uHost v = h /\ uPort v = p /\ uGroup v = uGroup u).
Proof.
  unfold parseOne. destruct (hasPrefix a (s2b "unix://")) eqn:HP.
  - right. left. apply hasPrefix_spec in HP as [t T]. split; [exists t; exact T|]. eexists. split; [reflexivity|]. repeat split; reflexivity.
  - assert (NS : ~ (exists t, a = s2b "unix://" ++ t)). { intro X. apply hasPrefix_spec in X. congruence. }
    destruct (trimSplit a (s2b ":")) as [|h [|ps [|x r]]] eqn:TS.
    + left. split; [reflexivity|]. split; [|exact NS]. intros h p [_ [ps [X _]]]. rewrite TS in X. discriminate X.
    + left. split; [reflexivity|]. split; [|exact NS]. intros h' p [_ [ps [X _]]]. rewrite TS in X. discriminate X.
    + destruct (parseInt64 ps) as [p e] eqn:PI. destruct e.
      1: { right. right. exists h, p. eexists. split; [|split; [reflexivity|repeat split; reflexivity]]. split; [exact NS|]. exists ps. split; assumption. }
      all: left; split; [reflexivity|]; split; [|exact NS]; intros h' p' [_ [ps' [X Y]]]; rewrite TS in X; injection X as <- <-; rewrite PI in Y; discriminate Y.
    + left. split; [reflexivity|]. split; [|exact NS]. intros h' p [_ [ps' [X _]]]. rewrite TS in X. discriminate X.
Qed.
Lemma host_port_fun a h p h' p' : host_port a h p -> host_port a h' p' -> h = h' /\ p = p'.
Proof. intros [_ [ps [A B]]] [_ [ps' [A' B']]]. rewrite A in A'. injection A' as -> <-. rewrite B in B'. injection B' as ->. split; reflexivity. Qed.
Lemma parse_all reg l r : addresses l r -> Forall2 (fun v hp => uHost v = fst hp /\ uPort v = snd hp /\ uGroup v = uGroup reg) (flat_map (parseOne reg) l) r.
Proof.
  induction 1 as [|a h p l r HP A IH|a l r S A IH|a l r NH NS A IH]; cbn [flat_map]; [constructor| | |].
  - destruct (parse_one reg a) as [[_ [N _]]|[[[t T] _]|[h' [p' [v [HP' [-> [A1 [A2 A3]]]]]]]]].
    + exfalso. exact (N _ _ HP).
    + exfalso. destruct HP as [X _]. apply X. exists t. exact T.
    + destruct (host_port_fun HP HP') as [-> ->]. cbn [app]. constructor; [|exact IH]. split; [exact A1|split; assumption].
  - destruct (parse_one reg a) as [[_ [_ N]]|[[_ [v [-> [A1 [A2 A3]]]]]|[h' [p' [v [[X _] _]]]]]].
    + contradiction.
    + cbn [app]. constructor; [|exact IH]. split; [exact A1|split; assumption].
    + exfalso. apply X. exact S.
  - destruct (parse_one reg a) as [[-> _]|[[S _]|[h' [p' [v [HP _]]]]]]; [exact IH|contradiction|exfalso; exact (NH _ _ HP)].
Qed.
Lemma direct_copy reg u : forall l r, Forall2 (fun v hp => uHost v = fst hp /\ uPort v = snd hp /\ uGroup v = uGroup reg) l r -> Forall2 (copy_at reg u)
  (map (fun v => mkUrl (uProtocol u) (uHost v) (uPort v) (uPath u) (if bs_eqb (uGroup v) [] then uGroup u else uGroup v)
                      (Some (match uParams u with Some m => m | None => [] end))) l) r.
Proof.
  induction 1 as [|v hp l r [A [B C]] F IH]; [constructor|]. cbn [map]. constructor; [|exact IH]. unfold copy_at. cbn [uHost uPort uProtocol uPath uGroup].
  split; [exact A|]. split; [exact B|]. split; [reflexivity|]. split; [reflexivity|]. split; [|rewrite C; reflexivity].
  intro k. unfold param. cbn [uParams]. destruct (uParams u); reflexivity.
Qed.
Lemma direct_list reg u a r : (uHost reg = [] \/ (uPort reg <= 0)%Z) -> param reg AddressKey = Some a -> addresses (splitOn x2c a) r ->
  Forall2 (copy_at reg u) (directDiscover reg u) r.
Proof.
  intros H P A. unfold directDiscover, parseURLs. assert (X : negb (bs_eqb (uHost reg) []) && (0 <? uPort reg)%Z = false).
  { apply andb_false_iff. destruct H as [->|H]; [left; reflexivity|right; apply Z.ltb_ge; exact H]. }
  rewrite X. unfold param in P. unfold pget. destruct (uParams reg) as [m|]; [|discriminate P]. rewrite P. apply direct_copy. apply parse_all. exact A.
Qed.
Lemma direct_own reg u : uHost reg <> [] -> (0 < uPort reg)%Z -> Forall2 (copy_at reg u) (directDiscover reg u) [(uHost reg, uPort reg)].
Proof.
  intros H P. unfold directDiscover, parseURLs. apply bs_eqb_neq in H. apply Z.ltb_lt in P. rewrite H, P. cbn [negb andb]. apply direct_copy.
  constructor; [|constructor]. split; [reflexivity|split; reflexivity].
Qed.
Lemma direct_none reg u : (uHost reg = [] \/ (uPort reg <= 0)%Z) -> param reg AddressKey = None -> directDiscover reg u = [].
Proof.
  intros H P. unfold directDiscover, parseURLs. assert (X : negb (bs_eqb (uHost reg) []) && (0 <? uPort reg)%Z = false).
  { apply andb_false_iff. destruct H as [->|H]; [left; reflexivity|right; apply Z.ltb_ge; exact H]. }
  rewrite X. unfold param in P. unfold pget. destruct (uParams reg) as [m|]; [rewrite P|]; reflexivity.
Qed.
Lemma addresses_total l : exists r, addresses l r.
Proof.
  induction l as [|a l [r IH]]; [exists []; constructor|]. destruct (parse_one (mkUrl [] [] 0 [] [] None) a) as [[_ [N NS]]|[[S _]|[h [p [v [HP _]]]]]].
  - exists r. apply ad_bad; assumption.
  - exists ((a, 0%Z) :: r). apply ad_sock; assumption.
  - exists ((h, p) :: r). apply ad_host; assumption.
Qed.
