(* EpSpec.v: vocabulary of C28, C30 and C63. *)
From Verif Require Import Base Strconv GoStrings GoStrings2 UrlModel UrlSpec EpModel.

(* ---- C30: the configured timeout of a method in milliseconds: its own positive value, else the service's, else one second *)
Definition service_timeout (u : url) : Z := if_positive (int_or u (s2b "requestTimeout") 1000) 1000.
Definition configured (u : url) (method desc : bs) : Z :=
  if_positive (method_int_or u method desc (s2b "requestTimeout") (service_timeout u)) (service_timeout u).
(* the window a caller may choose from: the configured bounds; half and double of the configured timeout without them *)
Definition low (u : url) (t : Z) : Z := match int_or u (s2b "minRequestTimeout") 0 with 0%Z => (t / 2)%Z | m => m end.
Definition high (u : url) (t : Z) : Z := match int_or u (s2b "maxRequestTimeout") 0 with 0%Z => (2 * t)%Z | m => m end.
Definition ms : Z := 1000000.
(* a number of milliseconds that fits into nanoseconds *)
Definition small (z : Z) : Prop := (-9223372036854 <= z <= 9223372036854)%Z.
(* the timeout of a request carrying rt in its timeout attachment *)
Definition timeout_of (u : url) (method desc rt : bs) : Z := getRequestTimeout u (initTimeouts u) method desc rt.
(* the number a text stands for: 0 when it is not a number, the nearest int64 when it is out of range *)
Definition number (rt : bs) : Z := fst (parseInt64 rt).

(* ---- C28: histories of one endpoint; the latest action is the last of the list *)
Definition resets (o : eop) : bool := match o with OOk => true | ORst _ => true | _ => false end.
Definition isErr (o : eop) : bool := match o with OErr _ => true | _ => false end.
(* errors recorded since the last good call or successful heartbeat *)
Definition errs_after (n : nat) (o : eop) : nat := if resets o then 0 else if isErr o then S n else n.
Definition errs (ops : list eop) : nat := fold_left errs_after ops 0.
(* the p-th action is an error that brings the count to the threshold *)
Definition trigger (thr : Z) (ops : list eop) (p : nat) : bool :=
  match nth_error ops p with
  | Some (OErr _) => (thr <=? Z.of_nat (errs (firstn (S p) ops)))%Z
  | _ => false
  end.
Definition at_work (k : kpc) : bool := match k with KLoop | KUp | KReset | KExit => true | _ => false end.
(* somebody will still look after an unavailable endpoint *)
Definition pending (s : ep) : Prop :=
  (exists i x, nth_error (eHand s) i = Some (EType x)) \/ (exists i, nth_error (eHand s) i = Some ESpawn) \/
  (exists j, nth_error (eKeep s) j = Some KStart) \/ (exists j, nth_error (eKeep s) j = Some KLoop) \/
  (exists j, nth_error (eKeep s) j = Some KUp).
Definition idle (s : ep) : Prop :=
  (forall i h, nth_error (eHand s) i = Some h -> h = EEnd) /\ (forall j k, nth_error (eKeep s) j = Some k -> k = KEnd).
(* no keepalive goroutine starts while another one has already declared the endpoint available and not yet finished *)
Definition clean (s : ep) (o : eop) : Prop :=
  match o with
  | OKeep _ => forall k, nth_error (eKeep s) k <> Some KReset /\ nth_error (eKeep s) k <> Some KExit
  | _ => True
  end.
Inductive cleanRun (thr : Z) : ep -> Prop :=
| cleanNil : cleanRun thr ep0
| cleanSnoc s o s' : cleanRun thr s -> clean s o -> estep thr s o = Some s' -> cleanRun thr s'.
(* Destroy closes the connection pool: no heartbeat succeeds after it *)
Definition noBeatAfterDestroy (s : ep) (o : eop) : Prop := match o with OBeat _ true => eDestroyed s = false | _ => True end.
Inductive dRun (thr : Z) : ep -> ep -> Prop :=
| dNil s : dRun thr s s
| dSnoc s1 s2 o s3 : dRun thr s1 s2 -> noBeatAfterDestroy s2 o -> estep thr s2 o = Some s3 -> dRun thr s1 s3.

(* an endpoint taken down because its provider does not exist *)
Definition profiled (s : ep) : Prop :=
  eProfile s = true /\ eInit s = IEnd /\ eAvail s = false /\ (forall i h, nth_error (eHand s) i = Some h -> h = EEnd) /\
  (forall j k, nth_error (eKeep s) j = Some k -> k <> KUp).
(* an endpoint right after a successful initialisation *)
Definition epUp : ep := mkEp true 0 false false false 0 true IEnd [] [].
(* one after the other: each error is dealt with completely before anything else happens *)
Inductive ev := EvErr (x : exc) | EvOk | EvBeat (ok : bool) | EvDestroy.
Fixpoint findLoop (l : list kpc) : option nat :=
  match l with [] => None | KLoop :: _ => Some 0 | _ :: r => match findLoop r with Some n => Some (S n) | None => None end end.
Definition evOps (thr : Z) (s : ep) (e : ev) : list eop :=
  match e with
  | EvErr x =>
      let reached := (0 <? thr)%Z && (thr32 thr <=? w32 (eCount s + 1))%N in
      OErr x :: (if reached then [OHand (length (eHand s)); OHand (length (eHand s)); OHand (length (eHand s)); OKeep (length (eKeep s))] else [])
  | EvOk => [OOk]
  | EvBeat ok =>
      match findLoop (eKeep s) with
      | Some j => OBeat j ok :: (if ok && negb (eProfile s) then [OUp j; ORst j; OExit j] else [])
      | None => []
      end
  | EvDestroy => ODestroy :: match findLoop (eKeep s) with Some j => [OToken j; OExit j] | None => [] end
  end.
Fixpoint evRun (thr : Z) (s : ep) (es : list ev) : option ep :=
  match es with
  | [] => Some s
  | e :: r => match eruns thr s (evOps thr s e) with Some s' => evRun thr s' r | None => None end
  end.
(* what a user sees: errors in a row, available, and whether only "provider does not exist" took it down last *)
Record view := mkView { vErrs : nat; vUp : bool; vProfile : bool; vDead : bool }.
Definition view0 : view := mkView 0 true false false.
Definition vstep (thr : Z) (v : view) (e : ev) : view :=
  match e with
  | EvErr x =>
      if (thr <=? Z.of_nat (S (vErrs v)))%Z then mkView (S (vErrs v)) false ((xCode x =? 404)%Z && xMsgNoProvider x) (vDead v)
      else mkView (S (vErrs v)) (vUp v) (vProfile v) (vDead v)
  | EvOk => mkView 0 (vUp v) (vProfile v) (vDead v)
  | EvBeat ok =>
      if negb (vDead v) && negb (vUp v) && ok && negb (vProfile v) then mkView 0 true (vProfile v) (vDead v) else v
  | EvDestroy => mkView (vErrs v) false (vProfile v) true
  end.
Definition views (thr : Z) (es : list ev) : view := fold_left (vstep thr) es view0.

(* ---- C63: whether a call counts against its endpoint: everything that is not an answer of the service itself *)
Definition countsAsError (o : chanOut) : bool :=
  match o with Got _ (Some x) _ => negb (xBiz x) | Got _ None _ => false | _ => true end.
(* ---- C63: the group a motan2 request names: under "M_g", else under "group" *)
Definition value_of (m : list (bs * bs)) (k : bs) : bs := match aget bs_eqb m k with Some v => v | None => [] end.
Definition group_named (m : list (bs * bs)) (g : bs) : Prop :=
  (value_of m (s2b "M_g") <> [] /\ value_of m (s2b "M_g") = g) \/ (value_of m (s2b "M_g") = [] /\ value_of m (s2b "group") = g).
