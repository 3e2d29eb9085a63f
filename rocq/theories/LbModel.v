(* LbModel.v: lb/*.go, the shuffles of core/util.go and endpoint.GenerateRequestID.

   Endpoints are elements of an arbitrary type E.  IsAvailable may answer differently each time it is asked (other
   goroutines change it): [av t e] is the answer to the t-th question of the call.  rand.Intn(n) is [r mod n] for an
   arbitrary number r, so quantifying over r covers every draw.  Atomic counters are explicit numbers that wrap. *)
From Verif Require Import Base Lists BytesModel Strconv GoStrings.

(* ------------------------------------------------------------ endpoint/endpoint.go:20-24, 58-62 GenerateRequestID *)

Definition pMask : N := 0xfffffffffff00000.
Definition sMask : N := 0x000fffff.
(* one call: the clock reading as uint64 and the counter before the atomic add; the new counter and the id *)
Definition generateRequestID (clock offset : N) : N * N :=
  let offset' := ((offset + 1) mod 2 ^ 64)%N in
  (offset', N.lor (N.land clock pMask) (N.land offset' sMask)).

(* ------------------------------------------------------------ core/util.go:91-116 shuffles *)

(* slice[a], slice[b] = slice[b], slice[a] *)
Definition swap {A} (l : list A) (a b : nat) : list A :=
  match nth_error l a, nth_error l b with
  | Some x, Some y => upd (upd l a y) b x
  | _, _ => l
  end.
(* SliceShuffle, EndpointShuffle, ByteSliceShuffle: the same code for three element types; one pair of draws a step *)
Definition shuffle {A} (draws : nat -> N * N) (l : list A) : list A :=
  fold_left (fun l' i => let n := N.of_nat (length l) in
                         swap l' (N.to_nat (fst (draws i) mod n)) (N.to_nat (snd (draws i) mod n)))
            (seq 0 (length l)) l.

(* core/util.go:310-315 GetNonNegative on an int64 *)
Definition getNonNegative (v : Z) : Z := if (0 <? v)%Z then v else Z.land 0x7fffffffffffffff v.

(* ------------------------------------------------------------ lb/lb.go:231-281 *)

(* a chosen endpoint (with its index), nil, or a Go panic *)
Inductive pick (E : Type) := PEp (i : nat) (e : E) | PNil | PPanic.
Arguments PEp {E}. Arguments PNil {E}. Arguments PPanic {E}.

(* rand.Intn(n) *)
Definition intn (r : N) (n : nat) : nat := N.to_nat (r mod N.of_nat n).

(* the loop "for idx := 0; idx < epsLen; idx++ { (start+idx) % epsLen }"; [k] steps are left *)
Fixpoint scanFrom {E} (av : nat -> E -> bool) (eps : list E) (start idx k : nat) : pick E :=
  match k with
  | O => PNil
  | S k' => let i := (start + idx) mod length eps in
            match nth_error eps i with
            | None => PPanic
            | Some e => if av idx e then PEp i e else scanFrom av eps start (S idx) k'
            end
  end.

(* lb.go:262-281 SelectOneAtRandom *)
Definition selectOneAtRandom {E} (av : nat -> E -> bool) (r1 r2 : N) (eps : list E) : pick E :=
  match eps with
  | [] => PNil
  | _ => let i := intn r1 (length eps) in
         match nth_error eps i with
         | None => PPanic
         | Some e => if av 0 e then PEp i e
                     else scanFrom (fun t => av (S t)) eps (intn r2 (length eps)) 0 (length eps)
         end
  end.

(* lb.go:247-260 SelectArrayFromIndex for a non-negative index; [None] is a panic *)
Definition MaxSelectArraySize : nat := 3.
Fixpoint arrayLoop {E} (av : nat -> E -> bool) (eps : list E) (from idx k : nat) (acc : list E) : option (list E) :=
  match k with
  | O => Some acc
  | S k' =>
      if length acc <? MaxSelectArraySize then
        match nth_error eps ((from + idx) mod length eps) with
        | None => None
        | Some e => arrayLoop av eps from (S idx) k' (if av idx e then acc ++ [e] else acc)
        end
      else Some acc
  end.
Definition selectArrayFromIndex {E} (av : nat -> E -> bool) (eps : list E) (from : nat) : option (list E) :=
  arrayLoop av eps from 0 (length eps) [].

(* randomLb.go:17-30; [av] answers during the choice, [av'] during SelectArrayFromIndex *)
Definition randomSelect {E} (av : nat -> E -> bool) (r1 r2 : N) (eps : list E) : pick E := selectOneAtRandom av r1 r2 eps.
Definition arrayAfter {E} (p : pick E) (av' : nat -> E -> bool) (eps : list E) : option (list E) :=
  match p with
  | PEp i _ => selectArrayFromIndex av' eps i
  | PNil => Some []
  | PPanic => None
  end.
Definition randomSelectArray {E} (av av' : nat -> E -> bool) (r1 r2 : N) (eps : list E) : option (list E) :=
  arrayAfter (selectOneAtRandom av r1 r2 eps) av' eps.

(* roundrobinLb.go:39-49 roundrobinSelect: the new counter (uint32) and the choice *)
Definition roundrobinSelect {E} (av : nat -> E -> bool) (r1 r2 : N) (index : N) (eps : list E) : N * pick E :=
  match eps with
  | [] => (index, PNil)
  | _ => let next := ((index + 1) mod 2 ^ 32)%N in
         let i := N.to_nat (next mod N.of_nat (length eps)) in
         (next, match nth_error eps i with
                | None => PPanic
                | Some e => if av 0 e then PEp i e else selectOneAtRandom (fun t => av (S t)) r1 r2 eps
                end)
  end.
Definition roundrobinSelectArray {E} (av av' : nat -> E -> bool) (r1 r2 : N) (index : N) (eps : list E) : N * option (list E) :=
  let '(next, p) := roundrobinSelect av r1 r2 index eps in (next, arrayAfter p av' eps).

(* lb.go:240-245 basegcd; [fuel] bounds the recursion (LbProofs.basegcd_ok: m + 1 is enough) *)
Fixpoint basegcd_ (fuel : nat) (n m : N) : option N :=
  match fuel with
  | O => None
  | S f => if (N.eqb n 0 || N.eqb m 0)%bool then Some (m + n)%N else basegcd_ f m (n mod m)
  end.
Definition basegcd (n m : N) : option N := basegcd_ (S (S (N.to_nat m))) n m.
(* lb.go:231-238 findGcd; an empty slice is an index panic *)
Definition findGcd (v : list N) : option N :=
  match v with
  | [] => None
  | x :: r => fold_left (fun g y => match g with None => None | Some g => basegcd g y end) r (Some x)
  end.

(* ------------------------------------------------------------ weightedEpRefresher.go *)

(* 159-175 adjustWeight *)
Definition adjustWeight (weight : bs) (defaultWeight : Z) : Z :=
  match weight with
  | [] => defaultWeight
  | _ => match parseInt64 weight with
         | (z, NumOk) => if (z <? 1)%Z then 1%Z else if (500 <? z)%Z then 500%Z else z
         | _ => defaultWeight
         end
  end.
(* 213-233 WeightedEpHolder: the static weight never changes, the dynamic one starts at 0 *)
Record holder (E : Type) := mkHolder { hEp : E; hStatic : Z; hDyn : Z }.
Arguments mkHolder {E}. Arguments hEp {E}. Arguments hStatic {E}. Arguments hDyn {E}.
Definition getWeight {E} (h : holder E) : Z := if (0 <? hDyn h)%Z then hDyn h else hStatic h.

(* 57-86 RefreshWeightedHolders: [same] is interface equality of endpoints, [static] the weight in the endpoint's
   static metadata, [dyn] what refreshing a new holder's dynamic weight stores (0 when nothing is stored) *)
Definition defaultEpWeight : Z := 10.
Definition refreshHolders {E} (same : E -> E -> bool) (static : E -> bs) (dyn : E -> Z)
    (old : list (holder E)) (eps : list E) : list (holder E) :=
  map (fun e => match find (fun h => same e (hEp h)) old with
                | Some h => h
                | None => mkHolder e (adjustWeight (static e) defaultEpWeight) (dyn e)
                end) eps.
(* 94-117: what a successful refresh stores: the metadata weight adjusted, or 0 when there is none *)
Definition dynamicWeight (meta : bs) : Z := adjustWeight meta 0.

(* ------------------------------------------------------------ weightRoundRobinLb.go *)

Record swItem (E : Type) := mkItem { iEp : E; iWeight : N; iCur : Z }.
Arguments mkItem {E}. Arguments iEp {E}. Arguments iWeight {E}. Arguments iCur {E}.
(* idx is the int64 counter *)
Inductive selector (E : Type) :=
| SelRR (holders : list E) (idx : Z)
| SelRing (holders : list E) (ring : list byte) (idx : Z)
| SelWindow (items : list (swItem E)) (window : nat) (idx : Z).
Arguments SelRR {E}. Arguments SelRing {E}. Arguments SelWindow {E}.

Definition sumN (l : list N) : N := fold_right N.add 0%N l.

(* 190-203 initWeightRing before the shuffle; byte(i) truncates.  The array has length totalWeight, which is the sum of
   the weights at the only call, so every write is in range and fills it. *)
Definition ringBytes (weights : list N) : list byte :=
  concat (map (fun iw => repeat (n2b (N.of_nat (fst iw))) (N.to_nat (snd iw))) (combine (seq 0 (length weights)) weights)).

(* 234-244 the window size; [for len%window == 0 { window-- }] *)
Fixpoint shrink (fuel n w : nat) : nat :=
  match fuel with O => w | S f => if n mod w =? 0 then shrink f n (w - 1) else w end.
Definition windowSize (n : nat) : nat := if 50 <? n then shrink 50 n 50 else n.

(* 58-107 NotifyWeightChange: the new selector, given the current one and the holders; [None] would be the index panic
   of findGcd, which needs an empty list.  Weights are positive (adjustWeight), so they are taken as N. *)
Definition wrMaxEpSize : nat := 256.
Definition wrMaxTotalWeight : N := 5120.
Definition allSame (w : list N) : bool := match w with [] => true | x :: r => forallb (N.eqb x) r end.
Definition notifyWeightChange {E} (draws : nat -> N * N) (cur : option (selector E)) (hs : list (E * N)) : option (selector E) :=
  let eps := map fst hs in
  let weights := map snd hs in
  if allSame weights then
    match cur with
    | Some (SelRR _ idx) => Some (SelRR eps idx)
    | _ => Some (SelRR eps 0)
    end
  else
    match findGcd weights with
    | None => None
    | Some gcd =>
        let ws := if (1 <? gcd)%N then map (fun w => (w / gcd)%N) weights else weights in
        if (length ws <=? wrMaxEpSize) && (sumN ws <=? wrMaxTotalWeight)%N then
          Some (SelRing eps (shuffle draws (ringBytes ws)) 0)
        else Some (SelWindow (map (fun ew => mkItem (fst ew) (snd ew) 0) (combine eps ws)) (windowSize (length ws)) 0)
    end.

(* atomic.AddInt64 *)
Definition addInt64 (v d : Z) : Z := toSigned 64 (toUnsigned 64 (v + d)).

(* int(x) % n for a non-negative x *)
Definition zmod (x : Z) (n : nat) : nat := Z.to_nat (x mod Z.of_nat n).

(* 140-159 roundRobinSelector.DoSelect *)
Definition rrDoSelect {E} (av : nat -> E -> bool) (r : N) (holders : list E) (idx : Z) : Z * pick E :=
  let idx' := addInt64 idx 1 in
  (idx', match holders with
         | [] => PPanic      (* integer divide by zero *)
         | _ => let i := zmod (getNonNegative idx') (length holders) in
                match nth_error holders i with
                | None => PPanic
                | Some e => if av 0 e then PEp i e
                            else scanFrom (fun t => av (S t)) holders (intn r (length holders)) 0 (length holders)
                end
         end).

(* 205-222 weightedRingSelector.DoSelect; the fallback scans the ring *)
Fixpoint ringScan {E} (av : nat -> E -> bool) (holders : list E) (ring : list byte) (start idx k : nat) : pick E :=
  match k with
  | O => PNil
  | S k' => match nth_error ring ((start + idx) mod length ring) with
            | None => PPanic
            | Some b => match nth_error holders (N.to_nat (b2n b)) with
                        | None => PPanic
                        | Some e => if av idx e then PEp (N.to_nat (b2n b)) e else ringScan av holders ring start (S idx) k'
                        end
            end
  end.
Definition ringDoSelect {E} (av : nat -> E -> bool) (r : N) (holders : list E) (ring : list byte) (idx : Z) : Z * pick E :=
  let idx' := addInt64 idx 1 in
  (idx', match ring with
         | [] => PPanic
         | _ => match nth_error ring (zmod (getNonNegative idx') (length ring)) with
                | None => PPanic
                | Some b =>
                    match nth_error holders (N.to_nat (b2n b)) with
                    | None => PPanic
                    | Some e => if av 0 e then PEp (N.to_nat (b2n b)) e
                                else ringScan (fun t => av (S t)) holders ring (intn r (length ring)) 0 (length ring)
                    end
                end
         end).

(* 256-295 slidingWindow DoSelect, run without interleaving: the loop over the window; state: items, total weight,
   largest current weight so far and its index *)
Fixpoint windowLoop {E} (av : nat -> E -> bool) (items : list (swItem E)) (start i k : nat) (total sMax : Z) (maxI : nat)
    : option (list (swItem E) * Z * Z * nat) :=
  match k with
  | O => Some (items, total, sMax, maxI)
  | S k' =>
      let j := (start + i) mod length items in
      match nth_error items j with
      | None => None
      | Some it =>
          if av i (iEp it) then
            let c := (iCur it + Z.of_N (iWeight it))%Z in
            let items' := upd items j (mkItem (iEp it) (iWeight it) c) in
            if (sMax <? c)%Z then windowLoop av items' start (S i) k' (total + Z.of_N (iWeight it)) c j
            else windowLoop av items' start (S i) k' (total + Z.of_N (iWeight it)) sMax maxI
          else windowLoop av items start (S i) k' total sMax maxI
      end
  end.
(* 287-294 the fallback loop starts at i = 1 *)
Fixpoint windowScan {E} (av : nat -> E -> bool) (items : list (swItem E)) (start i k : nat) : pick E :=
  match k with
  | O => PNil
  | S k' => let j := (start + i) mod length items in
            match nth_error items j with
            | None => PPanic
            | Some it => if av i (iEp it) then PEp j (iEp it) else windowScan av items start (S i) k'
            end
  end.
(* [av1], [av2], [av3]: answers in the window loop, for the chosen item, and in the fallback *)
Definition windowDoSelect {E} (av1 : nat -> E -> bool) (av2 : E -> bool) (av3 : nat -> E -> bool) (r : N)
    (items : list (swItem E)) (window : nat) (idx : Z) : list (swItem E) * Z * pick E :=
  let idx' := addInt64 idx (Z.of_nat window) in
  match items with
  | [] => (items, idx', PPanic)
  | _ =>
      let start := zmod (getNonNegative idx') (length items) in
      match windowLoop av1 items start 0 window 0 0 0 with
      | None => (items, idx', PPanic)
      | Some (items1, total, sMax, maxI) =>
          let fallback (its : list (swItem E)) :=
            (its, idx', windowScan av3 its (start + intn r window) 1 (length its - 1)) in
          if (0 <? sMax)%Z then
            match nth_error items1 maxI with
            | None => (items1, idx', PPanic)
            | Some it =>
                let items2 := upd items1 maxI (mkItem (iEp it) (iWeight it) (iCur it - total)) in
                if av2 (iEp it) then (items2, idx', PEp maxI (iEp it)) else fallback items2
            end
          else fallback items1
      end
  end.

(* one Select: the answers and the draw it sees *)
Record answers (E : Type) := mkAns { a_av1 : nat -> E -> bool; a_av2 : E -> bool; a_av3 : nat -> E -> bool; a_r : N }.
Arguments mkAns {E}. Arguments a_av1 {E}. Arguments a_av2 {E}. Arguments a_av3 {E}. Arguments a_r {E}.
(* weightRoundRobinLb.go:27-33 Select on an installed selector: it asks that selector *)
Definition wrrSelect {E} (a : answers E) (s : selector E) : selector E * pick E :=
  match s with
  | SelRR hs idx => let '(idx', p) := rrDoSelect (a_av1 a) (a_r a) hs idx in (SelRR hs idx', p)
  | SelRing hs ring idx => let '(idx', p) := ringDoSelect (a_av1 a) (a_r a) hs ring idx in (SelRing hs ring idx', p)
  | SelWindow its w idx =>
      let '(its', idx', p) := windowDoSelect (a_av1 a) (a_av2 a) (a_av3 a) (a_r a) its w idx in (SelWindow its' w idx', p)
  end.

(* ------------------------------------------------------------ lb.go:49-228 WeightedLbWrapper *)

(* 88-110 the parsed group weights and whether every entry is a bare group name *)
Definition comma := x2c.
Definition colon := x3a.
Definition parseEntry (gw : list (bs * Z) * bool) (w : bs) : list (bs * Z) * bool :=
  match w with
  | [] => gw
  | _ => match splitOn colon w with
         | g :: v :: _ =>
             let n := match parseInt64 v with
                      | (z, NumOk) => if (z <? 1)%Z then 1%Z else if (100 <? z)%Z then 100%Z else z
                      | _ => 1%Z
                      end in
             (aset bs_eqb (fst gw) g n, false)
         | [g] => (aset bs_eqb (fst gw) g 1%Z, snd gw)
         | [] => gw
         end
  end.
Definition parseWeights (s : bs) : list (bs * Z) * bool := fold_left parseEntry (splitOn comma s) ([], true).

(* the lists installed by a refresh: one inner load balancer over all endpoints, or a ring of groups, each with an
   inner load balancer over its endpoints *)
Inductive refers (E : Type) :=
| Single (eps : list E)
| Weighted (ring : list bs) (groups : list (bs * list E)) (index : N).
Arguments Single {E}. Arguments Weighted {E}.

(* 122-130 endpoints by group, in the order of the list *)
Definition groupEps {E} (grp : E -> bs) (eps : list E) (g : bs) : list E := filter (fun e => bs_eqb (grp e) g) eps.

(* 81-160 OnRefresh.  [order1], [order2]: the orders in which Go visits the two maps (any orderings of the distinct
   groups); [None] is a panic (no endpoints: findGcd of an empty slice; all weights 0: division by zero). *)
Definition onRefresh {E} (grp : E -> bs) (order1 order2 : list bs) (draws : nat -> N * N) (weight : bs) (eps : list E) : option (refers E) :=
  match weight with
  | [] => Some (Single eps)
  | _ =>
      let '(gws, mixMode) := parseWeights weight in
      if mixMode then Some (Single eps)
      else
        let wi g := Z.to_N (match aget bs_eqb gws g with Some z => z | None => 0%Z end) in
        match findGcd (map wi order1) with
        | None => None
        | Some gcd =>
            if N.eqb gcd 0 then None
            else let ring := concat (map (fun g => repeat g (N.to_nat (wi g / gcd))) order2) in
                 Some (Weighted (shuffle draws ring) (map (fun g => (g, groupEps grp eps g)) order1) 0)
        end
  end.

(* 211-221 selectNext / selectNextArray: the new counter (uint32) and the group whose load balancer is asked;
   [None] is a panic *)
Definition selectGroup (ring : list bs) (index : N) : N * option bs :=
  let next := ((index + 1) mod 2 ^ 32)%N in
  (next, match ring with [] => None | _ => nth_error ring (N.to_nat (next mod N.of_nat (length ring))) end).

(* ------------------------------------------------------------ consistentHashKeyLb.go *)

(* github.com/buraksezer/consistent as parameters: building a ring from members, partition count, replication factor
   and load (None: it panicked, which buildConsistent0 recovers), and locating a key.  [incLoad] is "load += 0.1". *)
Record hashlib (E R L : Type) := mkHash {
  h_new : list E -> nat -> nat -> L -> option R;
  h_locate : R -> bs -> option E;          (* None: the library returned a nil member *)
  h_incLoad : L -> L
}.
Arguments h_new {E R L}. Arguments h_locate {E R L}. Arguments h_incLoad {E R L}.

(* the fields of ConsistentHashLB; load and replica are None until the first build (0 in Go) *)
Record chState (E R L : Type) := mkCh { cEps : list E; cRing : option R; cPart : nat; cLoad : option L; cReplica : option nat }.
Arguments mkCh {E R L}. Arguments cEps {E R L}. Arguments cRing {E R L}. Arguments cPart {E R L}. Arguments cLoad {E R L}. Arguments cReplica {E R L}.

(* 141-155 the retry loop: at most 21 attempts *)
Fixpoint buildRetry {E R L} (H : hashlib E R L) (k : nat) (eps : list E) (part replica : nat) (load : L) : option (R * L) :=
  match k with
  | O => None
  | S k' => match h_new H eps part replica load with
            | Some r => Some (r, load)
            | None => buildRetry H k' eps part replica (h_incLoad H load)
            end
  end.
(* 51-63, 104-165 OnRefresh; [partCfg], [loadCfg], [replicaCfg] are the configured values (load already raised to the
   minimum; replica 0 when not configured) *)
Definition chRefresh {E R L} (H : hashlib E R L) (partCfg : nat) (loadCfg : L) (replicaCfg : nat)
    (s : chState E R L) (eps : list E) : chState E R L :=
  match eps with
  | [e] => mkCh eps None (cPart s) (cLoad s) (cReplica s)
  | _ =>
      let part0 := if cPart s =? 0 then partCfg else cPart s in
      let part := if part0 <? length eps * 2 then length eps * 5 + 271 else part0 in
      let load := match cLoad s with Some l => l | None => loadCfg end in
      let replica := match cReplica s with
                     | Some r => r
                     | None => if replicaCfg =? 0 then (if length eps <? 100 then 20 else 10) else replicaCfg
                     end in
      match buildRetry H 21 eps part replica load with
      | None => mkCh (cEps s) (cRing s) (cPart s) (Some load) (Some replica)
      | Some (r, load') => mkCh eps (Some r) part (Some load') (Some replica)
      end
  end.
(* 65-78 Select; a nil ring or a nil member is a panic *)
Definition chSelect {E R L} (H : hashlib E R L) (av : nat -> E -> bool) (r1 r2 : N) (s : chState E R L) (key : bs) : pick E :=
  match cEps s with
  | [e] => PEp 0 e
  | eps =>
      match key with
      | [] => selectOneAtRandom av r1 r2 eps
      | _ => match cRing s with
             | None => PPanic
             | Some r => match h_locate H r key with
                         | None => PPanic
                         | Some e => if av 0 e then PEp 0 e      (* index not used *)
                                     else selectOneAtRandom (fun t => av (S t)) r1 r2 eps
                         end
             end
      end
  end.
