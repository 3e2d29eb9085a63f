(* RateModel.v: model of filter/rateLimit.go.  The token bucket is the library github.com/juju/ratelimit (not in /repo): [take] is its
   published algorithm (ratelimit.go: currentTick, adjustavailableTokens, take), part of the trusted base.  Times are nanoseconds. *)
From Coq Require Import QArith.
From Verif Require Import Base Strconv GoStrings GoStrings2 UrlModel.
Local Open Scope Z_scope.

Record bucket := mkBucket { bStart : Z; bFill : Z; bQuantum : Z; bCap : Z; bAvail : Z; bTick : Z }.
(* NewBucketWithQuantum: a full bucket *)
Definition newBucket (start fill quantum cap : Z) : bucket := mkBucket start fill quantum cap cap 0.
Definition tickOf (b : bucket) (t : Z) : Z := (t - bStart b) / bFill b.
Definition adjust (b : bucket) (tick : Z) : Z :=
  if bCap b <=? bAvail b then bAvail b
  else Z.min (bCap b) (bAvail b + (tick - bTick b) * bQuantum b).
(* take(now, 1, maxWait): the new state and the time to wait, or a refusal, which takes nothing *)
Definition take (b : bucket) (now maxWait : Z) : bucket * option Z :=
  let tick := tickOf b now in
  let av := adjust b tick in
  let b1 := mkBucket (bStart b) (bFill b) (bQuantum b) (bCap b) av tick in
  let b2 := mkBucket (bStart b) (bFill b) (bQuantum b) (bCap b) (av - 1) tick in
  if 0 <=? av - 1 then (b2, Some 0)
  else let endTick := tick + (- (av - 1) + bQuantum b - 1) / bQuantum b in
       let wait := bStart b + endTick * bFill b - now in
       if maxWait <? wait then (b1, None) else (b2, Some wait).

(* ---- Filter 84-111.  A call takes a service token when it arrives, waits, takes a method token, waits, and goes on.
   Each take is one step (the bucket locks); the clock value is part of the step *)
Record rlim := mkRlim { rlOpen : bool; rlService : option bucket; rlServiceMax : Z; rlMethods : list (bs * bucket) }.
Inductive rlstate := RWait (method : bs) (maxWait : Z) (until : Z)  (* service token taken, sleeping *)
                   | RFwd (at_ : Z)                                 (* goes on to the next filter at this time *)
                   | RRefused.
Inductive rlop := RArrive (method : bs) (maxWait : Z) | RResume (i : nat) | RSwitch (on : bool).
(* a call: its method, when the service bucket let it go on, and where it is *)
Record rlcall := mkRlcall { rcMethod : bs; rcService : option Z; rcState : rlstate }.
Record rlsys := mkRlsys { ryF : rlim; ryCalls : list rlcall }.
(* 92-110 the method part *)
Definition methodPart (f : rlim) (method : bs) (maxWait now : Z) : rlim * rlstate :=
  match aget bs_eqb (rlMethods f) method with
  | None => (f, RFwd now)
  | Some b => let (b', w) := take b now maxWait in
              (mkRlim (rlOpen f) (rlService f) (rlServiceMax f) (aset bs_eqb (rlMethods f) method b'),
               match w with Some d => RFwd (now + d) | None => RRefused end)
  end.
Definition rlMove (s : rlsys) (o : Z * rlop) : rlsys :=
  let now := fst o in
  match snd o with
  | RSwitch on => mkRlsys (mkRlim on (rlService (ryF s)) (rlServiceMax (ryF s)) (rlMethods (ryF s))) (ryCalls s)
  | RArrive m w =>
      if rlOpen (ryF s) then
        match rlService (ryF s) with
        | Some b => let (b', d) := take b now (rlServiceMax (ryF s)) in
                    mkRlsys (mkRlim (rlOpen (ryF s)) (Some b') (rlServiceMax (ryF s)) (rlMethods (ryF s)))
                            (ryCalls s ++ [match d with Some d => mkRlcall m (Some (now + d)) (RWait m w (now + d)) | None => mkRlcall m None RRefused end])
        | None => let (f', st) := methodPart (ryF s) m w now in mkRlsys f' (ryCalls s ++ [mkRlcall m None st])
        end
      else mkRlsys (ryF s) (ryCalls s ++ [mkRlcall m None (RFwd now)])
  | RResume i =>
      match nth_error (ryCalls s) i with
      | Some c =>
          match rcState c with
          | RWait m w t =>
              (* Sleep(wait) returns no earlier than [t]; a resume before that is ignored *)
              if t <=? now then let (f', st) := methodPart (ryF s) m w now in mkRlsys f' (list_set (ryCalls s) i (mkRlcall (rcMethod c) (rcService c) st)) else s
          | _ => s
          end
      | None => s
      end
  end.
Definition rlMoves (s : rlsys) (os : list (Z * rlop)) : rlsys := fold_left rlMove os s.

(* ---- configuration.  Rates are rationals: doubling and comparing is exact on floats in range; NaN is not modelled *)
(* 172-184 getDefaultCapacity *)
Definition getDefaultCapacity (rate : Q) : Z :=
  let c := (rate * 2)%Q in
  if Qle_bool (1000 # 1) c && Qle_bool c (5000 # 1) then (Qnum c / Zpos (Qden c))
  else if negb (Qle_bool (1000 # 1) c) then 1000 else 5000.
(* 163-165 *)
Definition getCapacity (u : url) (rate : Q) : Z := fst (getPositiveIntValue (fresh u) (s2b "capacity") (getDefaultCapacity rate)).
(* 167-169 *)
Definition getMethodCapacity (u : url) (rate : Q) (m : bs) : Z := fst (getMethodPositiveIntValue (fresh u) m [] (s2b "capacity") (getDefaultCapacity rate)).
(* 141-161 getKeyValue; [pf] is strconv.ParseFloat *)
Definition methodConfigPrefix : bs := s2b "rateLimit.".
Definition getKeyValue (pf : bs -> option Q) (key value : bs) : option (bs * Q) :=
  if hasPrefix key methodConfigPrefix then
    match splitStr methodConfigPrefix key with
    | [_; m] => match pf value with Some r => if negb (bs_eqb m []) && negb (Qle_bool r 0) then Some (m, r) else None | None => None end
    | _ => None
    end
  else None.
(* 57-64 the method rates: the parameters are walked in some order *)
Definition methodRates (pf : bs -> option Q) (params : list (bs * bs)) : list (bs * Q) :=
  fold_left (fun m kv => match getKeyValue pf (fst kv) (snd kv) with Some (k, v) => aset bs_eqb m k v | None => m end) params [].
(* 39-55 the service rate: limited only by a positive number *)
Definition serviceRate (pf : bs -> option Q) (u : url) : option Q :=
  let rlp := getParam u (s2b "rateLimit") [] in
  if bs_eqb rlp [] then None else match pf rlp with Some r => if Qle_bool r 0 then None else Some r | None => None end.
(* 93-103 the longest wait of a method, in nanoseconds; the attachment wins, and one that is not a number means zero *)
Definition methodMaxWait (u : url) (method desc attachment : bs) : Z :=
  let t := if negb (bs_eqb attachment []) then match parseInt64 attachment with (v, NumOk) => v | _ => 0 end
           else fst (getMethodPositiveIntValue (fresh u) method desc TimeOutKey 1000) in
  wrapI64 (t * 1000000).
