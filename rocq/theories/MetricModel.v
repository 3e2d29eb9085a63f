(* MetricModel.v: model of metrics/graphite.go, of the names in metrics/metrics.go and of the metrics filters.

   Oracles: how long a call took, and the text of a percentile or mean ("%.2f").  The order in which a Go map is visited
   is the order of the list that stands for it. *)
From Verif Require Import Base Strconv GoStrings GoStrings2.

(* metrics/metrics.go 199-210: the characters Escape keeps *)
Definition inR (lo hi : N) (b : byte) : bool := N.leb lo (b2n b) && N.leb (b2n b) hi.
Definition allowed (b : byte) : bool := inR 97 122 b || inR 65 90 b || inR 48 57 b || byte_eqb b x2d.
(* the width of the first rune, as Go's range over a string takes it: an invalid sequence is one byte wide *)
Definition runeLen (s : bs) : nat :=
  match s with
  | [] => 0%nat
  | a :: r =>
      let cont := inR 128 191 in
      match r with
      | [] => 1%nat
      | b :: r1 =>
          if inR 194 223 a then (if cont b then 2 else 1)%nat else
          let ok2 := (byte_eqb a xe0 && inR 160 191 b) || (byte_eqb a xed && inR 128 159 b) ||
                     ((inR 225 236 a || inR 238 239 a) && cont b) in
          let ok3 := (byte_eqb a xf0 && inR 144 191 b) || (byte_eqb a xf4 && inR 128 143 b) || (inR 241 243 a && cont b) in
          match r1 with
          | [] => 1%nat
          | c :: r2 =>
              if ok2 && cont c then 3%nat
              else match r2 with
                   | [] => 1%nat
                   | d :: _ => if ok3 && cont c && cont d then 4%nat else 1%nat
                   end
          end
      end
  end.
(* 194-208 Escape.  The cache is a memo of this function *)
Fixpoint escapeFrom (skip : nat) (s : bs) : bs :=
  match s with
  | [] => []
  | b :: r =>
      match skip with
      | S k => escapeFrom k r
      | O => if allowed b then b :: escapeFrom 0 r else x5f :: escapeFrom (runeLen s - 1) r
      end
  end.
Definition escape (s : bs) : bs := escapeFrom 0 s.

(* 321-337 getMetricKey *)
Definition metricKey (keys : list bs) (suffix : bs) : bs := joinStr (s2b ":") (map escape keys) ++ suffix.
(* 112: the key of an item *)
Definition itemKey (group groupSuffix service : bs) : bs := group ++ groupSuffix ++ service.

(* 258-271 ElapseTimeSuffix *)
Definition elapseSuffix (t : Z) : bs :=
  if Z.ltb t 50 then s2b ".Less50ms" else if Z.ltb t 100 then s2b ".Less100ms" else if Z.ltb t 200 then s2b ".Less200ms"
  else if Z.ltb t 500 then s2b ".Less500ms" else s2b ".More500ms".

(* 296-304 event *)
Inductive kind := KCounter | KHist | KGauge.
Record event := mkEv { evKind : kind; evGroup : bs; evGroupSuffix : bs; evService : bs; evKeys : list bs; evKeySuffix : bs; evValue : Z }.

(* filter/metrics.go 107-124 addMetricWithKeys.  [resp] is None for a nil response, on which GetException panics *)
Definition BizException : Z := 2.
Definition addMetric (group gsuffix service : bs) (keys : list bs) (cost : Z) (resp : option (option Z)) : list event * bool :=
  let ev k sfx v := mkEv k group gsuffix service keys sfx v in
  match resp with
  | None => ([ev KCounter (s2b ".total_count") 1%Z], false)
  | Some exc =>
      ([ev KCounter (s2b ".total_count") 1%Z] ++
       (match exc with
        | Some t => if Z.eqb t BizException then [ev KCounter (s2b ".biz_error_count") 1%Z] else [ev KCounter (s2b ".other_error_count") 1%Z]
        | None => []
        end) ++
       [ev KCounter (elapseSuffix cost) 1%Z] ++
       (if Z.ltb 200 cost then [ev KCounter (s2b ".slow_count") 1%Z] else []) ++
       [ev KHist [] cost], true)
  end.

(* one call seen by a metrics filter *)
Inductive callerType := CProvider | CEndPoint | COther.
Record fcall := mkCall {
  fcCaller : callerType; fcProxy : bool;
  fcApp : bs;      (* application of the caller's URL *)
  fcReqApp : bs;   (* M_s of the request *)
  fcMethod : bs; fcGroup : bs; fcService : bs;
  fcCost1 : Z; fcCost : Z;   (* the two readings of the clock *)
  fcResp : option (option Z) }.

(* filter/metrics.go 66-105 Filter; [sw] is the switcher.  false = panic *)
Definition roleOf (c : fcall) : bs :=
  match fcCaller c with
  | CProvider => if fcProxy c then s2b "motan-server-agent" else s2b "motan-server"
  | CEndPoint => if fcProxy c then s2b "motan-client-agent" else s2b "motan-client"
  | COther => s2b "motan-client"
  end.
Definition isProvider (c : fcall) : bool := match fcCaller c with CProvider => true | _ => false end.
Definition twice (a b : list event * bool) : list event * bool := if snd a then (fst a ++ fst b, snd b) else a.
Definition metricsFilter (sw : bool) (c : fcall) : list event * bool :=
  let own := addMetric (fcGroup c) [] (fcService c) [roleOf c; fcApp c; fcMethod c] (fcCost c) (fcResp c) in
  if negb (isProvider c) && sw && negb (bs_eqb (fcApp c) (fcReqApp c))
  then twice (addMetric (fcGroup c) [] (fcService c) [roleOf c; fcReqApp c; fcMethod c] (fcCost1 c) (fcResp c)) own
  else own.
(* filter/clusterMetrics.go 53-86 Filter *)
Definition clusterRole (c : fcall) : bs := if fcProxy c then s2b "motan-client-agent" else s2b "motan-client".
Definition clusterMetricsFilter (sw : bool) (c : fcall) : list event * bool :=
  let own := addMetric (fcGroup c) (s2b ".cluster") (fcService c) [clusterRole c; fcApp c; fcMethod c] (fcCost c) (fcResp c) in
  if sw && negb (bs_eqb (fcApp c) (fcReqApp c))
  then twice (addMetric (fcGroup c) (s2b ".cluster") (fcService c) [clusterRole c; fcReqApp c; fcMethod c] (fcCost1 c) (fcResp c)) own
  else own.

(* ---- graphite *)
Inductive metric := MHist (percentiles : list (bs * bs)) (mean : bs) | MCounter (z : Z) | MGauge (z : Z).
Record snap := mkSnap { snGroup : bs; snGroupSuffix : bs; snService : bs; snReport : bool; snEntries : list (bs * metric) }.

(* strings.SplitN(k, ":", 3), when it has three parts *)
Fixpoint cutAt (c : byte) (s : bs) : option (bs * bs) :=
  match s with
  | [] => None
  | b :: r => if byte_eqb b c then Some ([], r) else match cutAt c r with Some (x, y) => Some (b :: x, y) | None => None end
  end.
Definition split3 (k : bs) : option (bs * bs * bs) :=
  match cutAt x3a k with
  | Some (a, r) => match cutAt x3a r with Some (b, t) => Some (a, b, t) | None => None end
  | None => None
  end.
Definition NL : byte := x0a.
(* metrics/graphite.go 101-120: the text of one key *)
Definition dot := s2b ".".
Definition segment (ip : bs) (s : snap) (k : bs) (m : metric) : option bs :=
  match split3 k with
  | None => None
  | Some (p0, p1, p2) =>
      let group := escape (snGroup s) ++ snGroupSuffix s in
      let pre := p0 ++ dot ++ p1 ++ dot ++ group ++ s2b ".byhost." ++ ip ++ dot ++ escape (snService s) ++ dot ++ p2 in
      Some match m with
           | MHist ps mean => concat (map (fun p => pre ++ dot ++ fst p ++ s2b ":" ++ snd p ++ s2b "|kv" ++ [NL]) ps) ++
                              pre ++ dot ++ s2b "avg_time" ++ s2b ":" ++ mean ++ s2b "|ms" ++ [NL]
           | MCounter z => pre ++ s2b ":" ++ fmtZ z ++ s2b "|c" ++ [NL]
           | MGauge z => pre ++ s2b ":" ++ fmtZ z ++ s2b "|kv" ++ [NL]
           end
  end.
Definition messageMaxLen : N := 5120.
Definition blen (s : bs) : N := N.of_nat (length s).
(* 121-126: one segment goes into the buffer *)
Definition addSegment (st : list bs * bs) (seg : bs) : list bs * bs :=
  let '(msgs, buf) := st in
  if N.ltb 0 (blen buf) && N.ltb messageMaxLen (blen buf + blen seg) then (msgs ++ [buf], seg) else (msgs, buf ++ seg).
Definition addKey (ip : bs) (s : snap) (st : list bs * bs) (km : bs * metric) : list bs * bs :=
  match segment ip s (fst km) (snd km) with Some seg => addSegment st seg | None => st end.
Definition addSnap (ip : bs) (st : list bs * bs) (s : snap) : list bs * bs :=
  if snReport s then fold_left (addKey ip s) (snEntries s) st else st.
(* 92-133 GenGraphiteMessages *)
Definition genGraphite (ip : bs) (snaps : list snap) : list bs :=
  let '(msgs, buf) := fold_left (addSnap ip) snaps ([], []) in msgs ++ [buf].
(* 75-78: Write sends those that are not empty *)
Definition sent (ip : bs) (snaps : list snap) : list bs :=
  filter (fun m => negb (bs_eqb m [])) (genGraphite ip snaps).
