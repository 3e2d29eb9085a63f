(* MetricSpec.v: what is reported, for C42 and C61. *)
From Verif Require Import Base Strconv GoStrings GoStrings2 MetricModel.

(* ---- C42: the lines of a snapshot *)
Definition nocolon (s : bs) : Prop := ~ In x3a s.
(* a reported key is role:application:rest *)
Definition key_parts (k a b rest : bs) : Prop := k = a ++ s2b ":" ++ b ++ s2b ":" ++ rest /\ nocolon a /\ nocolon b.
Definition name_of (ip : bs) (s : snap) (a b rest : bs) : bs :=
  joinStr (s2b ".") [a; b; escape (snGroup s) ++ snGroupSuffix s; s2b "byhost"; ip; escape (snService s); rest].
Definition line (name value type : bs) : bs := name ++ s2b ":" ++ value ++ s2b "|" ++ type ++ [x0a].
Definition lines_of (name : bs) (m : metric) : list bs :=
  match m with
  | MCounter z => [line name (fmtZ z) (s2b "c")]
  | MGauge z => [line name (fmtZ z) (s2b "kv")]
  | MHist ps mean => map (fun p => line (name ++ s2b "." ++ fst p) (snd p) (s2b "kv")) ps ++ [line (name ++ s2b ".avg_time") mean (s2b "ms")]
  end.
(* the lines of all keys, one list per key, in the order visited *)
Inductive all_lines (ip : bs) : list snap -> list (list bs) -> Prop :=
| al_nil : all_lines ip [] []
| al_silent s r l : snReport s = false -> all_lines ip r l -> all_lines ip (s :: r) l
| al_snap s r ls l : snReport s = true -> key_lines ip s (snEntries s) ls -> all_lines ip r l -> all_lines ip (s :: r) (ls ++ l)
with key_lines (ip : bs) : snap -> list (bs * metric) -> list (list bs) -> Prop :=
| kl_nil s : key_lines ip s [] []
| kl_skip s k m r l : (forall a b rest, ~ key_parts k a b rest) -> key_lines ip s r l -> key_lines ip s ((k, m) :: r) l
| kl_key s k m r l a b rest : key_parts k a b rest -> key_lines ip s r l ->
    key_lines ip s ((k, m) :: r) (lines_of (name_of ip s a b rest) m :: l).
Definition limit : N := 5120.
(* the text of a group of keys *)
Definition flat (g : list (list bs)) : bs := concat (concat g).
(* a datagram holds whole keys, and is within the limit unless it holds one key only *)
Definition fits (g : list (list bs)) : Prop := (blen (flat g) <= limit)%N \/ exists k, g = [k].
(* no datagram could have taken the key that follows it *)
Inductive tight : list (list (list bs)) -> Prop :=
| ti_nil : tight [] | ti_one g : tight [g]
| ti_cons g k g2 r : (limit < blen (flat g) + blen (concat k))%N -> tight ((k :: g2) :: r) -> tight (g :: (k :: g2) :: r).

(* ---- C61: what one call records *)
Record rec := mkRec { rItem : bs; rKey : bs; rCost : Z; rExc : option Z }.
Definition base_key (role app method : bs) : bs := escape role ++ s2b ":" ++ escape app ++ s2b ":" ++ escape method.
Definition role_spec (server proxy : bool) : bs :=
  s2b (match server, proxy with
       | true, true => "motan-server-agent" | true, false => "motan-server"
       | false, true => "motan-client-agent" | false, false => "motan-client"
       end).
Definition is_server (c : fcall) : bool := match fcCaller c with CProvider => true | _ => false end.
Definition via_agent (c : fcall) : bool := match fcCaller c with COther => false | _ => fcProxy c end.
Definition recs (sw : bool) (exc : option Z) (c : fcall) : list rec :=
  let r := role_spec (is_server c) (via_agent c) in
  let item := fcGroup c ++ fcService c in
  (if sw && negb (is_server c) && negb (bs_eqb (fcApp c) (fcReqApp c)) then [mkRec item (base_key r (fcReqApp c) (fcMethod c)) (fcCost1 c) exc] else []) ++
  [mkRec item (base_key r (fcApp c) (fcMethod c)) (fcCost c) exc].
Definition cluster_recs (sw : bool) (exc : option Z) (c : fcall) : list rec :=
  let r := role_spec false (fcProxy c) in
  let item := fcGroup c ++ s2b ".cluster" ++ fcService c in
  (if sw && negb (bs_eqb (fcApp c) (fcReqApp c)) then [mkRec item (base_key r (fcReqApp c) (fcMethod c)) (fcCost1 c) exc] else []) ++
  [mkRec item (base_key r (fcApp c) (fcMethod c)) (fcCost c) exc].
(* what the events add up to, per item and key *)
Definition at_key (i k : bs) (e : event) : bool :=
  bs_eqb (itemKey (evGroup e) (evGroupSuffix e) (evService e)) i && bs_eqb (metricKey (evKeys e) (evKeySuffix e)) k.
Definition sumZ (l : list Z) : Z := fold_right Z.add 0%Z l.
Definition counted (evs : list event) (i k : bs) : Z :=
  sumZ (map evValue (filter (fun e => match evKind e with KCounter => at_key i k e | _ => false end) evs)).
Definition observed (evs : list event) (i k : bs) : list Z :=
  map evValue (filter (fun e => match evKind e with KHist => at_key i k e | _ => false end) evs).
Definition under (i k : bs) (rs : list rec) : list rec := filter (fun r => bs_eqb (rItem r) i && bs_eqb (rKey r) k) rs.
Definition how_many (p : rec -> bool) (rs : list rec) : Z := Z.of_nat (length (filter p rs)).
Definition took (lo hi : Z) (r : rec) : bool := Z.leb lo (rCost r) && Z.ltb (rCost r) hi.
Definition biz (r : rec) : bool := match rExc r with Some t => Z.eqb t 2 | None => false end.
Definition other (r : rec) : bool := match rExc r with Some t => negb (Z.eqb t 2) | None => false end.
(* the records and the events of a list of calls that were all answered *)
Definition answered (c : fcall) : Prop := fcResp c <> None.
Definition exc_of (c : fcall) : option Z := match fcResp c with Some e => e | None => None end.
Definition all_recs (f : option Z -> fcall -> list rec) (calls : list fcall) : list rec := concat (map (fun c => f (exc_of c) c) calls).
Definition all_events (f : fcall -> list event * bool) (calls : list fcall) : list event := concat (map (fun c => fst (f c)) calls).
(* the counters agree with the records *)
Definition accounts (evs : list event) (rs : list rec) : Prop := forall i k, ~ In x2e k ->
  let mine := under i k rs in
  let cnt (sfx : string) := counted evs i (k ++ s2b sfx) in
  cnt ".total_count"%string = Z.of_nat (length mine) /\
  cnt ".biz_error_count"%string = how_many biz mine /\
  cnt ".other_error_count"%string = how_many other mine /\
  cnt ".slow_count"%string = how_many (fun r => Z.ltb 200 (rCost r)) mine /\
  cnt ".Less50ms"%string = how_many (fun r => Z.ltb (rCost r) 50) mine /\
  cnt ".Less100ms"%string = how_many (took 50 100) mine /\
  cnt ".Less200ms"%string = how_many (took 100 200) mine /\
  cnt ".Less500ms"%string = how_many (took 200 500) mine /\
  cnt ".More500ms"%string = how_many (fun r => Z.leb 500 (rCost r)) mine /\
  observed evs i k = map rCost mine.

(* the characters Unicode has, their UTF-8 form (RFC 3629), and what is left of each in a name: letters, digits and the hyphen stay, any
   other character becomes one underscore *)
Definition scalar (n : N) : Prop := (n < 0xd800 \/ 0xdfff < n /\ n <= 0x10ffff)%N.
Definition utf8 (n : N) : bs := (
  if n <? 0x80 then [n2b n]
  else if n <? 0x800 then [n2b (192 + n / 64); n2b (128 + n mod 64)]
  else if n <? 0x10000 then [n2b (224 + n / 4096); n2b (128 + (n / 64) mod 64); n2b (128 + n mod 64)]
  else [n2b (240 + n / 262144); n2b (128 + (n / 4096) mod 64); n2b (128 + (n / 64) mod 64); n2b (128 + n mod 64)])%N.
Definition kept_char (n : N) : bool := (
  ((97 <=? n) && (n <=? 122)) || ((65 <=? n) && (n <=? 90)) || ((48 <=? n) && (n <=? 57)) || (n =? 45))%N.
Definition escaped (n : N) : byte := if kept_char n then n2b n else x5f.

