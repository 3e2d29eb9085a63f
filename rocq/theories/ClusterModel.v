(* ClusterModel.v: model of cluster/motanCluster.go (notifications) and cluster/RefersFilter.go. *)
From Verif Require Import Base Lists GoStrings GoStrings2 UrlModel UrlSpec LbModel.

(* ================================================================ cluster/RefersFilter.go *)
(* the package net: parsing a CIDR block, parsing an address, membership.  Blocks and addresses are opaque codes *)
Record netlib := mkNet { nCidr : bs -> option N; nIp : bs -> option N; nIn : N -> N -> bool }.
(* 16-23 *)
Record fconfig := mkFc { fcGroup : bs; fcService : bs; fcMode : bs; fcRule : bs }.
Definition includeMode : bs := s2b "include".
Definition excludeMode : bs := s2b "exclude".
(* 25-35 Verify: true when there is no error *)
Definition verifyConfigs (l : list fconfig) : bool :=
  forallb (fun c => negb (bs_eqb (fcRule c) []) && (bs_eqb (fcMode c) includeMode || bs_eqb (fcMode c) excludeMode)) l.
(* 59-63, 97-126 NewDefaultRefersFilter *)
Record frule := mkFr { frPrefixes : list bs; frNets : list N }.
Record rfilter := mkRf { rfExclude : list frule; rfInclude : list frule }.
Definition parseRule (nl : netlib) (rule : bs) : frule :=
  fold_left (fun fr item => if contains item (s2b "/")
                            then match nCidr nl item with None => fr | Some n => mkFr (frPrefixes fr) (frNets fr ++ [n]) end
                            else mkFr (frPrefixes fr ++ [item]) (frNets fr))
            (trimSplit rule (s2b ",")) (mkFr [] []).
Definition newRefersFilter (nl : netlib) (l : list fconfig) : rfilter :=
  fold_left (fun f c => let fr := parseRule nl (fcRule c) in
                        if bs_eqb (fcMode c) excludeMode then mkRf (rfExclude f ++ [fr]) (rfInclude f) else mkRf (rfExclude f) (rfInclude f ++ [fr]))
            l (mkRf [] []).
(* 37-54 ParseRefersFilters; None = nil *)
Definition parseRefersFilters (nl : netlib) (l : list fconfig) (u : url) : option rfilter :=
  let rules := filter (fun c => negb (negb (bs_eqb (fcGroup c) []) && negb (bs_eqb (fcGroup c) (uGroup u))) &&
                                negb (negb (bs_eqb (fcService c) []) && negb (bs_eqb (fcService c) (uPath u)))) l in
  match rules with [] => None | _ => Some (newRefersFilter nl rules) end.
(* 65-91 IsMatch *)
Definition ruleMatch (nl : netlib) (fr : frule) (host : bs) : bool :=
  if existsb (hasPrefix host) (frPrefixes fr) then true
  else match frNets fr with
       | [] => false
       | nets => match nIp nl host with None => false | Some ip => existsb (fun n => nIn nl n ip) nets end
       end.
(* 128-161 Filter, on the host of an endpoint *)
Definition keepHost (nl : netlib) (f : rfilter) (host : bs) : bool :=
  if existsb (fun fr => ruleMatch nl fr host) (rfExclude f) then false
  else match rfInclude f with [] => true | rules => existsb (fun fr => ruleMatch nl fr host) rules end.
Definition filterRefersBy {A} (nl : netlib) (hostOf : A -> bs) (f : rfilter) (l : list A) : list A :=
  filter (fun e => keepHost nl f (hostOf e)) l.

(* ================================================================ cluster/motanCluster.go *)
(* an endpoint object: its address in memory and its URL *)
Record ep := mkEp { epObj : nat; epUrl : url }.
(* the state Notify works on.  clRR: registryRefers; clRefers: what the load balancer was given last;
   clDead: the endpoints handed to a goroutine that destroys them two seconds later, or destroyed by Destroy *)
Record cl := mkCl { clUrl : url; clRR : list (bs * list ep); clRefers : list ep; clNext : nat; clFilter : option rfilter;
                    clWeight : bs; clDead : list ep; clClosed : bool }.
Definition newCl (u : url) : cl := mkCl u [] [] 0 None [] [] false.

(* rand.Shuffle 156-160 and the arbitrary order of a map: any sequence of swaps *)
Definition applySwaps {A} (sw : list (nat * nat)) (l : list A) : list A := fold_left (fun l' ij => swap l' (fst ij) (snd ij)) sw l.

(* 121-132 refresh, 134-154 filterRefers; sw1: the order of the map, sw2: the shuffle *)
Definition refersOf (nl : netlib) (f : option rfilter) (rr : list (bs * list ep)) (sw1 sw2 : list (nat * nat)) : list ep :=
  let all := concat (map snd (applySwaps sw1 rr)) in
  let kept := match f with
              | None => all
              | Some f => match filterRefersBy nl (fun e => uHost (epUrl e)) f all with [] => all | l => l end
              end in
  applySwaps sw2 kept.

(* 236-245 processWeight: the weight and the remaining URLs *)
Definition RuleProtocol : bs := s2b "rule".
Definition processWeight (urls : list (option url)) : bs * list (option url) :=
  match rev urls with
  | Some u :: r => if bs_eqb (uProtocol u) RuleProtocol then (pgetD (uParams u) WeightKey, rev r) else ([], urls)
  | _ => ([], urls)
  end.

(* 190-192 Copy and MergeParams *)
Definition mergeInto (u : url) (ps : option (list (bs * bs))) : url :=
  withParams u (Some (fold_left (fun m kv => aset bs_eqb m (fst kv) (snd kv)) (match ps with None => [] | Some m => m end)
                                (match uParams u with None => [] | Some m => m end))).
(* 171-175 *)
Definition endpointMap (eps : list ep) : list (bs * ep) := fold_left (fun m e => aset bs_eqb m (identity_of (epUrl e)) e) eps [].
(* 177-215; [mk]: does the extension factory have an endpoint for this protocol (core/motan.go 819-826) *)
Fixpoint notifyLoop (cu : url) (mk : bs -> bool) (urls : list (option url)) (m : list (bs * ep)) (next : nat) (acc : list ep)
  : list ep * list (bs * ep) * nat :=
  match urls with
  | [] => (acc, m, next)
  | None :: r => notifyLoop cu mk r m next acc
  | Some u :: r =>
      if negb (canServe u cu) then notifyLoop cu mk r m next acc
      else match aget bs_eqb m (identity_of u) with
           | Some e => notifyLoop cu mk r (adel bs_eqb m (identity_of u)) next (acc ++ [e])
           | None => let nu := mergeInto u (uParams cu) in
                     if mk (uProtocol u) then notifyLoop cu mk r m (S next) (acc ++ [mkEp next nu]) else notifyLoop cu mk r m next acc
           end
  end.
(* 163-234 Notify *)
Definition clNotify (nl : netlib) (mk : bs -> bool) (c : cl) (reg : bs) (urls0 : list (option url)) (sw1 sw2 : list (nat * nat)) : cl :=
  let (weight, urls) := processWeight urls0 in
  let '(eps, rest, next) := notifyLoop (clUrl c) mk urls (endpointMap (match aget bs_eqb (clRR c) reg with Some l => l | None => [] end)) (clNext c) [] in
  let go rr := mkCl (clUrl c) rr (refersOf nl (clFilter c) rr sw1 sw2) next (clFilter c) weight (clDead c ++ map snd rest) (clClosed c) in
  match eps with
  | [] => if 1 <? length (clRR c) then go (adel bs_eqb (clRR c) reg)
          else mkCl (clUrl c) (clRR c) (clRefers c) next (clFilter c) weight (clDead c) (clClosed c)
  | _ => go (aset bs_eqb (clRR c) reg eps)
  end.
(* 431-440 SetRefersFilter *)
Definition clSetFilter (nl : netlib) (c : cl) (f : option rfilter) (sw1 sw2 : list (nat * nat)) : cl :=
  match f, clFilter c with
  | None, None => c
  | _, _ => mkCl (clUrl c) (clRR c) (refersOf nl f (clRR c) sw1 sw2) (clNext c) f (clWeight c) (clDead c) (clClosed c)
  end.
(* 281-299 Destroy *)
Definition clDestroy (c : cl) : cl :=
  if clClosed c then c
  else mkCl (clUrl c) (clRR c) (clRefers c) (clNext c) (clFilter c) (clWeight c) (clDead c ++ clRefers c) true.

Inductive clop := CNotify (reg : bs) (urls : list (option url)) (sw1 sw2 : list (nat * nat)) | CSetFilter (f : option rfilter) (sw1 sw2 : list (nat * nat)).
Definition clStep (nl : netlib) (mk : bs -> bool) (c : cl) (o : clop) : cl :=
  match o with CNotify r us s1 s2 => clNotify nl mk c r us s1 s2 | CSetFilter f s1 s2 => clSetFilter nl c f s1 s2 end.
Definition clRun (nl : netlib) (mk : bs -> bool) (c : cl) (os : list clop) : cl := fold_left (clStep nl mk) os c.
