(* FilterModel.v: model of the filter chains: core/url.go 380-432, cluster/motanCluster.go 68-94, 247-268, server/server.go 268-294,
   core/motan.go 946-1100, filter/circuitBreaker.go.  R is the type of requests, A of responses. *)
From Coq Require Import QArith.
From Verif Require Import Base Strconv GoStrings GoStrings2 UrlModel.
Local Open Scope nat_scope.

(* a filter instance: it answers by itself, or passes a request on once and may rewrite the answer (every filter in /repo/filter calls
   next at most once).  [fiEndpoint]: the instance implements EndPointFilter; [fiStatus]: it implements Status, with this answer now *)
Record finst (R A : Type) := mkFinst { fiName : bs; fiIndex : Z; fiEndpoint : bool; fiStatus : option bool; fiBeh : R -> A + (R * (A -> A)) }.
Arguments mkFinst {R A}. Arguments fiName {R A}. Arguments fiIndex {R A}. Arguments fiEndpoint {R A}. Arguments fiStatus {R A}. Arguments fiBeh {R A}.
(* a filter prototype, as the extension factory returns it; NewFilter(url) may return nil *)
Record fdef (R A : Type) := mkFdef { fdIndex : Z; fdCluster : bool; fdNew : url -> option (finst R A) }.
Arguments mkFdef {R A}. Arguments fdIndex {R A}. Arguments fdCluster {R A}. Arguments fdNew {R A}.
(* the extension factory, and sort.Sort over filterSlice (url.go 419-432: descending index, unstable) *)
Record flib (R A : Type) := mkFlib { flGet : bs -> option (fdef R A); flSortP : list (fdef R A) -> list (fdef R A); flSortI : list (finst R A) -> list (finst R A) }.
Arguments mkFlib {R A}. Arguments flGet {R A}. Arguments flSortP {R A}. Arguments flSortI {R A}.

(* a chain built by SetNext, ending in lastEndPointFilter / lastClusterFilter *)
Inductive chain (R A : Type) := CLast | CNode (f : finst R A) (next : chain R A).
Arguments CLast {R A}. Arguments CNode {R A}.
Inductive fev := FEnter (name : bs) | FInner | FLeave (name : bs).
(* Filter of the first element; the last filter calls the caller (motan.go 965-974) or the ha strategy (1014-1026).
   The trace context and RemoteAddr bookkeeping of these two is not modelled *)
Fixpoint runChain {R A} (c : chain R A) (caller : R -> A) (r : R) : list fev * A :=
  match c with
  | CLast => ([FInner], caller r)
  | CNode f n =>
      match fiBeh f r with
      | inl a => ([FEnter (fiName f); FLeave (fiName f)], a)
      | inr (r', post) => let (t, a) := runChain n caller r' in (FEnter (fiName f) :: t ++ [FLeave (fiName f)], post a)
      end
  end.

(* url.go 384-398: the loop over the names; nil prototypes and cluster filters without an instance are skipped *)
Definition collectFilters {R A} (lib : flib R A) (u : url) (names : list bs) : list (finst R A) * list (fdef R A) :=
  fold_left (fun acc n => match flGet lib n with
                          | None => acc
                          | Some d => if fdCluster d
                                      then match fdNew d u with Some i => (fst acc ++ [i], snd acc) | None => acc end
                                      else (fst acc, snd acc ++ [d])
                          end) names ([], []).
(* url.go 380-417 GetURLFilters *)
Definition getURLFilters {R A} (lib : flib R A) (u : url) : option (chain R A) * list (fdef R A) :=
  match pget (uParams u) FilterKey with
  | None => (None, [])
  | Some v =>
      let (cs, es) := collectFilters lib u (trimSplit v (s2b ",")) in
      (match cs with [] => None | _ => Some (fold_left (fun l f => CNode f l) (flSortI lib cs) CLast) end,
       match es with [] => [] | _ => flSortP lib es end)
  end.
(* motanCluster.go 89-91: without cluster filters the last one is used *)
Definition clusterChain {R A} (lib : flib R A) (u : url) : chain R A :=
  match fst (getURLFilters lib u) with Some c => c | None => CLast end.

(* motanCluster.go 247-268 addFilter: the chain and the status filters.  server.go 278-294 WrapWithFilter builds the same chain *)
Definition addFilter {R A} (filters : list (fdef R A)) (u : url) : chain R A * list (finst R A) :=
  fold_left (fun acc f => match fdNew f u with
                          | Some i => if fiEndpoint i
                                      then (CNode i (fst acc), match fiStatus i with Some _ => snd acc ++ [i] | None => snd acc end)
                                      else acc
                          | None => acc
                          end) filters (CLast, []).
Definition wrapWithFilter {R A} (lib : flib R A) (u : url) : chain R A :=
  fst (addFilter (snd (getURLFilters lib u)) u).

(* motan.go 1090-1099 FilterEndPoint.IsAvailable: the last status filter first; which were asked, and the answer *)
Fixpoint askStatus {R A} (l : list (finst R A)) : list bs * bool :=
  match l with
  | [] => ([], true)
  | f :: r => match fiStatus f with
              | Some false => ([fiName f], false)
              | _ => let (a, b) := askStatus r in (fiName f :: a, b)
              end
  end.
Definition fepAvailable {R A} (status : list (finst R A)) (callerAvail : bool) : list bs * bool :=
  let (a, b) := askStatus (rev status) in (a, b && callerAvail).

(* ---------------------------------------------------------------- filter/circuitBreaker.go, clusterCircuitBreaker.go *)
(* an exception: code, message, type; a response with the request id it answers *)
Record fex := mkFex { xCode : Z; xMsg : bs; xType : Z }.
Record fresp := mkFresp { rId : N; rEx : option fex; rValue : bs }.
(* core/constants: ServiceException, BizException *)
Definition ServiceException : Z := 1. Definition BizException : Z := 2.
(* circuitBreaker.go 115-126 *)
Definition defaultErrResponse (id : N) (msg : bs) : fresp := mkFresp id (Some (mkFex 400 msg ServiceException)) [].
(* 138-143 checkException: the error handed to hystrix *)
Definition checkException (r : fresp) (includeBiz : bool) : option bs :=
  match rEx r with
  | Some e => if includeBiz || negb (xType e =? BizException)%Z then Some (xMsg e) else None
  | None => None
  end.
(* hystrix.Do without fallback: it refuses with an error (open circuit, too many calls), or runs the function and returns its error,
   or gives up waiting (timeout) while the function goes on *)
Inductive hres := HRefused (msg : bs) | HRan | HTimeout (msg : bs).
(* 44-54 Filter: was the downstream called, and the response *)
Definition cbFilter (h : hres) (includeBiz : bool) (id : N) (down : fresp) : bool * fresp :=
  match h with
  | HRefused m => (false, defaultErrResponse id m)
  | HTimeout m => (true, defaultErrResponse id m)
  | HRan => (true, match checkException down includeBiz with Some m => defaultErrResponse id m | None => down end)
  end.
(* 72-78 *)
Definition includeBizOf (u : url) : bool := match parseBool (getParam u (s2b "circuitBreaker.bizException") (s2b "true")) with Some b => b | None => true end.
(* 89-103 getConfigValue; strconv.Atoi returns the clamped value with a range error, and the code uses it *)
Definition ErrorPercentThreshold : bs := s2b "circuitBreaker.errorPercent".
Definition cbConfigValue (u : url) (key : bs) (d : Z) : Z :=
  match pget (uParams u) key with
  | Some v => let (t, _) := parseInt64 v in
              if (0 <? t)%Z then (if bs_eqb key ErrorPercentThreshold then (if (t <=? 100)%Z then t else d) else t) else d
  | None => d
  end.
(* 105-113 buildCommandConfig: what hystrix is configured with; [hd] are the defaults of the hystrix library *)
Record cbConfig := mkCb { cb_volume : Z; cb_sleep : Z; cb_percent : Z; cb_concurrent : Z; cb_timeout : Z }.
Record hyDefaults := mkHy { hy_volume : Z; hy_sleep : Z; hy_percent : Z; hy_timeout : Z }.
Definition buildCommandConfig (hd : hyDefaults) (u : url) : cbConfig :=
  mkCb (cbConfigValue u (s2b "circuitBreaker.requestThreshold") (hy_volume hd))
       (cbConfigValue u (s2b "circuitBreaker.sleepWindow") (hy_sleep hd))
       (cbConfigValue u ErrorPercentThreshold (hy_percent hd))
       (cbConfigValue u (s2b "circuitBreaker.maxConcurrent") 5000)
       (cbConfigValue u TimeOutKey (hy_timeout hd)).
(* 128-136 getConfigStr *)
Definition getConfigStr (c : cbConfig) : bs :=
  s2b "requestThreshold:" ++ fmtZ (cb_volume c) ++ s2b " " ++ s2b "sleepWindow:" ++ fmtZ (cb_sleep c) ++ s2b " " ++
  s2b "errorPercent:" ++ fmtZ (cb_percent c) ++ s2b " " ++ s2b "maxConcurrent:" ++ fmtZ (cb_concurrent c) ++ s2b " " ++
  s2b "timeout:" ++ fmtZ (cb_timeout c) ++ s2b "ms ".
