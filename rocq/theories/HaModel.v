(* HaModel.v: model of ha/failoverHA.go and ha/backupRequestHA.go. *)
From Verif Require Import Base Strconv UrlModel UrlSpec.

(* core/motan.go Exception and the parts of a Response the strategies look at.  ErrType: core/constants.go 7-13 *)
Definition FrameworkException : Z := 0.
Definition ServiceException : Z := 1.
Definition BizException : Z := 2.
Record exc := mkExc { eCode : Z; eMsg : bs; eType : Z }.
Record resp := mkResp { rId : N; rValue : bs; rExc : option exc }.

(* a response without exception or with a business exception needs no retry (failoverHA.go 44, backupRequestHA.go 107, 138) *)
Definition conclusive (r : resp) : bool :=
  match rExc r with None => true | Some e => Z.eqb (eType e) BizException end.

(* failoverHA.go 66-68 getErrorResponseWithCode *)
Definition errorResponse (id : N) (code : Z) (msg : bs) : resp := mkResp id [] (Some (mkExc code msg ServiceException)).
Definition ENoEndpoints : Z := 1001.

(* ---- failoverHA.go 30-59 Call.
   [env i] is what attempt i meets: None when Select returns no endpoint, Some r when the selected endpoint answers r
   (r = None is a nil response).  The text of the no-endpoint message contains the printed attachments, an oracle here. *)
Definition failoverMsg (retries : Z) (lastErr : option exc) : bs :=
  s2b "FailOverHA call fail " ++ fmtZ (retries + 1) ++ s2b " times. Exception: " ++ match lastErr with Some e => eMsg e | None => [] end.
Fixpoint failoverLoop (n : nat) (i : nat) (id : N) (retries : Z) (noEp : bs) (env : nat -> option (option resp))
  (last : option resp) (lastErr : option exc) : resp * nat :=
  match n with
  | O => (match last with Some r => r | None => errorResponse id 500 (failoverMsg retries lastErr) end, i)
  | S n' =>
      match env i with
      | None => (errorResponse id ENoEndpoints noEp, i)
      | Some None => failoverLoop n' (S i) id retries noEp env None lastErr
      | Some (Some r) =>
          if conclusive r then (r, S i)
          else failoverLoop n' (S i) id retries noEp env (Some r) (rExc r)
      end
  end.
(* the second component is the number of endpoint calls made *)
Definition failoverCall (u : url) (method desc : bs) (id : N) (noEp : bs) (env : nat -> option (option resp)) : resp * nat :=
  let retries := if_positive (method_int_or u method desc RetriesKey 0) 0 in
  failoverLoop (Z.to_nat (retries + 1)) 0 id retries noEp env None None.

(* ---- backupRequestHA.go *)
(* 136-145 doCall: None = nil dereference (panic) *)
Definition doCall (id : N) (r : option resp) : option resp :=
  match r with
  | None => None
  | Some r => if conclusive r then Some r
              else Some (errorResponse id 400 (s2b "call backup request fail.Exception:" ++ match rExc r with Some e => eMsg e | None => [] end))
  end.

(* 47-89: what a call starts with.  [percentile ratio] is the delay the metrics of the last snapshot give, None when
   there is no snapshot *)
Inductive bentry :=
| BNoEndpoint | BDirect
| BBackup (retries : Z) (delay limit timeout : Z).
Definition backupEntry (u : url) (method desc : bs) (selected : bool) (percentile : Z -> option Z) : bentry :=
  if negb selected then BNoEndpoint
  else
    let mi k d := method_int_or u method desc (s2b k) d in
    let mp k d := if_positive (mi k d) d in
    let retries := mi "retries"%string 0%Z in
    if (retries <=? 0)%Z then BDirect
    else
      let ratio := mp "backupRequestDelayRatio"%string 90%Z in
      let limit := mp "backupRequestMaxRetryRatio"%string 15%Z in
      let delay := mi "backupRequestDelayTime"%string 0%Z in
      let timeout := mp "requestTimeout"%string 1000%Z in
      if (0 <? delay)%Z then BBackup retries delay limit timeout
      else
        match percentile ratio with
        | None => let init := mp "backupRequestInitDelayTime"%string 0%Z in
                  if Z.eqb init 0 then BDirect else BBackup retries (if (init <? 10)%Z then 10%Z else init) limit timeout
        | Some d => BBackup retries (if (d <? 10)%Z then 10%Z else d) limit timeout
        end.

(* 147-170: the counters, shared by all calls through one BackupRequestHA *)
Record counter := mkCnt { cTotal : Z; cRetry : Z; cReset : Z }.
Definition counterRoundCount : Z := 100.
Definition counterScaleThreshold : Z := 20000000000.
Definition updateCallRecord (c : counter) (now : Z) : counter * bool :=
  if ((counterRoundCount <? cTotal c) || (counterScaleThreshold <=? now - cReset c))%Z
  then (mkCnt 1 0 now, true) else (mkCnt (cTotal c + 1) (cRetry c) (cReset c), false).
Definition tryAcquirePermit (c : counter) (limit : Z) : counter * bool :=
  if (limit <=? cRetry c)%Z then (c, false) else (mkCnt (cTotal c) (cRetry c + 1) (cReset c), true).

(* 91-133: one call in its loop.  HHead i: about to run iteration i; HWait i: in the select of iteration i;
   HFinal: in the select after the loop; HDone: returned *)
Inductive phase := HHead (i : nat) | HWait (i : nat) | HFinal | HDone (r : resp).
Record bcall := mkCall {
  bId : N; bRetries : Z; bLimit : Z; bPhase : phase;
  bSent : list nat;            (* the iterations that sent a request, latest first *)
  bOpen : list nat;            (* those whose goroutine has not finished *)
  bSucc : list resp;           (* successCh, oldest first *)
  bErr : list nat;             (* iterations whose error channel holds an answer *)
  bHeard : list resp           (* ghost: every answer an endpoint has given to this call *) }.
Inductive logitem := LReset | LReq (c : nat) | LBackup (c : nat).
Record sys := mkSys { sCnt : counter; sCalls : list bcall; sLog : list logitem (* latest first *) }.

Inductive ev :=
| EStart (id : N) (retries limit : Z)                 (* a call enters the loop *)
| EHead (c : nat) (now : Z) (sel : bool)              (* the caller runs the head of the loop; sel: Select found an endpoint *)
| EReply (c i : nat) (r : option resp)                (* the endpoint of iteration i answers *)
| ESuccess (c : nat) | EError (c : nat) | ETimer (c : nat) | EDeadline (c : nat).   (* the branch its select takes *)

Definition send (b : bcall) (i : nat) : bcall :=
  mkCall (bId b) (bRetries b) (bLimit b) (HWait i) (i :: bSent b) (i :: bOpen b) (bSucc b) (bErr b) (bHeard b).
Definition goto (b : bcall) (p : phase) : bcall :=
  mkCall (bId b) (bRetries b) (bLimit b) p (bSent b) (bOpen b) (bSucc b) (bErr b) (bHeard b).
Definition timeoutMsg : bs := s2b "call backup request fail: timeout".
Definition setCall (s : sys) (c : nat) (b : bcall) : sys := mkSys (sCnt s) (list_set (sCalls s) c b) (sLog s).
Definition removeNat (i : nat) (l : list nat) : list nat := filter (fun j => negb (Nat.eqb i j)) l.

(* None: the event is not possible in this state *)
Definition sysStep (s : sys) (e : ev) : option sys :=
  let withCall c (f : bcall -> option sys) := match nth_error (sCalls s) c with Some b => f b | None => None end in
  match e with
  | EStart id retries limit =>
      if ((0 <? retries) && (0 <? limit))%Z then
        Some (mkSys (sCnt s) (sCalls s ++ [mkCall id retries limit (HHead 0) [] [] [] [] []]) (sLog s))
      else None
  | EHead c now sel => withCall c (fun b =>
      match bPhase b with
      | HHead i =>
          if (bRetries b <? Z.of_nat i)%Z then Some (setCall s c (goto b HFinal))
          else if Nat.eqb i 0 then
            let (cn, fresh) := updateCallRecord (sCnt s) now in
            Some (mkSys cn (list_set (sCalls s) c (send b i)) (LReq c :: (if fresh then [LReset] else []) ++ sLog s))
          else if negb sel then Some (setCall s c (goto b (HHead (S i))))
          else
            let (cn, ok) := tryAcquirePermit (sCnt s) (bLimit b) in
            if ok then Some (mkSys cn (list_set (sCalls s) c (send b i)) (LBackup c :: sLog s))
            else Some (setCall s c (goto b HFinal))
      | _ => None
      end)
  | EReply c i r => withCall c (fun b =>
      if existsb (Nat.eqb i) (bOpen b) then
        let op := removeNat i (bOpen b) in
        let heard := match r with Some x => x :: bHeard b | None => bHeard b end in
        Some (setCall s c
          match doCall (bId b) r with
          | None => mkCall (bId b) (bRetries b) (bLimit b) (bPhase b) (bSent b) op (bSucc b) (bErr b) heard
          | Some x => if conclusive x
                      then mkCall (bId b) (bRetries b) (bLimit b) (bPhase b) (bSent b) op (bSucc b ++ [x]) (bErr b) heard
                      else mkCall (bId b) (bRetries b) (bLimit b) (bPhase b) (bSent b) op (bSucc b) (i :: bErr b) heard
          end)
      else None)
  | ESuccess c => withCall c (fun b =>
      match bPhase b, bSucc b with
      | HWait _, r :: rest | HFinal, r :: rest =>
          Some (setCall s c (mkCall (bId b) (bRetries b) (bLimit b) (HDone r) (bSent b) (bOpen b) rest (bErr b) (bHeard b)))
      | _, _ => None
      end)
  | EError c => withCall c (fun b =>
      match bPhase b, bSent b with
      | HWait i, last :: _ =>
          if existsb (Nat.eqb last) (bErr b) then
            Some (setCall s c (mkCall (bId b) (bRetries b) (bLimit b) (HHead (S i)) (bSent b) (bOpen b) (bSucc b) (removeNat last (bErr b)) (bHeard b)))
          else None
      | HFinal, last :: _ =>
          if existsb (Nat.eqb last) (bErr b) then
            Some (setCall s c (mkCall (bId b) (bRetries b) (bLimit b) (HDone (errorResponse (bId b) 400 timeoutMsg))
                                 (bSent b) (bOpen b) (bSucc b) (removeNat last (bErr b)) (bHeard b)))
          else None
      | _, _ => None
      end)
  | ETimer c => withCall c (fun b =>
      match bPhase b with HWait i => Some (setCall s c (goto b (HHead (S i)))) | _ => None end)
  | EDeadline c => withCall c (fun b =>
      match bPhase b with
      | HWait _ | HFinal => Some (setCall s c (goto b (HDone (errorResponse (bId b) 400 timeoutMsg))))
      | _ => None
      end)
  end.
Fixpoint sysRun (s : sys) (es : list ev) : option sys :=
  match es with [] => Some s | e :: r => match sysStep s e with Some s' => sysRun s' r | None => None end end.
Definition sysInit (start : Z) : sys := mkSys (mkCnt 0 0 start) [] [].
