(* AcmdModel.v: model of what an agent does besides serving when it has started: it waits for its clusters (agent.go 573-598), registers
   itself and passes the commands of its registry on to its clusters (agent.go 688-713, 1113-1155).

   Not modelled: the registry's own work (ZkModel.v) and what a cluster does with a command (CmdModel.v); here a cluster is a number and
   told a command; Range over the cluster map is taken to visit the clusters there when it began.  Data races on CurrentCommandInfo are read and written as whole strings. *)
From Verif Require Import Base UrlModel.

(* ------------------------------------------------------------ waiting for the clusters *)
(* the main goroutine in the select of 590-597; the goroutine of 586-589 *)
Inductive mainst := MWait | MTimeout | MAll.
Inductive waiter := WWait | WSend | WGone.
Record ist := mkIst { iLeft : list nat; iFired : bool; iWaiter : waiter; iMain : mainst }.
(* 577: wg.Add(len(RefersURLs)) *)
Definition iinit (n : nat) : ist := mkIst (seq 0 n) false WWait MWait.
(* IFinish: initCluster of one url returns or panics, wg.Done either way (580-584); IFire: the timer fires; IExpire: the select takes it;
   IWake: wg.Wait returns; IHand: the send of 588 meets the select *)
Inductive iop := IFinish (j : nat) (panicked : bool) | IFire | IExpire | IWake | IHand.
Definition istep (s : ist) (o : iop) : option ist :=
  match o with
  | IFinish j _ => if existsb (Nat.eqb j) (iLeft s) then Some (mkIst (filter (fun k => negb (Nat.eqb j k)) (iLeft s)) (iFired s) (iWaiter s) (iMain s)) else None
  | IFire => if iFired s then None else Some (mkIst (iLeft s) true (iWaiter s) (iMain s))
  | IExpire => match iMain s with MWait => if iFired s then Some (mkIst (iLeft s) true (iWaiter s) MTimeout) else None | _ => None end
  | IWake => match iWaiter s, iLeft s with WWait, [] => Some (mkIst [] (iFired s) WSend (iMain s)) | _, _ => None end
  | IHand => match iWaiter s, iMain s with WSend, MWait => Some (mkIst (iLeft s) (iFired s) WGone MAll) | _, _ => None end
  end.
Fixpoint iruns (s : ist) (l : list iop) : option ist :=
  match l with [] => Some s | o :: r => match istep s o with Some s' => iruns s' r | None => None end end.
(* 574-575: how long the timer is set to, in ns *)
Definition initWait (u : url) : Z := wrapI64 (1000000 * fst (getIntValue (fresh u) (s2b "initClusterTimeout") 10000)).

(* ------------------------------------------------------------ registering the agent *)
(* 688-713: the url registered and the registry's url.  [regs] is Context.RegistryURLs, [ext] whether the factory has the registry *)
Definition registerAgent (u : url) (ip : bs) (regs : bs -> option url) (ext : url -> bool) : option (url * url) :=
  match pget (uParams u) (s2b "registry") with
  | None => None
  | Some reg =>
      let u' := mkUrl (uProtocol u) (match uHost u with [] => ip | h => h end) (uPort u) (uPath u) (uGroup u) (uParams u) in
      match regs reg with Some r => if ext r then Some (u', r) else None | None => None end
  end.

(* ------------------------------------------------------------ commands *)
(* 1134-1139: what a handler does with a command: cannot serve it, serves it and gives a text, panics *)
Inductive hres := HNo | HServe (c : bs) | HPanic.
(* 1131-1144: the command after all handlers, and whether the clusters are not told (served, or panicked) *)
Fixpoint runHandlers (hs : list (bs -> hres)) (c : bs) (served : bool) : bs * bool :=
  match hs with
  | [] => (c, served)
  | h :: r => match h c with HNo => runHandlers r c served | HServe c' => runHandlers r c' true | HPanic => (c, true) end
  end.

(* a goroutine in NotifyCommand: telling the clusters of the map as it was when Range began (1146), or about to set CurrentCommandInfo *)
Inductive thread := TIdle | TRun (c : bs) (todo : list nat) | TEnd (c : bs).
(* how far registerAgent is: registered, subscribed, the command read, NotifyCommand called, done *)
Inductive rphase := RNew | RRegistered | RSubscribed | RRead (c : bs) | RNotify | RDone.
(* [aCur]: CurrentCommandInfo; [aReg]: the command in the registry; [aQueue]: commands the registry has still to push, which it does one after
   the other in one goroutine; [aTold]: what clusters were told, latest first; [aServed]: commands given to the handlers, latest first *)
Record ast := mkAst { aCur : bs; aReg : bs; aPh : rphase; aQueue : list bs; aPush : thread; aInit : thread; aCls : list nat;
                      aTold : list (nat * bs); aServed : list bs }.
Definition ainit (cls : list nat) (c : bs) : ast := mkAst [] c RNew [] TIdle TIdle cls [] [].

(* 1119-1145: the start of NotifyCommand *)
Definition notifyStart (hs : list (bs -> hres)) (s : ast) (c : bs) : thread * list bs :=
  if bs_eqb c (aCur s) then (TIdle, aServed s)
  else let '(c', stop) := runHandlers hs c false in
       (if stop then TEnd c' else TRun c (aCls s), match hs with [] => aServed s | _ => c :: aServed s end).
(* AChange: the command in the registry changes, and is pushed to subscribers; AStep: the pushing goroutine ([true]) or the registering one
   goes on: it tells cluster k (any of those left), or ends *)
Inductive aop := ARegister | ASubscribe | AChange (c : bs) | ARead | ANotify | APush | ATell (push : bool) (k : nat) | AEnd (push : bool)
               | ACluster (k : nat) | ADrop (k : nat).
Definition subscribed (p : rphase) : bool := match p with RNew | RRegistered => false | _ => true end.
Definition tellStep (t : thread) (k : nat) : option (thread * bs) :=
  match t with
  | TRun c todo => if existsb (Nat.eqb k) todo then Some (TRun c (filter (fun x => negb (Nat.eqb k x)) todo), c) else None
  | _ => None
  end.
Definition endStep (t : thread) : option bs := match t with TRun c [] => Some c | TEnd c => Some c | _ => None end.
Definition astep (hs : list (bs -> hres)) (s : ast) (o : aop) : option ast :=
  match o with
  | ARegister => match aPh s with RNew => Some (mkAst (aCur s) (aReg s) RRegistered (aQueue s) (aPush s) (aInit s) (aCls s) (aTold s) (aServed s)) | _ => None end
  | ASubscribe => match aPh s with RRegistered => Some (mkAst (aCur s) (aReg s) RSubscribed (aQueue s) (aPush s) (aInit s) (aCls s) (aTold s) (aServed s)) | _ => None end
  | AChange c => Some (mkAst (aCur s) c (aPh s) (if subscribed (aPh s) then aQueue s ++ [c] else aQueue s) (aPush s) (aInit s) (aCls s) (aTold s) (aServed s))
  | ARead => match aPh s with RSubscribed => Some (mkAst (aCur s) (aReg s) (RRead (aReg s)) (aQueue s) (aPush s) (aInit s) (aCls s) (aTold s) (aServed s)) | _ => None end
  | ANotify => match aPh s with
               | RRead c => let '(t, sv) := notifyStart hs s c in
                            Some (mkAst (aCur s) (aReg s) (match t with TIdle => RDone | _ => RNotify end) (aQueue s) (aPush s) t (aCls s) (aTold s) sv)
               | _ => None
               end
  | APush => match aPush s, aQueue s with
             | TIdle, c :: r => let '(t, sv) := notifyStart hs s c in Some (mkAst (aCur s) (aReg s) (aPh s) r t (aInit s) (aCls s) (aTold s) sv)
             | _, _ => None
             end
  | ATell push k =>
      match tellStep (if push then aPush s else aInit s) k with
      | Some (t, c) => Some (mkAst (aCur s) (aReg s) (aPh s) (aQueue s) (if push then t else aPush s) (if push then aInit s else t) (aCls s)
                               ((k, c) :: aTold s) (aServed s))
      | None => None
      end
  | AEnd push =>
      match endStep (if push then aPush s else aInit s) with
      | Some c => Some (mkAst c (aReg s) (if push then aPh s else RDone) (aQueue s) (if push then TIdle else aPush s) (if push then aInit s else TIdle)
                          (aCls s) (aTold s) (aServed s))
      | None => None
      end
  | ACluster k => Some (mkAst (aCur s) (aReg s) (aPh s) (aQueue s) (aPush s) (aInit s) (k :: aCls s) (aTold s) (aServed s))
  | ADrop k => Some (mkAst (aCur s) (aReg s) (aPh s) (aQueue s) (aPush s) (aInit s) (filter (fun x => negb (Nat.eqb k x)) (aCls s)) (aTold s) (aServed s))
  end.
Fixpoint aruns (hs : list (bs -> hres)) (s : ast) (l : list aop) : option ast :=
  match l with [] => Some s | o :: r => match astep hs s o with Some s' => aruns hs s' r | None => None end end.
