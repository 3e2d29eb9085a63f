(* ExtModel.v: the extension factory.  Models core/motan.go:746-931. *)
From Verif Require Export Base GoStrings GoStrings2 Strconv UrlModel.

(* the kinds of extensions that are made from a name *)
Inductive ekind := EFilter | EHa | ELb | EEndpoint | EProvider | ERegistry | EServer | EHandler | ESerialization.
Definition ekind_eqb (a b : ekind) : bool :=
  match a, b with
  | EFilter, EFilter | EHa, EHa | ELb, ELb | EEndpoint, EEndpoint | EProvider, EProvider | ERegistry, ERegistry | EServer, EServer | EHandler, EHandler
  | ESerialization, ESerialization => true
  | _, _ => false end.
(* core/motan.go:746-760: a constructor is an identity; the registries made so far with their number, constructor and url *)
Record extf := mkExtf { xTab : ekind -> list (bs * N); xReg : list (bs * (nat * N * url)); xNext : nat }.
(* core/motan.go:920-931 Initialize *)
Definition ext0 : extf := mkExtf (fun _ => []) [] O.

(* core/motan.go:882-914 RegistExt*: the last one counts *)
Definition registerExt (x : extf) (k : ekind) (name : bs) (f : N) : extf :=
  mkExtf (fun k' => if ekind_eqb k' k then aset bs_eqb (xTab x k') name f else xTab x k') (xReg x) (xNext x).
(* core/motan.go:915-918: a serialization is found by its name and by its number, in one table *)
Definition registerSer (x : extf) (name : bs) (id : Z) (f : N) : extf := registerExt (registerExt x ESerialization name f) ESerialization (fmtZ id) f.
Definition find (x : extf) (k : ekind) (name : bs) : option N := aget bs_eqb (xTab x k) name.

(* core/motan.go:776-792 GetHa, GetLB; :819-826 GetEndPoint: the constructor that is applied to the url *)
Definition getHa (x : extf) (u : url) : option N := find x EHa (getParam u (s2b "haStrategy") (s2b "failover")).
Definition getLB (x : extf) (u : url) : option N := find x ELb (getParam u (s2b "loadbalance") (s2b "random")).
Definition getEndPoint (x : extf) (u : url) : option N := find x EEndpoint (uProtocol u).
(* core/motan.go:794-800, 859-867 GetFilter, GetMessageHandler: the name asked for is trimmed *)
Definition getFilter (x : extf) (name : bs) : option N := find x EFilter (trimSpace name).
Definition getHandler (x : extf) (name : bs) : option N := find x EHandler (trimSpace name).
(* core/motan.go:828-842 GetProvider *)
Definition providerName (u : url) : bs :=
  match getParam u (s2b "provider") [] with
  | [] => match getParam u (s2b "proxy") [] with [] => s2b "default" | b :: p => fst (fst (parseExportInfo (b :: p))) end
  | b :: p => b :: p
  end.
Definition getProvider (x : extf) (u : url) : option N := find x EProvider (providerName u).
(* core/motan.go:844-857 GetServer *)
Definition getServer (x : extf) (u : url) : option N := find x EServer (match uProtocol u with [] => s2b "motan2" | p => p end).
(* core/motan.go:869-880 GetSerialization *)
Definition getSerialization (x : extf) (name : bs) (id : Z) : option N :=
  match name with
  | [] => if (-1 <? id)%Z then find x ESerialization (fmtZ id) else None
  | _ => find x ESerialization (trimSpace name)
  end.
(* core/motan.go:802-817 GetRegistry, under its lock: at most one registry for an identity; it is initialized when made *)
Definition getRegistry (x : extf) (u : url) : option (nat * N * url) * extf :=
  let key := fst (getIdentity (fresh u)) in
  match aget bs_eqb (xReg x) key with
  | Some r => (Some r, x)
  | None => match find x ERegistry (uProtocol u) with
            | Some f => (Some (xNext x, f, u), mkExtf (xTab x) (aset bs_eqb (xReg x) key (xNext x, f, u)) (S (xNext x)))
            | None => (None, x)
            end
  end.
Inductive xop := XRegister (k : ekind) (name : bs) (f : N) | XSer (name : bs) (id : Z) (f : N) | XRegistry (u : url).
Definition xstep (x : extf) (o : xop) : extf :=
  match o with
  | XRegister k n f => registerExt x k n f
  | XSer n i f => registerSer x n i f
  | XRegistry u => snd (getRegistry x u)
  end.
Definition xrun (os : list xop) : extf := fold_left xstep os ext0.
