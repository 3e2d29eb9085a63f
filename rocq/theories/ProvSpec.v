(* ProvSpec.v: what a caller of a Go service may expect, without the wire in between. *)
From Verif Require Import Base BytesModel BytesSpec Strconv ProtoModel ProtoSpec ConvModel ConvSpec SimpleModel SimpleSpec UrlModel
  ServerModel ServerSpec ProvModel.

(* The result of calling method [meth] of the service with the arguments: a value or an exception. *)
Inductive sresult := Gives (v : value) | Fails (e : exc).

Definition panicked : sresult := Fails (mkExc 500 (s2b "provider call panic") 1).

(* the argument as the method sees it: int arrives as int64, a string for a []byte parameter as []byte *)
Definition arrives (p : ptype) (v : value) : value := match p, v with PBytes, VStr s => VBytes s | _, _ => asDecoded v end.
(* the value may be passed for a parameter of this type *)
Definition has_type (p : ptype) (v : value) : Prop :=
  exists t, typeOf v = Some t /\ (p = PIface \/ p = t).
Definition has_typeb (p : ptype) (v : value) : bool :=
  match typeOf v with None => false | Some t => ptype_eqb p PIface || ptype_eqb p t end.

Fixpoint zipWith {A B C} (f : A -> B -> C) (l : list A) (m : list B) : list C :=
  match l, m with a :: l', b :: m' => f a b :: zipWith f l' m' | _, _ => [] end.

(* the first result of a run, as it comes back *)
Definition back (reply : target) (unsendable : bs) (o : mout) : sresult :=
  match o with
  | Panics => panicked
  | Returns [] => Gives VNull
  | Returns (v :: _) => if supportedIn v then Gives (asDecodedFor reply v)
                        else Fails (mkExc 500 (s2b "convert to response fail. err:" ++ unsendable) 1)
  end.

(* [name] is the method's name with its first letter in upper case; [eof] and [unsendable] are error texts *)
Definition spec_method (s : service) (name : option bs) (meth : bs) (args : list value) (reply : target) (eof unsendable : bs) : sresult :=
  match name with
  | None => panicked
  | Some name =>
      match aget bs_eqb (v_methods s) name with
      | None => Fails (mkExc 500 (s2b "method " ++ meth ++ s2b " is not found in provider.") 1)
      | Some m =>
          let n := length (g_params m) in
          if (n =? 0) && (0 <? length args) then panicked
          else if (0 <? n) && (length args =? 0) then panicked
          else if length args <? n then Fails (mkExc 500 (s2b "deserialize arguments fail." ++ eof) 1)
          else let xs := zipWith arrives (g_params m) args in
               if forallb (fun b => b) (zipWith has_typeb (g_params m) xs) then back reply unsendable (g_run m xs) else panicked
      end
  end.

Definition seen (reply : target) (r : sresult) : outcome :=
  match r with
  | Gives v => Value v (assigned reply v)
  | Fails e => Error (eMsg e)
  end.

(* ------------------------------------------------------------ the situation *)

(* arguments the simple serialization can carry *)
Definition args_ok (args : list value) : Prop :=
  Forall good args /\ forallb supported args = true /\ (N.of_nat (length (concat (map wire args))) < 2 ^ 32)%N.
(* called with these arguments, the service returns well-formed values below the format's limit *)
Definition results_ok (s : service) (args : list value) : Prop :=
  forall n m v vs, In (n, m) (v_methods s) -> g_run m (zipWith arrives (g_params m) args) = Returns (v :: vs) -> good v /\ fits v.

(* an ordinary request: not proxied, not already serialized, attachments without framework keys *)
Definition ordinary (q : mrequest value) : Prop :=
  cSerialized (qCtx q) = false /\ NoDup (akeys (qAttach q)) /\
  one_line (qService q) /\ one_line (qMethod q) /\ qDesc q = [] /\
  (forall k, In k [s2b "M_rid"; s2b "M_md"; s2b "M_fws"] -> aget bs_eqb (qAttach q) k = None).

(* a server that is no agent, knows the simple serialization, and shares gzip and json with its clients *)
Definition plain_server (c : gclient) (g : gserver) : Prop :=
  s_proxy (g_cfg g) = false /\ s_ser (g_cfg g) 6 = Some simpleSer /\ numbers_ok (g_cfg g) /\
  s_ext (g_cfg g) = c_ext c /\ gzip_lossless (c_ext c).

(* the request and its answer are not larger than the two sides accept *)
Definition sizes_fit (c : gclient) (g : gserver) (ip : bs) (pt : Z) (sid : N) (q : mrequest value) : Prop :=
  forall m, sendRequest c sid q = inl m -> sizes_ok (s_max (g_cfg g)) m /\
    forall r, processV2 (g_cfg g) ip pt (gHandler g) (received m) = Write r -> sizes_ok (c_max c) r.

(* the Go type of a value; nil has none *)
Inductive go_type : value -> ptype -> Prop :=
| gt_string s : go_type (VStr s) PString
| gt_strmap m : go_type (VStrMap m) PStrMap
| gt_bytes b : go_type (VBytes b) PBytes
| gt_strings l : go_type (VStrArr l) PStrArr
| gt_bool b : go_type (VBool b) PBool
| gt_byte b : go_type (VByte b) PByte
| gt_i16 z : go_type (VI16 z) PI16
| gt_i32 z : go_type (VI32 z) PI32
| gt_int z : go_type (VInt z) PInt
| gt_i64 z : go_type (VI64 z) PI64
| gt_f32 f : go_type (VF32 f) PF32
| gt_f64 f : go_type (VF64 f) PF64
| gt_map m : go_type (VMap m) PMap
| gt_array l : go_type (VArr l) PArr
| gt_other : go_type VUnsupported POther.

(* the values a pointer given for the reply can take; an *int takes int64 *)
Inductive takes : target -> value -> Prop :=
| tk_string s : takes TPString (VStr s)
| tk_strmap m : m <> [] -> takes TPStrMap (VStrMap m)
| tk_bytes b : takes TPBytes (VBytes b)
| tk_strings l : l <> [] -> takes TPStrArr (VStrArr l)
| tk_bool b : takes TPBool (VBool b)
| tk_byte b : takes TPByte (VByte b)
| tk_i16 z : takes TPInt16 (VI16 z)
| tk_i32 z : takes TPInt32 (VI32 z)
| tk_i64 z : takes TPInt64 (VI64 z)
| tk_int z : takes TPInt (VI64 z)
| tk_f32 f : takes TPFloat32 (VF32 f)
| tk_f64 f : takes TPFloat64 (VF64 f)
| tk_map m : m <> [] -> takes TPMap (VMap m)
| tk_array l : l <> [] -> takes TPArr (VArr l).
