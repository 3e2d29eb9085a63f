(* BootSpec.v: what an agent's settings should be, for C105. *)
From Verif Require Import Base Strconv GoStrings GoStrings2 UrlModel UrlSpec ConfModel BootModel.

(* what the section says under a name: a number (0 if it says nothing), a text (empty if it says nothing) *)
Definition conf_int (sec : option cmap) (k : bs) : Z :=
  match sec with Some m => match aget ckey_eqb m (KStr k) with Some (CInt z) => z | _ => 0%Z end | None => 0%Z end.
Definition conf_num (sec : option cmap) (k : bs) : option Z :=
  match sec with Some m => match aget ckey_eqb m (KStr k) with Some (CInt z) => Some z | _ => None end | None => None end.
Definition conf_str (sec : option cmap) (k : bs) : bs :=
  match sec with Some m => match aget ckey_eqb m (KStr k) with Some (CStr s) => s | _ => [] end | None => [] end.
Definition conf_bool (sec : option cmap) (k : bs) : option bool :=
  match sec with Some m => match aget ckey_eqb m (KStr k) with Some (CBool b) => Some b | _ => None end | None => None end.
(* if the section says anything under the name, it is a number, a text, a truth value *)
Definition conf_is (T : cval -> Prop) (sec : option cmap) (k : bs) : Prop :=
  forall m v, sec = Some m -> aget ckey_eqb m (KStr k) = Some v -> v = CNil \/ T v.
Definition is_int (v : cval) : Prop := exists z, v = CInt z.
Definition is_str (v : cval) : Prop := exists s, v = CStr s.
Definition is_bool (v : cval) : Prop := exists b, v = CBool b.

(* the first that is set *)
Fixpoint first_set (l : list Z) : Z := match l with [] => 0%Z | z :: r => if Z.eq_dec z 0 then first_set r else z end.
Fixpoint first_text (l : list bs) : bs := match l with [] => [] | [] :: r => first_text r | s :: _ => s end.
(* the number the text is, or 0 *)
Definition num_or_0 (t : bs) : Z := match parseInt64 t with (z, NumOk) => z | _ => 0%Z end.

(* a configuration an agent can start with *)
Definition readable (c : cli) (sec sw : option cmap) : Prop :=
  (~ In (s2b "-log_dir") (cArgs c) -> conf_is is_str sec (s2b "log_dir")) /\
  (forall k, In k [s2b "log_async"; s2b "log_structured"; s2b "rotate_per_hour"; s2b "log_filter_caller"] -> conf_is is_bool sec k) /\
  conf_is is_str sec (s2b "log_level") /\ conf_is is_int sec (s2b "log_buffer_size") /\
  (forall m k v, sw = Some m -> In (k, v) m -> exists n b, k = KStr n /\ v = CBool b) /\
  conf_is is_int sec (s2b "processPoolSize") /\
  (fPort c = 0%Z -> conf_is is_int sec (s2b "port")) /\ (fMport c = 0%Z -> cEnvMport c = None -> conf_is is_int sec (s2b "mport")) /\
  (fEport c = 0%Z -> conf_is is_int sec (s2b "eport")) /\ (fHport c = 0%Z -> conf_is is_int sec (s2b "hport")) /\
  (fPid c = [] -> conf_is is_str sec (s2b "pidfile")) /\ conf_is is_str sec (s2b "runtime_dir") /\ cMkdir c = true.

(* the value a flag has when the agent has set its flags: the last one set, none if it is left as it was *)
Definition flag_set (st : settings) (k : bs) : option bs :=
  match find (fun p => bs_eqb (fst p) k) (rev (sFlags st)) with Some p => Some (snd p) | None => None end.
Definition bool_text (o : option bool) : option bs := match o with Some true => Some (s2b "true") | Some false => Some (s2b "false") | None => None end.

(* http clients that get a cluster *)
Definition http_ok (regs : bs -> option url) (ext : url -> bool) (u : url) : Prop :=
  str_or u (s2b "domain") [] <> [] /\ forall r, regs (str_or u (s2b "registry") []) = Some r -> ext r = true.
