(* NgxModel.v: tools/nginx/parser.go, which turns an nginx configuration into http locations.  The input is all read before
   parsing (main, 440-461), so the only read error is the end of the input.  The line counter and verbose output are left
   out; singleQuoted is never set by the code and is left out. *)
From Verif Require Import Base GoStrings GoStrings2 HttpModel.

(* ------------------------------------------------------------ tokens *)

Definition LF : byte := x0a.
(* 84-86 *)
Definition ngSpace (c : byte) : bool := byte_eqb c x20 || byte_eqb c x09 || byte_eqb c x0d || byte_eqb c x0a.
(* 24-30, 48-56: what readToken returns *)
Inductive tok := TStart | TDone | TEof | TOk | TErr (c : byte).
(* 75-83: readToken's variables and p.args; found is only true inside one round *)
Record rst := mkRst { r_buf : bs; r_cmt : bool; r_quoted : bool; r_dq : bool; r_need : bool; r_last : bool; r_var : bool; r_args : list bs }.
Definition rinit (args : list bs) : rst := mkRst [] false false false false true false args.

(* 196-222 the word with its escapes replaced; None: word[i+1] is out of range *)
Fixpoint unescapeWord (w : bs) : option bs :=
  match w with
  | [] => Some []
  | c :: r =>
      if byte_eqb c x5c then
        match r with
        | [] => None
        | e :: r' =>
            let lit x := match unescapeWord r' with Some v => Some (x :: v) | None => None end in
            if byte_eqb e x22 || byte_eqb e x27 || byte_eqb e x5c then lit e
            else if byte_eqb e x74 then lit x09
            else if byte_eqb e x72 then lit x0d
            else if byte_eqb e x6e then lit x0a
            else match unescapeWord r with Some v => Some (c :: v) | None => None end
        end
      else match unescapeWord r with Some v => Some (c :: v) | None => None end
  end.

(* one round: goes on, returns a token (with p.args), or panics *)
Inductive round := Go (s : rst) | Ret (t : tok) (args : list bs) | Boom.
(* 125-162 *)
Definition atSpace (s : rst) (ch : byte) : round :=
  let s := mkRst (r_buf s) (r_cmt s) (r_quoted s) (r_dq s) false true (r_var s) (r_args s) in
  if ngSpace ch then Go s
  else if byte_eqb ch x3b || byte_eqb ch x7b then
    match r_args s with [] => Ret (TErr ch) (r_args s) | _ => Ret (if byte_eqb ch x7b then TStart else TOk) (r_args s) end
  else if byte_eqb ch x7d then match r_args s with [] => Ret TDone (r_args s) | _ => Ret (TErr ch) (r_args s) end
  else if byte_eqb ch x23 then Go (mkRst (r_buf s) true (r_quoted s) (r_dq s) (r_need s) (r_last s) (r_var s) (r_args s))
  else if byte_eqb ch x5c then Go (mkRst (r_buf s ++ [ch]) (r_cmt s) true (r_dq s) (r_need s) false (r_var s) (r_args s))
  else if byte_eqb ch x22 then Go (mkRst (r_buf s) (r_cmt s) (r_quoted s) true (r_need s) false (r_var s) (r_args s))
  else Go (mkRst (r_buf s ++ [ch]) (r_cmt s) (r_quoted s) (r_dq s) (r_need s) false (r_var s) (r_args s)).
(* 163-235 *)
Definition inWord (s : rst) (ch : byte) : round :=
  let add v q := Go (mkRst (r_buf s ++ [ch]) (r_cmt s) q (r_dq s) (r_need s) (r_last s) v (r_args s)) in
  if byte_eqb ch x7b && r_var s then add (r_var s) (r_quoted s)
  else if byte_eqb ch x5c then add false true
  else if byte_eqb ch x24 then add true (r_quoted s)
  else
    let finish dq need last :=
      match unescapeWord (r_buf s) with
      | None => Boom
      | Some w =>
          let args := r_args s ++ [w] in
          if byte_eqb ch x3b then Ret TOk args
          else if byte_eqb ch x7b then Ret TStart args
          else Go (mkRst [] (r_cmt s) (r_quoted s) dq need last false args)
      end in
    if r_dq s then if byte_eqb ch x22 then finish false true (r_last s) else add false (r_quoted s)
    else if ngSpace ch || byte_eqb ch x3b || byte_eqb ch x7b then finish false (r_need s) true
    else add false (r_quoted s).
(* 88-236 *)
Definition readStep (s : rst) (ch : byte) : round :=
  let cmt := if byte_eqb ch LF then false else r_cmt s in
  let s := mkRst (r_buf s) cmt (r_quoted s) (r_dq s) (r_need s) (r_last s) (r_var s) (r_args s) in
  if cmt then Go s
  else if r_quoted s then Go (mkRst (r_buf s ++ [ch]) cmt false (r_dq s) (r_need s) (r_last s) (r_var s) (r_args s))
  else if r_need s then
    if ngSpace ch then Go (mkRst (r_buf s) cmt (r_quoted s) (r_dq s) false true (r_var s) (r_args s))
    else if byte_eqb ch x3b then Ret TOk (r_args s)
    else if byte_eqb ch x7b then Ret TStart (r_args s)
    else if byte_eqb ch x29 then atSpace s ch
    else Ret (TErr ch) (r_args s)
  else if r_last s then atSpace s ch
  else inWord s ch.
(* the token, p.args and what is left of the input; None: a panic *)
Fixpoint readLoop (s : rst) (l : bs) : option (tok * list bs * bs) :=
  match l with
  | [] => Some (TEof, r_args s, [])
  | ch :: r => match readStep s ch with Go s' => readLoop s' r | Ret t a => Some (t, a, r) | Boom => None end
  end.
Definition readToken (args : list bs) (l : bs) : option (tok * list bs * bs) := readLoop (rinit args) l.

(* ------------------------------------------------------------ directives *)

(* 37-41; the third part is nil for a directive that is no block *)
Inductive dir := Dir (name : bs) (args : list bs) (sub : option (list dir)).
Inductive perr := EUnexpected (c : byte) | EClose | EEnd (depth : nat).
Inductive pres := POk (ds : list dir) (rest : bs) | PErr (e : perr) | PPanic | PFuel.
(* 243-290 parseFromStat; p.args is empty whenever it is entered; [acc]: directives.  The fuel is a bound on the number of
   tokens (see C90_fuel). *)
Fixpoint parseFrom (fuel depth : nat) (acc : list dir) (l : bs) : pres :=
  match fuel with
  | O => PFuel
  | S f =>
      match readToken [] l with
      | None => PPanic
      | Some (TErr c, _, _) => PErr (EUnexpected c)
      | Some (TDone, _, r) => match depth with O => PErr EClose | S _ => POk acc r end
      | Some (TEof, _, r) => match depth with O => POk acc r | S _ => PErr (EEnd depth) end
      | Some (TStart, args, r) =>
          match args with
          | [] => PPanic
          | n :: a => match parseFrom f (S depth) [] r with
                      | POk ds r' => parseFrom f depth (acc ++ [Dir n a (Some ds)]) r'
                      | e => e
                      end
          end
      | Some (TOk, args, r) =>
          match args with
          | [] => PPanic
          | n :: a => parseFrom f depth (acc ++ [Dir n a None]) r
          end
      end
  end.
(* 239-241 Parse *)
Definition parse (l : bs) : pres := parseFrom (S (length l)) 0 [] l.

(* ------------------------------------------------------------ locations *)

Definition locName := s2b "location".
(* 307-347: type and match of a location; None: a panic *)
Definition matchOf (args : list bs) : option (bs * bs) :=
  match args with
  | [] => None
  | [a0; a1] =>
      if bs_eqb a0 (s2b "=") then Some (s2b "exact", a1)
      else if bs_eqb a0 (s2b "~") then Some (s2b "regexp", a1)
      else if bs_eqb a0 (s2b "~*") then Some (s2b "iregexp", a1)
      else None
  | a0 :: _ =>
      match a0 with
      | [] => None
      | c :: r =>
          if byte_eqb c x3d then Some (s2b "exact", r)
          else if byte_eqb c x5e then
            match r with [] => None | d :: _ => if byte_eqb d x7e then None else Some (s2b "start", a0) end
          else if byte_eqb c x7e then
            match r with [] => None | d :: r' => if byte_eqb d x2a then Some (s2b "iregexp", r') else Some (s2b "regexp", r) end
          else Some (s2b "start", a0)
      end
  end.
(* 354-376: the parentheses around a condition removed, from the i-th argument on; None: a panic *)
Fixpoint condWords (first : bool) (args : list bs) : option (list bs) :=
  match args with
  | [] => Some []
  | a :: r =>
      if first then
        match a with
        | [] => None
        | c :: a' => if byte_eqb c x28
                     then match condWords false r with Some l => Some (if bs_empty a' then l else a' :: l) | None => None end
                     else None
        end
      else
        match r with
        | [] => Some (if negb (bs_eqb a (s2b ")")) && hasSuffix a (s2b ")") then [firstn (length a - 1) a] else [])
        | _ => match condWords false r with Some l => Some (a :: l) | None => None end
        end
  end.
(* 400-407: the arguments of the last rewrite of a block; None: a panic *)
Fixpoint lastRewrite (ds : list dir) (cur : bs * bs) : option (bs * bs) :=
  match ds with
  | [] => Some cur
  | Dir n a _ :: r =>
      if bs_eqb n (s2b "rewrite") then match a with m :: p :: _ => lastRewrite r (m, p) | _ => None end else lastRewrite r cur
  end.
(* 386-398 *)
Definition condType (w : bs) : option bs :=
  if bs_eqb w (s2b "~") then Some (s2b "regexp")
  else if bs_eqb w (s2b "~*") then Some (s2b "iregexp")
  else if bs_eqb w (s2b "!~") then Some (s2b "!regexp")
  else if bs_eqb w (s2b "!~*") then Some (s2b "!iregexp")
  else None.
Definition sp4 (a b c d : bs) : bs := a ++ s2b " " ++ b ++ s2b " " ++ c ++ s2b " " ++ d.
(* 353-412: the rules an if adds; None: a panic *)
Definition ifRules (args : list bs) (sub : list dir) : option (list bs) :=
  match condWords true args with
  | None => None
  | Some [v; t; re] =>
      if negb (bs_eqb v (s2b "$request_uri")) then Some []
      else match condType t with
           | None => None
           | Some ct => match lastRewrite sub ([], []) with
                        | None => None
                        | Some (m, p) => Some (if bs_empty m then [] else [sp4 ct re m p])
                        end
           end
  | Some _ => Some []
  end.
Definition subs (o : option (list dir)) : list dir := match o with Some l => l | None => [] end.
(* 348-416 *)
Fixpoint bodyOf (ds : list dir) (up : bs) (rules : list bs) : option (bs * list bs) :=
  match ds with
  | [] => Some (up, rules)
  | Dir n a s :: r =>
      let more rs := bodyOf r up (rules ++ rs) in
      if bs_eqb n (s2b "proxy_pass") then match a with u :: _ => if length u <? 7 then None else bodyOf r (skipn 7 u) rules | [] => None end
      else if bs_eqb n (s2b "if") then match ifRules a (subs s) with Some rs => more rs | None => None end
      else if bs_eqb n (s2b "rewrite") then match a with m :: p :: _ => more [sp4 (s2b "start") (s2b "/") m p] | _ => None end
      else more []
  end.
(* 305-423 visitLocation: the locations after it; None: a panic *)
Definition visitLocation (ls : list location) (args : list bs) (sub : list dir) : option (list location) :=
  match matchOf args with
  | None => None
  | Some (t, m) => match bodyOf sub [] [] with
                   | None => None
                   | Some (up, rules) => Some (if bs_empty up then ls else ls ++ [mkLoc up m t rules])
                   end
  end.
(* 292-303 visitDirectives *)
Fixpoint visitDir (ls : list location) (d : dir) : option (list location) :=
  match d with
  | Dir n a s =>
      if bs_eqb n locName then visitLocation ls a (subs s)
      else match s with
           | None => Some ls
           | Some ds => (fix go (ls : list location) (ds : list dir) : option (list location) :=
                           match ds with [] => Some ls | d :: r => match visitDir ls d with Some ls' => go ls' r | None => None end end) ls ds
           end
  end.
Fixpoint visitDirectives (ls : list location) (ds : list dir) : option (list location) :=
  match ds with [] => Some ls | d :: r => match visitDir ls d with Some ls' => visitDirectives ls' r | None => None end end.
(* 440-471 main: the locations of a configuration; None: a panic, which is also how parse errors end *)
Definition convert (l : bs) : option (list location) :=
  match parse l with POk ds _ => visitDirectives [] ds | _ => None end.
