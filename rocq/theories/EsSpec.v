(* EsSpec.v: vocabulary of C115. *)
From Verif Require Import Base Strconv GoStrings GoStrings2 UrlModel UrlSpec EpModel EsModel.

(* a setting given as a number of milliseconds (32 bit), in nanoseconds *)
Definition millis_or (u : url) (k : bs) (d : Z) : Z :=
  match int_param u k with
  | Some z => if ((- 2 ^ 31 <=? z) && (z <? 2 ^ 31))%Z then (z * 1000000)%Z else (d * 1000000)%Z
  | None => (d * 1000000)%Z
  end.
(* a setting given as a truth value *)
Definition truth_or (u : url) (k : bs) (d : bool) : bool :=
  match param u k with
  | None => d
  | Some t =>
      if existsb (bs_eqb t) (map s2b ["1"; "t"; "T"; "true"; "TRUE"; "True"]%string) then true
      else if existsb (bs_eqb t) (map s2b ["0"; "f"; "F"; "false"; "FALSE"; "False"]%string) then false else d
  end.
(* enough dials succeed for n connections *)
Definition n_connect (n : nat) (conns : list bool) : Prop := exists rest, conns = repeat true n ++ rest.
