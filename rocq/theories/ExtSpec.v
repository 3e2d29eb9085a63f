(* ExtSpec.v *)
From Verif Require Import Base GoStrings GoStrings2 Strconv UrlModel UrlSpec.
From Verif Require Export ExtModel.

(* does the call register something under this name? *)
Definition registers (k : ekind) (name : bs) (o : xop) : option N :=
  match o with
  | XRegister k' n f => if ekind_eqb k' k && bs_eqb n name then Some f else None
  | XSer n i f => if ekind_eqb ESerialization k && (bs_eqb n name || bs_eqb (fmtZ i) name) then Some f else None
  | XRegistry _ => None
  end.
(* the constructor registered last under a name *)
Definition last_registered (k : ekind) (name : bs) (os : list xop) : option N :=
  fold_left (fun r o => match registers k name o with Some f => Some f | None => r end) os None.
(* the registry of an identity: made by the first request for it for which a constructor was known, with that request's url *)
Definition registry_of (idt : bs) (os : list xop) : option (N * url) :=
  snd (fold_left (fun (st : list xop * option (N * url)) o =>
        (fst st ++ [o], match snd st with
                        | Some r => Some r
                        | None => match o with
                                  | XRegistry u => if bs_eqb (identity_of u) idt then option_map (fun f => (f, u)) (last_registered ERegistry (uProtocol u) (fst st)) else None
                                  | _ => None
                                  end
                        end)) os ([], None)).
