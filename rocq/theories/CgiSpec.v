(* CgiSpec.v: what C94 says, apart from the model's helpers *)
From Verif Require Import Base GoStrings GoStrings2 Strconv UrlModel HttpModel HttpSpec HprovModel CgiModel.

(* a response as a CGI program writes it: optional status line, header lines, an empty line, the body *)
Definition statusLine (st : option (Z * bs)) : list bs :=
  match st with Some (n, reason) => [s2b "Status: " ++ fmtZ n ++ s2b " " ++ reason] | None => [] end.
Definition headerLine (h : bs * bs) : bs := fst h ++ s2b ": " ++ snd h.
Definition lineEnd : bs := [x0d; x0a].
Definition cgiAnswer (st : option (Z * bs)) (hs : strmap) (body : bs) : bs :=
  concat (map (fun l => l ++ lineEnd) (statusLine st ++ map headerLine hs)) ++ lineEnd ++ body.
(* names and values that fit on a header line *)
Definition fitsLine (h : bs * bs) : Prop :=
  ~ In x3a (fst h) /\ ~ In x0d (fst h) /\ fst h <> s2b "Status" /\ ~ In x0d (snd h) /\ trimSpace (snd h) = snd h.
Definition reasonOk (st : option (Z * bs)) : Prop :=
  match st with Some (n, reason) => (-9223372036854775808 <= n <= 9223372036854775807)%Z /\ ~ In x0d reason | None => True end.
(* the last header of that name *)
Fixpoint lastOf (hs : strmap) (k : bs) : option bs :=
  match hs with [] => None | (a, v) :: r => match lastOf r k with Some w => Some w | None => if bs_eqb k a then Some v else None end end.

(* the environment: what each variable is *)
Definition method_of (u : url) : bs := match pget (uParams u) (s2b "CGI_REQUEST_METHOD") with Some m => m | None => [] end.
Inductive envVar (u : url) (att : strmap) (qs : bs) : bs -> option bs -> Prop :=
| ev_soft : envVar u att qs (s2b "SERVER_SOFTWARE") (Some (s2b "Motan / CGI"))
| ev_conf k : In k [s2b "REQUEST_METHOD"; s2b "SCRIPT_FILENAME"; s2b "DOCUMENT_ROOT"] -> envVar u att qs k (pget (uParams u) (s2b "CGI_" ++ k))
| ev_att k : envVar u att qs (s2b "MOTAN_" ++ k) (aget bs_eqb att k)
| ev_query : envVar u att qs (s2b "QUERY_STRING") (if bs_eqb (method_of u) (s2b "GET") then Some qs else None)
| ev_type : envVar u att qs (s2b "CONTENT_TYPE") (if bs_eqb (method_of u) (s2b "POST") then Some (s2b "application/x-www-form-urlencoded") else None)
| ev_len : envVar u att qs (s2b "CONTENT_LENGTH") (if bs_eqb (method_of u) (s2b "POST") then Some (fmtN (N.of_nat (length qs))) else None)
| ev_other k : ~ In k [s2b "SERVER_SOFTWARE"; s2b "REQUEST_METHOD"; s2b "SCRIPT_FILENAME"; s2b "DOCUMENT_ROOT"; s2b "QUERY_STRING"; s2b "CONTENT_TYPE"; s2b "CONTENT_LENGTH"] ->
    (forall r, k <> s2b "MOTAN_" ++ r) -> envVar u att qs k None.
