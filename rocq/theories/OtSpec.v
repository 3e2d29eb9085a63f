(* OtSpec.v: what C95 says, apart from the model's helpers *)
From Verif Require Import Base OtModel.

Definition startsOf {ctx} (l : list (ev ctx)) : list (nat * option ctx) := flat_map (fun e => match e with EStart n p _ _ => [(n, p)] | _ => [] end) l.
Definition finishesOf {ctx} (l : list (ev ctx)) : list nat := flat_map (fun e => match e with EFinish n => [n] | _ => [] end) l.
(* every span is a child of the one before it *)
Fixpoint chainFrom {ctx} (mkctx : option ctx -> nat -> ctx) (parent : option ctx) (l : list (nat * option ctx)) : Prop :=
  match l with [] => True | (n, p) :: r => p = parent /\ chainFrom mkctx (Some (mkctx p n)) r end.
Definition recordOf {ctx} (n : nat) (e : ev ctx) : Prop := exists d, e = ERecord n d.
(* a recorder that does not panic *)
Definition calm (rec : cdata -> list tag + pval) : Prop := forall d, exists t, rec d = inl t.
(* what a tracer promises: a context written into attachments is read back *)
Definition carries_ctx {ctx} (extract : attm -> option ctx) (inject : ctx -> attm -> attm) : Prop := forall c a, extract (inject c a) = Some c.
