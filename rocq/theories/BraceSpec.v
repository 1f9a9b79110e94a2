(** BraceSpec.v -- what a call with a braced list should do. *)
From Verif Require Import Base OverModel.

Section Spec.
  Context (conv : ty -> ty -> bool) {V : Type} (cast : ty -> ty -> V -> V).
  (** every member converts to T, without narrowing *)
  Definition fits (T : ty) (xs : list (ty * V)) : Prop :=
    Forall (fun p => (exists r, implicit conv (fst p) T = Some r) /\ narrows (fst p) T = false) xs.
  (** the members as values of type T *)
  Definition members (T : ty) (xs : list (ty * V)) : list V := map (fun p => cast (fst p) T (snd p)) xs.
  (** braces that cannot be taken for one object of type T, or hold just that *)
  Definition plain (brace_conv : ty -> list ty -> bool) (T : ty) (xs : list (ty * V)) : Prop :=
    if is_class T then brace_conv T (map fst xs) = false \/ exists x, xs = [(T, x)]
    else xs <> [] /\ forall X x, xs = [(X, x)] -> is_class X = false.
  (** braces that another conversion by a user-defined function could turn into one object of type T *)
  Definition torn (brace_conv : ty -> list ty -> bool) (T : ty) (xs : list (ty * V)) : Prop :=
    if is_class T then brace_conv T (map fst xs) = true /\ forall x, xs <> [(T, x)]
    else exists X x, xs = [(X, x)] /\ is_class X = true.
End Spec.
