(** LinkSpec.v -- when a value converts, and what appending means. *)
From Verif Require Import Base OverModel.

(** implicit conversions: from a type to itself, between the arithmetic types, and those that classes declare *)
Definition arithmetic (t : ty) : Prop := forall n, t <> TClass n.
Inductive converts (declared : ty -> ty -> bool) : ty -> ty -> Prop :=
| C_same X : converts declared X X
| C_arithmetic X T : arithmetic X -> arithmetic T -> converts declared X T
| C_declared X T : ~ (arithmetic X /\ arithmetic T) -> declared X T = true -> converts declared X T.
(** the conversion is one that a class declares *)
Definition only_declared (declared : ty -> ty -> bool) (X T : ty) : Prop :=
  X <> T /\ ~ (arithmetic X /\ arithmetic T) /\ declared X T = true.

(** [after] has the elements of [before] and then [added] *)
Definition extended {V} (added before after : list V) : Prop :=
  length after = length before + length added /\
  (forall i, i < length before -> nth_error after i = nth_error before i) /\
  (forall i, nth_error after (length before + i) = nth_error added i).
