(** RangeAlgoSpec.v -- what the standard requires of an input iterator ([input.iterators]) whose elements have no members, and
    the elements of a range, independently of range.hpp. *)
From Verif Require Import Base AlgoModel RangeModel RangeSpec RangeAlgoModel.

Definition required_input : list requirement :=
  [Expr (OpStar, [It]); Expr (OpInc, [It]); Expr (OpInc, [It; Int]); Expr (OpEq, [It; It]); Expr (OpNe, [It; It]); Traits].
(** the numbers from start to stop-1 *)
Definition numbers (a b : Z) : list Z := counting a (Z.to_nat (b - a)).
