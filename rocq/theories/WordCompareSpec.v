(** WordCompareSpec.v -- what the comparisons of words mean; lex is the lexicographic order of WordSpec.v. *)
From Verif Require Import Base StreamModel WordModel WordSpec WordCompareModel.

Definition means (o : operator) (a b : word) : Prop :=
  match o with
  | OLess => lex a b
  | OGreater => lex b a
  | OLessEq => lex a b \/ a = b
  | OGreaterEq => lex b a \/ a = b
  | OEqual => a = b
  | ONotEqual => a <> b
  end.
