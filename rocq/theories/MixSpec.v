(** MixSpec.v -- what C154 says: the positions of the operands decide.  Definitions only. *)
From Verif Require Import Base IterModel IterSpec MixModel.

Definition cmp_positions (o : cmp) (p q : Z) : bool :=
  match o with
  | CEq => Z.eqb p q | CNe => negb (Z.eqb p q) | CLt => Z.ltb p q | CLe => Z.leb p q | CGt => Z.ltb q p | CGe => Z.leb q p
  end.
Definition at_position {TI TC} (pi : TI -> Z) (pc : TC -> Z) (x : operand TI TC) : Z := match x with OI i => pi i | OC c => pc c end.
(** a conversion keeps the position *)
Definition keeps {A B} (pa : A -> Z) (pb : B -> Z) (f : A -> B) : Prop := forall a, pb (f a) = pa a.
