(** ImageSpec.v -- the set of the results of a function, and the union of sets. *)
From Verif Require Import Base StdOrd ListSpec ImageModel.

(** x is among l, up to the equivalence of the order *)
Definition among {R} (ltb : R -> R -> bool) (x : R) (l : list R) : Prop := exists y, In y l /\ ltb x y = false /\ ltb y x = false.
Definition ascending {R} (ltb : R -> R -> bool) (l : list R) : Prop :=
  forall i j a b, i < j -> nth_error l i = Some a -> nth_error l j = Some b -> ltb a b = true.
(** a value of a type so declared may stand for a std::set of its type without a cast *)
Definition stands_for_a_set (ways : list way) : Prop :=
  In DerivedFromSet ways \/ In (HasOperator false ToStdSet) ways \/ In (HasOperator false ToSet) ways.

(** what a call does that passes over all elements and then returns a set made from the results: [ok rs r] says which *)
Inductive outcome {S T R} (f : T -> M S R) (l : list T) (s : S) (ok : list R -> list R -> Prop) : res S (list R) -> Prop :=
| O_all rs s' r : calls f l s rs s' -> ok rs r -> outcome f l s ok (Ret r s')
| O_fails a : pass f l s a -> (forall rs s', a <> Ret rs s') -> outcome f l s ok a.
