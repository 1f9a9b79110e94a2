(** ListSpec.v -- what it means to call a stateful function once per element, in order. *)
From Verif Require Import Base.

Section ListSpec.
  Context {S T R : Type}.

  (** [calls f l s rs s']: calling f on the elements of l from left to right, starting in state s,
      returns the values rs and ends in state s'; no other call takes place. *)
  Inductive calls (f : T -> M S R) : list T -> S -> list R -> S -> Prop :=
  | calls_nil s : calls f [] s [] s
  | calls_cons x l s r s1 rs s2 :
      f x s = Ret r s1 -> calls f l s1 rs s2 -> calls f (x :: l) s (r :: rs) s2.

  (** the outcome of a complete pass: either all calls return, or the first one that does not
      (exception, undefined behaviour, ...) ends the pass and is passed on unchanged *)
  Inductive pass (f : T -> M S R) (l : list T) (s : S) : res S (list R) -> Prop :=
  | pass_all rs s' : calls f l s rs s' -> pass f l s (Ret rs s')
  | pass_exc l1 x l2 rs s1 e s2 :
      l = l1 ++ x :: l2 -> calls f l1 s rs s1 -> f x s1 = Exc e s2 -> pass f l s (Exc e s2)
  | pass_ub l1 x l2 rs s1 r :
      l = l1 ++ x :: l2 -> calls f l1 s rs s1 -> f x s1 = Ub r -> pass f l s (Ub r)
  | pass_abort l1 x l2 rs s1 :
      l = l1 ++ x :: l2 -> calls f l1 s rs s1 -> f x s1 = Abort -> pass f l s Abort
  | pass_fuel l1 x l2 rs s1 :
      l = l1 ++ x :: l2 -> calls f l1 s rs s1 -> f x s1 = Fuel -> pass f l s Fuel.
End ListSpec.
