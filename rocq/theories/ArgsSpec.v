(** ArgsSpec.v -- commas that the preprocessor sees, and the arguments that are handed on to another macro. *)
From Verif Require Import Base ArgsModel.
From Coq Require Import String.
Local Open Scope string_scope.
Open Scope list_scope.
Open Scope nat_scope.

Fixpoint total (l : list nat) : nat := match l with [] => 0 | n :: l' => n + total l' end.
(** the commas of an expression that are not inside parentheses, as the client writes it *)
Fixpoint exposed (e : cexpr) : nat :=
  match e with
  | CAtom _ | CParen _ | CDefined _ => 0
  | CBinary op a b => exposed a + exposed b + (if String.eqb op "," then 1 else 0)
  | CCall f _ => exposed f
  | CBraces t args => exposed t + total (map exposed args) + (Datatypes.length args - 1)
  | CTemplate _ args => total (map exposed args) + (Datatypes.length args - 1)
  | CIndex a i => exposed a + exposed i
  end.
(** and with the client's macros expanded *)
Fixpoint exposed_expanded (e : cexpr) : nat :=
  match e with
  | CAtom _ | CParen _ => 0
  | CDefined e => exposed_expanded e
  | CBinary op a b => exposed_expanded a + exposed_expanded b + (if String.eqb op "," then 1 else 0)
  | CCall f _ => exposed_expanded f
  | CBraces t args => exposed_expanded t + total (map exposed_expanded args) + (Datatypes.length args - 1)
  | CTemplate _ args => total (map exposed_expanded args) + (Datatypes.length args - 1)
  | CIndex a i => exposed_expanded a + exposed_expanded i
  end.

(** the parameters that are part of an argument of another macro, outside parentheses *)
Definition handed_on (ndebug : bool) (m : macro) : list nat :=
  match m with
  | FAIL_MSG => [0]
  | ASSERT_MSG | PRECONDITION_MSG => [1]
  | DEBUG_ASSERT_MSG => if ndebug then [] else [1]
  | ASSERT_EQUAL => [0; 1]
  | TEST_SUBPAVING => [2]
  | _ => []
  end.
(** no comma is taken for one between arguments *)
Definition separable (ndebug : bool) (m : macro) (es : list cexpr) : Prop :=
  (forall e, In e es -> exposed e = 0) /\
  (forall i e, In i (handed_on ndebug m) -> nth_error es i = Some e -> exposed_expanded e = 0).
