(** UnitsSpec.v -- what is expected of programs that include headers of this repository. *)
From Verif Require Import Base UnitsModel.
From Coq Require Import String.
Local Open Scope string_scope.
Open Scope list_scope.

(** the unit gets the text of a header, directly or through another *)
Inductive gets (u : unit_) : header -> Prop :=
| gets_direct : forall h, In h (u_includes u) -> gets u h
| gets_through : forall h h', gets u h -> In h' (includes h) -> gets u h'.

(** the program itself is in order: its units define nothing twice, and none of the variables of test.hpp *)
Definition own_definitions_ok (p : list unit_) : Prop :=
  NoDup (flat_map u_defines p) /\
  forall u x, In u p -> In x (u_defines u) ->
  ~ In x ["HELPER_TEST_FAILURES"; "HELPER_TEST_SKIPPED"; "HELPER_CURRENT_TESTING_CLASS"; "test_case_counter"].
(** a unit that gets binary_word.hpp declares the two names it uses *)
Definition names_ok (u : unit_) : Prop := gets u BinaryWord_ -> In "StringType" (u_before u) /\ In "StringStream" (u_before u).
(** no two units get test.hpp *)
Definition test_once (p : list unit_) : Prop :=
  forall p1 u1 p2 u2 p3, p = p1 ++ u1 :: p2 ++ u2 :: p3 -> gets u1 Test_ -> gets u2 Test_ -> False.
