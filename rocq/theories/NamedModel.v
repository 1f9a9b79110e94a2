(** NamedModel.v -- the class a failed static check is said to belong to: include/test.hpp:43, 59-67, 114-162, 515-579.  Definitions only.

    - A program is what a test executable runs: the macros, and the functions test() of the tested classes with their bodies in place.
    - A message is the class and the check it names; file, line and function are left out, and what else is printed.
    - Whether a check holds is known when the program is compiled (C77). *)
From Verif Require Import Base StreamModel.
Open Scope list_scope.

Inductive step :=
| Check (what : text) (holds : bool)                   (* HELPER_TEST_STATIC_ASSERT, _CONCEPT, _SAME_TYPE, _EQUIVALENT_TYPE *)
| TestClass (name : text) (test : list step)           (* HELPER_TEST_CLASS(name,object): what object.test() does *)
| CallStd (function : list step)                       (* HELPER_TEST_CALL: catches std::exception *)
| TryAny (statement : list step)                       (* HELPER_TEST_TRY and the others with HELPER_TEST_CATCH: catch everything *)
| ThrowStd                                             (* throws a std::exception *)
| ThrowOther.                                          (* throws something else *)
Inductive ending := Done | Std | Other.
Definition note := (text * text)%type.

(** HELPER_CURRENT_TESTING_CLASS, 43 *)
Definition no_class : text := chars "???".
Section Seq.
  Variable exec : step -> text -> ending * text * list note.
  Fixpoint exec_list (l : list step) (current : text) : ending * text * list note :=
    match l with
    | [] => (Done, current, [])
    | s :: l' => match exec s current with
                 | (Done, current', out) => match exec_list l' current' with (e, current'', out') => (e, current'', out ++ out') end
                 | r => r
                 end
    end.
End Seq.
Fixpoint exec (s : step) (current : text) : ending * text * list note :=
  match s with
  | Check what holds => (Done, current, if holds then [] else [(current, what)])         (* 515-528, 531-544, 549-562, 566-579 *)
  | TestClass name test => exec_list exec test name                                      (* 59-67: 64 assigns, 65 runs *)
  | CallStd f => match exec_list exec f current with (Std, c, out) => (Done, c, out) | r => r end          (* 114-130 *)
  | TryAny f => match exec_list exec f current with (_, c, out) => (Done, c, out) end                      (* 100-111, 153-162 *)
  | ThrowStd => (Std, current, [])
  | ThrowOther => (Other, current, [])
  end.
(** what a program prints of failed static checks *)
Definition run (p : list step) : list note := snd (exec_list exec p no_class).
