(** TreeModel.v -- HELPER_TEST_GRID_TREE_SUBPAVING_ITERATOR, include/test.hpp:584-596, in the setting of MacroModel.v and
    TestModel.v.  Definitions only.

    - The elements are integers; the vector expected_result holds pointers to elements, some of which may be null.
    - The class GridTreeSubpaving is not part of the library.  Its iterators go once through the elements; the argument is
      either an object, or an expression that makes a temporary, which is evaluated for begin() and again for end() (589).
    - expected_number_elements has non-negative values, so that the comparisons of 590 and 595 with a size_t compare numbers. *)
From Verif Require Import Base StreamModel MacroModel TestModel.
From Coq Require Import String.
Open Scope list_scope.
Open Scope Z_scope.

Inductive subpaving : Type := Object (items : list Z) | Temporary (items : list Z).

Section Tree.
Context {W : Type} (call : nat -> list Z -> W -> callres W) (ltr : bool).
Notation S := (st W).
Context (l : loc) (expected : list (option Z)) (ntxt : text) (n : expr).
Let count : name := "elements_count"%string.

(** 592: HELPER_TEST_COMPARE( ( *expected_result[elements_count]), == , ( *it)), for an element [v]; the first argument is
    written out by the preprocessor each time, and has no effects *)
Definition compare_item (v : Z) (s : S) : outc S unit :=
  obind (read_var count s) (fun k s1 =>
    match nth_error expected (Z.to_nat k) with
    | None => Undef UbOutOfBounds
    | Some None => Undef UbNull
    | Some (Some x) =>
        exec call ltr (HELPER_TEST_COMPARE l (chars "(*expected_result[elements_count])") (chars "(*it)") (ELit x) CEq (ELit v)) s1
    end).
(** the body of the loop, 590-593 *)
Definition item_body (v : Z) (s : S) : outc S unit :=
  leave (obind (eval call ltr (ECmp CLt (EVar count) n) (push [] s)) (fun z s1 =>
    if truth z
    then leave (obind (exec call ltr (HELPER_PRINT_TEST_COMMENT [lit "The next Iterator node is: "]) (push [] s1)) (fun _ s2 =>
                  compare_item v s2))
    else Norm tt s1)).
(** elements_count++, a size_t *)
Definition next_item (s : S) : outc S unit :=
  obind (read_var count s) (fun k s1 => obind (write_var count (wrap64 (k + 1)) s1) (fun _ s2 => Norm tt s2)).
Fixpoint items_loop (items : list Z) (s : S) : outc S unit :=
  match items with
  | [] => Norm tt s
  | v :: items' => obind (item_body v s) (fun _ s1 => obind (next_item s1) (fun _ s2 => items_loop items' s2))
  end.
(** 587-596; [it] and [end], declared in 589, are no numbers *)
Definition subpaving_check (p : subpaving) (s : S) : outc S unit :=
  match p with
  | Temporary _ => Undef UbDangling                  (* iterators of two temporaries that are gone *)
  | Object items =>
      leave (obind (leave (items_loop items (push [("it", CUndeduced); ("end", CUndeduced)]%string (push [(count, CVal 0)] s))))
        (fun _ s1 => exec call ltr (seqs
           [ HELPER_PRINT_TEST_COMMENT [lit "Test that we iterated through the right number of nodes"];
             HELPER_TEST_EQUAL l (chars count) ntxt (EVar count) n ]) s1))
  end.
End Tree.
