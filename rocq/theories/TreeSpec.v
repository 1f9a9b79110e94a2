(** TreeSpec.v -- what the check of a subpaving's iterator should count, in terms of the two sequences. *)
From Verif Require Import Base StreamModel MacroModel MacroSpec TestModel TestSpec.
From Coq Require Import String.
Open Scope list_scope.
Open Scope Z_scope.

(** the sequences have different elements at position [i] *)
Definition differ (expected : list (option Z)) (items : list Z) (i : nat) : bool :=
  match nth_error expected i, nth_error items i with Some (Some x), Some v => negb (x =? v) | _, _ => false end.
(** one failure for each position with different elements, among the first [n]; one more if there are not [n] elements *)
Definition wrong_items (expected : list (option Z)) (items : list Z) (n : nat) : Z :=
  Z.of_nat (List.length (filter (differ expected items) (seq 0 (Nat.min n (List.length items))))) +
  (if Nat.eqb (List.length items) n then 0 else 1).
(** the vector has the elements that are needed *)
Definition provided (expected : list (option Z)) (items : list Z) (n : nat) : Prop :=
  forall i, (i < n)%nat -> (i < List.length items)%nat -> exists x, nth_error expected i = Some (Some x).

(** arithmetic expressions *)
Fixpoint arithmetic (e : expr) : bool :=
  match e with
  | ELit _ | EVar _ => true
  | EBool e | ENot e | EAbs e => arithmetic e
  | EAnd e1 e2 | ECmp _ e1 e2 | ESub e1 e2 => arithmetic e1 && arithmetic e2
  | _ => false
  end.
(** names that mean something else inside the macro, or change *)
Definition tree_locals : list name := ["elements_count"; "it"; "end"; "ok"; "HELPER_TEST_FAILURES"]%string.
Definition keeps_out (e : expr) : Prop := forall x, In x tree_locals -> mentions x e = false.
