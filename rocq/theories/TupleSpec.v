(** TupleSpec.v -- simultaneous assignment. *)
From Verif Require Import Base.
From Coq Require Import Permutation.
Open Scope list_scope.

(** [s'] is [s] with the variables [xs] set to the values [vs]; no other variable changes *)
Definition assigned {V} (xs : list nat) (vs : list V) (s s' : nat -> V) : Prop :=
  length vs = length xs /\
  (forall i x v, nth_error xs i = Some x -> nth_error vs i = Some v -> s' x = v) /\
  (forall z, ~ In z xs -> s' z = s z).
(** the elements are assigned one by one, each once *)
Definition each_once (order : list nat) (n : nat) : Prop := Permutation order (seq 0 n).
