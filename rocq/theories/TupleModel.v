(** TupleModel.v -- include/tuple.hpp (41-47).

    An environment gives each variable its value; the values of all types are taken from one type V.  An
    lvalue pair or tuple is the list of variables its references are bound to.  std::pair assigns first,
    then second; the order in which std::tuple assigns its elements is not specified and is a parameter,
    a list of the indices.  Assigning a value does not throw.  get_first ...
    get_fifth (50-54), renamings of std::get, are not modelled. *)
From Verif Require Import Base.
Open Scope list_scope.

Section Model.
Context {V : Type}.
Definition env := nat -> V.

(** make_lpair, 43 *)
Definition make_lpair (x y : nat) : nat * nat := (x, y).
(** make_ltuple, 47: std::tie, then a copy of the references *)
Definition make_ltuple (xs : list nat) : list nat := xs.
(** Pair<T1&,T2&>::operator= (line 41), from a pair of values ... *)
Definition pair_assign (l : nat * nat) (p : V * V) (s : env) : env :=
  set_var (set_var s (fst l) (fst p)) (snd l) (snd p).
(** ... and from a pair of references, which are read when the element is assigned *)
Definition pair_assign_refs (l r : nat * nat) (s : env) : env :=
  let s1 := set_var s (fst l) (s (fst r)) in
  set_var s1 (snd l) (s1 (snd r)).
(** Tuple<TS&...>::operator= (line 45): element [i] *)
Definition assign_elem (l : list nat) (t : list V) (s : env) (i : nat) : env :=
  match nth_error l i, nth_error t i with Some x, Some v => set_var s x v | _, _ => s end.
Definition assign_elem_ref (l r : list nat) (s : env) (i : nat) : env :=
  match nth_error l i, nth_error r i with Some x, Some y => set_var s x (s y) | _, _ => s end.
Definition tuple_assign (order : list nat) (l : list nat) (t : list V) (s : env) : env :=
  fold_left (assign_elem l t) order s.
Definition tuple_assign_refs (order : list nat) (l r : list nat) (s : env) : env :=
  fold_left (assign_elem_ref l r) order s.
End Model.
