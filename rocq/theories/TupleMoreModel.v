(** TupleMoreModel.v -- include/tuple.hpp:50-54 get_first ... get_fifth, and assignment to make_lpair and make_ltuple (43, 47) when the
    assignment of an element throws.  Definitions only.

    - Objects have addresses; an object that has been destroyed has no value.
    - The elements of a tuple are objects of its own, or references; the type of an element is not const. *)
From Verif Require Import Base TupleModel.
Open Scope list_scope.
Open Scope nat_scope.

(** ** get_first ... get_fifth *)
Section Get.
  Context {V : Type}.
  Definition memory := nat -> option V.
  Inductive element := Own (a : nat) | LvalueRef (a : nat) | RvalueRef (a : nat).
  (** expressions: an lvalue, an lvalue of a const object, an rvalue *)
  Inductive category := Lvalue | ConstLvalue | Rvalue.
  (** std::forward<T>(t) is what the argument was *)
  Definition forward (c : category) : category := c.
  (** std::get<i>, [tuple.elem]: the element as a member of the tuple; a reference stays what it is, collapsed with the reference to the tuple;
      there is no such function if i is not less than the number of elements *)
  Definition std_get (i : nat) (t : list element) (c : category) : option (nat * category) :=
    match nth_error t i with
    | Some (Own a) => Some (a, c)
    | Some (LvalueRef a) => Some (a, Lvalue)
    | Some (RvalueRef a) => Some (a, match c with Rvalue => Rvalue | _ => Lvalue end)
    | None => None
    end.
  (** 50-54: decltype(auto) returns the reference itself *)
  Definition get_first (t : list element) (c : category) := std_get 0 t (forward c).
  Definition get_second (t : list element) (c : category) := std_get 1 t (forward c).
  Definition get_third (t : list element) (c : category) := std_get 2 t (forward c).
  Definition get_fourth (t : list element) (c : category) := std_get 3 t (forward c).
  Definition get_fifth (t : list element) (c : category) := std_get 4 t (forward c).
  Definition getters := [get_first; get_second; get_third; get_fourth; get_fifth].

  (** uses of a reference *)
  Definition read (r : nat * category) : M memory V := fun m => match m (fst r) with Some v => Ret v m | None => Ub UbDangling end.
  (** assignment, for types that do not take rvalues on the left; None: does not compile *)
  Definition assign (r : nat * category) (v : V) : option (M memory unit) :=
    match snd r with
    | Lvalue => Some (fun m => match m (fst r) with Some _ => Ret tt (set_var m (fst r) (Some v)) | None => Ub UbDangling end)
    | _ => None
    end.
  (** initialising a variable: an rvalue is moved from, and [left] is left behind *)
  Definition initialise (r : nat * category) (left : V) : M memory V := fun m =>
    match m (fst r) with
    | None => Ub UbDangling
    | Some v => match snd r with Rvalue => Ret v (set_var m (fst r) (Some left)) | _ => Ret v m end
    end.
  (** the destruction of the tuple *)
  Definition destroy (t : list element) (m : memory) : memory :=
    fold_left (fun m e => match e with Own a => set_var m a None | _ => m end) t m.
End Get.

(** ** assignments that throw *)
Section Throwing.
  Context {V : Type}.
  (** the assignment of element i may throw, and leave some value in the variable *)
  Context (fails : nat -> option (exn * V)).
  Definition assign_or_throw (l : list nat) (t : list V) (i : nat) : M env unit := fun s =>
    match nth_error l i, nth_error t i with
    | Some x, Some v => match fails i with None => Ret tt (set_var s x v) | Some (e, w) => Exc e (set_var s x w) end
    | _, _ => Ret tt s
    end.
  (** Tuple<TS&...>::operator= (45), in some order *)
  Fixpoint tuple_assign_throwing (order l : list nat) (t : list V) : M env unit :=
    match order with
    | [] => ret tt
    | i :: order' => (assign_or_throw l t i ;;; tuple_assign_throwing order' l t)%M
    end.
  (** Pair<T1&,T2&>::operator= (41): first, then second *)
  Definition pair_assign_throwing (l : nat * nat) (p : V * V) : M env unit :=
    (assign_or_throw [fst l; snd l] [fst p; snd p] 0 ;;; assign_or_throw [fst l; snd l] [fst p; snd p] 1)%M.
End Throwing.
