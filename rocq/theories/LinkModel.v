(** LinkModel.v -- append and concatenate of List and LinkedList, called with a value or a sequence of any type: include/container.hpp:71-93
    (List), 137-154 (LinkedList).  Definitions only.

    - Types, conversions and overload resolution are those of OverModel.v.  An argument is a value of such a type X or a variable of one
      of the classes of sequences with elements of such a type.  No class among the types converts to or from a sequence.
    - A member function of a class template is compiled when it is called; then every expression in it must have a meaning.  [uses] lists the
      members of the parameter that the body of the overload for sequences calls.
    - The argument is not the object the function is called for; for List that case is C22.
    - Not modelled: allocations that fail, elements whose copy throws. *)
From Verif Require Import Base OverModel.

(** the classes: container.hpp:71 List, derived from std::vector; 137 LinkedList, derived from std::list *)
Inductive class := StdVector | StdList | HList | HLinked.
Inductive argument := Value (X : ty) | Sequence (c : class) (U : ty).
(** what std::vector and std::list can do, as far as it matters here; std::list has no operator[] *)
Inductive member := Size | PushBack | Begin | Subscript.
Definition members (c : class) : list member :=
  match c with
  | StdVector | HList => [Size; PushBack; Begin; Subscript]
  | StdList | HLinked => [Size; PushBack; Begin]
  end.
Definition member_eqb (a b : member) : bool :=
  match a, b with Size, Size | PushBack, PushBack | Begin, Begin | Subscript, Subscript => true | _, _ => false end.
Definition has_all (c : class) (ms : list member) : bool := forallb (fun m => existsb (member_eqb m) (members c)) ms.
(** 89-90 and 91-92, 152 and 153: for(i=0; i!=t.size(); ++i) { this->push_back(t[i]); } *)
Definition uses : list member := [Size; Subscript].

Section Link.
  Context (conv : ty -> ty -> bool)
          {V : Type}
          (cast : ty -> ty -> V -> V).     (* cast X T v: the value v of type X converted to T *)

  (** the conversion of the argument to const std::vector<T>&: itself or the base of a List<T>; vector(n) is explicit *)
  Definition to_vector (T : ty) (a : argument) : option rank :=
    match a with
    | Sequence StdVector U => if ty_eqb U T then Some Identity else None
    | Sequence HList U => if ty_eqb U T then Some Conversion else None
    | _ => None
    end.
  (** ... to const LinkedList<T>&: 144 LinkedList(unsigned int), which is not explicit, after a standard conversion; 146 from
      std::list<T>; 147-148 from List<X> and LinkedList<X> for any X *)
  Definition to_linked (T : ty) (a : argument) : option rank :=
    match a with
    | Value X => match standard conv X TUInt with Some _ => Some UserDefined | None => None end
    | Sequence HLinked U => if ty_eqb U T then Some Identity else Some UserDefined
    | Sequence HList _ => Some UserDefined
    | Sequence StdList U => if ty_eqb U T then Some UserDefined else None
    | Sequence StdVector _ => None
    end.
  Definition to_element (T : ty) (a : argument) : option rank :=
    match a with Value X => implicit conv X T | Sequence _ _ => None end.

  (** the argument's value: one value or the elements *)
  Inductive content := Single (x : V) | Several (xs : list V).
  Definition element (T : ty) (a : argument) (x : content) : list V :=
    match a, x with Value X, Single v => [cast X T v] | _, _ => [] end.
  Definition elements (T : ty) (a : argument) (x : content) : list V :=
    match a, x with Sequence _ U, Several vs => if ty_eqb U T then vs else map (cast U T) vs | _, _ => [] end.

  Inductive overload := Item | Whole.
  (** the list after the call, None if the call does not compile *)
  Definition whole (param : class) (T : ty) (a : argument) (x : content) (l : list V) : option (list V) :=
    if has_all param uses then Some (l ++ elements T a x) else None.
  (** 88 append(const T&), 89-90 append(const std::vector<T>&) *)
  Definition list_append (T : ty) (a : argument) (x : content) (l : list V) : option (list V) :=
    match resolve (viable Item false [to_element T a] ++ viable Whole false [to_vector T a]) with
    | Chosen Item => Some (l ++ element T a x)
    | Chosen Whole => whole StdVector T a x l
    | _ => None
    end.
  (** 91-92 concatenate(const std::vector<T>&) *)
  Definition list_concatenate (T : ty) (a : argument) (x : content) (l : list V) : option (list V) :=
    match to_vector T a with Some _ => whole StdVector T a x l | None => None end.
  (** 151 append(const T&), 152 append(const LinkedList<T>&) *)
  Definition linked_append (T : ty) (a : argument) (x : content) (l : list V) : option (list V) :=
    match resolve (viable Item false [to_element T a] ++ viable Whole false [to_linked T a]) with
    | Chosen Item => Some (l ++ element T a x)
    | Chosen Whole => whole HLinked T a x l
    | _ => None
    end.
  (** 153 concatenate(const LinkedList<T>&) *)
  Definition linked_concatenate (T : ty) (a : argument) (x : content) (l : list V) : option (list V) :=
    match to_linked T a with Some _ => whole HLinked T a x l | None => None end.
End Link.
Arguments content : clear implicits.
Arguments Single {V} x.
Arguments Several {V} xs.
