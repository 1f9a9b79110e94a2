(** FreeModel.v -- the functions on sets and lists that are not members, and the members they stand for, called with arguments of any type:
    include/container.hpp:88-105 (append, catenate), 176-204 (members of Set), 209-232 (functions of sets).  Definitions only.

    - Types, values and conversions are those of ConvModel.v; the arguments are variables, and the second is not the first.
    - [temp.deduct.call]: a parameter of a function template takes part in the deduction of T by its form; an argument of a class derived from
      such a class fits too.  All parameters must give the same T, and no conversion is tried afterwards.  The parameters of the members are
      of types fixed by the object.
    - Not modelled: allocations that fail. *)
From Verif Require Import Base StdOrd SetModel OverModel ConvModel.

(** ** Deduction *)
Inductive pattern := PItem | PStdVector | PStdSet | PList | PSet.     (* T, std::vector<T>, std::set<T>, List<T>, Set<T> *)
Definition deduce (p : pattern) (X : ctype) : option (ctype * rank) :=
  match p with
  | PItem => Some (X, Identity)
  | PStdVector => as_vector X
  | PStdSet => as_set X
  | PList => match X with HList u => Some (u, Identity) | _ => None end
  | PSet => match X with HSet u => Some (u, Identity) | _ => None end
  end.
(** the candidate with parameters p, q for arguments of types X, Y *)
Definition deduced {C} (c : C) (p q : pattern) (X Y : ctype) : list (cand C) :=
  match deduce p X, deduce q Y with
  | Some (T, r), Some (U, s) => if ctype_eqb T U then [mkCand c true [r; s]] else []
  | _, _ => []
  end.

(** ** Functions: None if the call does not compile.  The objects are a set with elements l or a list of l, and x *)
Inductive which := First | Second.
(** 211-212 contains(const std::set<T>&, const T&) *)
Definition free_contains (S X : ctype) (l : list val) (x : val) : option bool :=
  match resolve (deduced First PStdSet PItem S X) with Chosen _ => Some (contains val_ltb l x) | _ => None end.
(** 213-215 subset(const std::set<T>&, const std::set<T>&) *)
Definition free_subset (S X : ctype) (l : list val) (x : val) : option bool :=
  match resolve (deduced First PStdSet PStdSet S X) with Chosen _ => Some (subset val_ltb l (items x)) | _ => None end.
(** 216-218, 219-221 disjoint(const std::set<T>&, const std::set<T>&), (const std::set<T>&, const std::vector<T>&) *)
Definition free_disjoint (S X : ctype) (l : list val) (x : val) : option bool :=
  match resolve (deduced First PStdSet PStdSet S X ++ deduced Second PStdSet PStdVector S X) with
  | Chosen First => Some (disjoint val_ltb l (items x))
  | Chosen Second => Some (disjoint_list val_ltb l (items x))
  | _ => None
  end.
(** 209-210 join(Set<T>, Set<T> const&); the inner None would be a loop without end *)
Definition free_join (S X : ctype) (l : list val) (x : val) : option (option (list val)) :=
  match resolve (deduced First PSet PSet S X) with Chosen _ => Some (join val_ltb l (items x)) | _ => None end.
(** 229-232 remove(std::set<T>&, const std::set<T>&) *)
Definition free_remove_call (S X : ctype) (l : list val) (x : val) : option (option (list val)) :=
  match resolve (deduced First PStdSet PStdSet S X) with Chosen _ => Some (free_remove val_ltb (other_arg (items x)) l) | _ => None end.
(** 94-100, 101-105 catenate(const List<T>&, const List<T>&), (const List<T>&, const T&) *)
Definition free_catenate (L X : ctype) (l : list val) (x : val) : option (list val) :=
  match resolve (deduced First PList PList L X ++ deduced Second PList PItem L X) with
  | Chosen First => Some (l ++ items x)
  | Chosen Second => Some (l ++ [x])
  | _ => None
  end.

(** ** Members, of a Set<T> or a List<T> *)
(** 178-180 subset(const std::set<T>&): no class but those derived from it converts to std::set<T> *)
Definition member_subset_call (T X : ctype) (l : list val) (x : val) : option bool :=
  match bound X (StdSet T) with Some _ => Some (member_subset val_ltb l (items x)) | None => None end.
(** 181-183, 184-186 disjoint(const std::set<T>&), disjoint(const std::vector<T>&) *)
Definition member_disjoint_call (T X : ctype) (l : list val) (x : val) : option bool :=
  match resolve (viable First false [bound X (StdSet T)] ++ viable Second false [bound X (StdVector T)]) with
  | Chosen _ => Some (member_disjoint val_ltb l (items x))
  | _ => None
  end.
(** 187-188 adjoin(const std::set<T>&) *)
Definition member_adjoin_call (T X : ctype) (l : list val) (x : val) : option (option (list val)) :=
  match bound X (StdSet T) with Some _ => Some (adjoin val_ltb (other_arg (items x)) l) | None => None end.
(** 88, 89-90 append(const T&), append(const std::vector<T>&) *)
Definition member_append_call (T X : ctype) (l : list val) (x : val) : option (list val) :=
  match resolve (viable First false [option_map fst (conv T X)] ++ viable Second false [bound X (StdVector T)]) with
  | Chosen First => match convert T X x with Some t => Some (l ++ [t]) | None => None end
  | Chosen Second => Some (l ++ items x)
  | _ => None
  end.
(** contains and remove: ConvModel.v *)
