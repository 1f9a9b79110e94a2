(** LiftModel.v -- making a container from a container with elements of another type (include/container.hpp:81-87, 135-147,
    167-174, 252-253; include/array.hpp:106-127).  Definitions only.

    - The elements have types TT (source) and T (target), which differ; the values are of the Coq types A and B.  What the
      compiler knows of them is whether T can be made from an rvalue, a constant lvalue and a lvalue of type TT, with
      copy-initialisation [T t = x;] and direct-initialisation [T t(x);].  Both forms can use different constructors.
    - T is not itself made from containers, so that the constructors from one element or from a number are not viable.
    - The containers are as in ListModel, ArrayModel, SetModel and MapModel; allocations succeed and elements do not throw. *)
From Verif Require Import Base StdOrd SetModel MapModel.

Section Elements.
  Context {A B : Type}.
  (** [None]: the initialisation does not compile *)
  Record element := mkElement {
    copy_rvalue : bool;               (* std::is_convertible<TT,T> *)
    copy_const : option (A -> B);     (* T t = x; for a TT const& x *)
    direct_rvalue : bool;             (* std::is_constructible<T,TT> *)
    direct_const : option (A -> B);   (* T(x) for a TT const& x *)
    direct_lvalue : option (A -> B);  (* T(x) for a TT& x *)
    copyable : bool                   (* TT has a copy constructor *)
  }.

  (** metaprogramming.hpp:146-147 and 160-161 *)
  Definition convertible (e : element) : bool := copy_rvalue e.
  Definition explicitly_convertible (e : element) : bool := direct_rvalue e && negb (copy_rvalue e).
End Elements.
Arguments element : clear implicits.

(** What becomes of an initialisation: there is no constructor for it, its body does not compile, or it gives a function from
    the source to the new container.  The type traits see the declarations only. *)
Inductive outcome (X : Type) := Absent | Broken | Made (x : X).
Arguments Absent {X}. Arguments Broken {X}. Arguments Made {X} x.
Definition trait {X} (o : outcome X) : bool := match o with Absent => false | _ => true end.
Definition body_of {X Y} (f : X -> Y) (o : option X) : outcome Y := match o with Some x => Made (f x) | None => Broken end.

(** A constructor template: explicit or not, constrained or not, whether the constraint is satisfied, the body *)
Record ctor (X : Type) := mkCtor { is_explicit : bool; constrained : bool; satisfied : bool; body : outcome X }.
Arguments mkCtor {X} _ _ _ _. Arguments is_explicit {X} _. Arguments constrained {X} _. Arguments satisfied {X} _. Arguments body {X} _.
(** Overload resolution among templates with the same parameter types: the more constrained one is better *)
Definition usable {X} (direct : bool) (c : ctor X) : bool := satisfied c && (direct || negb (is_explicit c)).
Definition choose {X} (direct : bool) (cs : list (ctor X)) : outcome X :=
  match filter (usable direct) cs with
  | [] => Absent
  | [c] => body c
  | l => match filter (@constrained X) l with [c] => body c | _ => Absent end
  end.

Section Containers.
  Context {A B K : Type} (ltB : B -> B -> bool) (ltK : K -> K -> bool) (e : element A B).

  (** container.hpp:84-87 List from std::vector or List; vector(first,last) makes each element with T( *first) *)
  Definition list_ctors : list (ctor (list A -> list B)) :=
    [mkCtor false true (convertible e) (body_of (fun f l => map f l) (direct_const e));
     mkCtor true true (explicitly_convertible e) (body_of (fun f l => map f l) (direct_const e))].
  (** container.hpp:145-146 LinkedList from List or LinkedList: list(first,last) *)
  Definition linked_ctors : list (ctor (list A -> list B)) :=
    [mkCtor false false true (body_of (fun f l => map f l) (direct_const e))].
  (** array.hpp:106-109, 111-115 Array from Array; static_assert(ExplicitlyConvertible<TT,T>) in the body *)
  Definition array_ctors : list (ctor (list A -> list B)) :=
    [mkCtor false true (convertible e) (body_of (fun f l => map f l) (direct_const e));
     mkCtor true false true (if explicitly_convertible e then body_of (fun f l => map f l) (direct_const e) else Broken)].
  (** container.hpp:169-170 Set from std::vector or List: set(first,last) *)
  Definition set_vector_ctors : list (ctor (list A -> list B)) :=
    [mkCtor false true (convertible e) (body_of (fun f l => set_of_list ltB (map f l)) (direct_const e))].
  (** container.hpp:171-174 Set from std::set or Set; the loop of 174 copies each element and inserts T(x) *)
  Definition set_ctors : list (ctor (list A -> list B)) :=
    [mkCtor false true (convertible e) (body_of (fun f l => set_of_list ltB (map f l)) (direct_const e));
     mkCtor true true (explicitly_convertible e)
       (if copyable e then body_of (fun f l => fold_left (fun s x => sinsert ltB s (f x)) l []) (direct_lvalue e) else Broken)].
  (** container.hpp:252-253 Map<K,T> from std::map<K,TT> or Map<K,TT>: map(first,last); the pair is made from the pair, its
      members from those of the pair *)
  Definition map_ctors : list (ctor (list (K * A) -> list (K * B))) :=
    [mkCtor false true (convertible e)
       (body_of (fun f l => fold_left (fun m p => minsert ltK m (fst p, f (snd p))) l []) (direct_const e))].
End Containers.

(** A sequence as element of another: what is known of its conversion follows from its constructors, which take a reference to
    const; containers are copyable. *)
Definition lifted {A B} (ctors : element A B -> list (ctor (list A -> list B))) (e : element A B) : element (list A) (list B) :=
  let made d := match choose d (ctors e) with Made f => Some f | _ => None end in
  mkElement (trait (choose false (ctors e))) (made false) (trait (choose true (ctors e))) (made true) (made true) true.

(** List<...List<TT>...> and the same of T, n deep *)
Fixpoint deep (n : nat) (A : Type) : Type := match n with 0 => A | S n' => list (deep n' A) end.
Fixpoint nested {A B} (n : nat) (e : element A B) : element (deep n A) (deep n B) :=
  match n with 0 => e | S n' => lifted list_ctors (nested n' e) end.
