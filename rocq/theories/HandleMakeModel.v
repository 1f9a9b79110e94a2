(** HandleMakeModel.v -- model of how a Handle is made from an object, include/handle.hpp:71-75, and of make_handle,
    119-121.  Definitions only.  What becomes of the handle afterwards is HandleModel.v.

    - The argument of the constructor is an expression of static type [S] (the interface I or a class derived from
      it) that refers to an object of dynamic type [dyn v]; it is an lvalue (const or not) or a non-const rvalue.
    - [part S v]: the subobject of type S of an object of value v, as an object of its own; this is what the copy and
      move constructors of S make.  [left S v]: what moving that subobject leaves behind.
    - [vcopy], [vmove], [vleft]: the virtual functions _copy and _move of the interface, and what _move leaves behind.
    - Simplified: an allocation that fails does so before the argument is touched.  Not modelled: const rvalues. *)
From Verif Require Import Base HandleModel.
Local Open Scope monad_scope.

Inductive category := LValue | ConstLValue | RValue.
(** what overload resolution depends on: is_copy_constructible<T>, and whether new T(std::move(t)) compiles *)
Record traits := mkTraits { t_copyable : bool; t_movable : bool }.

(** the constructors, by line *)
Inductive ctor := Ctor71 | Ctor72 | Ctor73 | Ctor74.

Section Make.
  Context {V Ty A : Type} (ty_eqb : Ty -> Ty -> bool) (iface : Ty) (traits_of : Ty -> traits)
          (part left : Ty -> V -> V) (vcopy vmove vleft : V -> V).

  (** overload resolution.  An argument of type I: 71 for an rvalue, 72 otherwise (73 and 74 are viable too if I is
      derived from itself and copyable, but are templates).  An argument of a derived type: for an rvalue 73, whose T&& is
      a better match than I&& and const I&; for an lvalue 73 is not viable (T would be a reference, which is not derived
      from I), 74 is the better match if T is copyable, and otherwise 72 is left. *)
  Definition choose (S : Ty) (c : category) : ctor :=
    if ty_eqb S iface then match c with RValue => Ctor71 | _ => Ctor72 end
    else match c with
         | RValue => Ctor73
         | _ => if t_copyable (traits_of S) then Ctor74 else Ctor72
         end.
  (** the chosen constructor compiles *)
  Definition compiles (S : Ty) (c : category) : bool :=
    match choose S c with Ctor73 => t_movable (traits_of S) | _ => true end.

  (** Handle<I> d(e); returns what the object referred to is afterwards *)
  Definition h_from (d : nat) (S : Ty) (c : category) (v : V) : M (hst V) V :=
    match choose S c with
    | Ctor71 => h_new d (vmove v) ;;; ret (vleft v)          (* _ptr(r._move()) *)
    | Ctor72 => h_new d (vcopy v) ;;; ret v                  (* _ptr(r._copy()) *)
    | Ctor73 => h_new d (part S v) ;;; ret (left S v)        (* _ptr(new T(std::move(t))) *)
    | Ctor74 => h_new d (part S v) ;;; ret v                 (* _ptr(new T(t)) *)
    end.

  (** the constructors of a class T: given the arguments and whether each is an rvalue, the object made and what the
      arguments are afterwards, or that no constructor fits *)
  Definition class_ctor := list (bool * A) -> option (V * list A).
  (** 119-121: every argument is named in make_shared<T>(as...), so it is passed as an lvalue *)
  Definition as_lvalues (args : list (bool * A)) : list (bool * A) := map (fun a => (false, snd a)) args.
  (** Handle<T> d = make_handle<T>(args...); [None]: does not compile *)
  Definition make_handle (build : class_ctor) (d : nat) (args : list (bool * A)) : option (M (hst V) (list A)) :=
    match build (as_lvalues args) with
    | Some (v, after) => Some (h_new d v ;;; ret after)
    | None => None
    end.
End Make.
