(** AssignModel.v -- the concepts Assignable<T,F>, AssignableFrom<T,F> and AssignableTo<F,T>: include/metaprogramming.hpp:165-167.
    Definitions only.

    - All three are std::is_assignable<T,F>: whether declval<T>()=declval<F>() has a meaning.  declval<T>() is an lvalue if T is an lvalue
      reference, otherwise an rvalue ([meta.unary.prop], [declval]).
    - Types are those with the built-in assignment (numbers, enumerations and pointers), and classes, given by the assignment operators they
      declare, explicitly or not.  [takes F]: the rank of the conversion of a value of type F to the parameter, 0 the best, if there is one.
      [conv F n]: a value of type F converts implicitly to the type n with built-in assignment.
    - Not modelled: assignment operators that are const or templates, access control. *)
From Verif Require Import Base.

Section Assign.
  Context {F : Type} (conv : F -> nat -> bool).

  Inductive refqual := Unqualified | OnLvalues | OnRvalues.                  (* operator=(..), operator=(..) &, operator=(..) && *)
  Record op := mkOp { qual : refqual; is_deleted : bool; takes : F -> option nat }.
  Inductive type := Builtin (n : nat) | Class (ops : list op).
  Inductive reference := NoRef | LRef | RRef.
  (** a template argument T: U, U const, and references to them *)
  Record targ := mkT { base : type; is_const : bool; ref : reference }.
  Inductive category := Lvalue | Rvalue.
  Definition declval_category (r : reference) : category := match r with LRef => Lvalue | NoRef | RRef => Rvalue end.

  (** [over.match.funcs]: an operator with a ref-qualifier is viable only for objects of that category *)
  Definition viable_for (c : category) (o : op) : bool :=
    match qual o, c with Unqualified, _ | OnLvalues, Lvalue | OnRvalues, Rvalue => true | _, _ => false end.
  Definition viable (c : category) (ops : list op) (f : F) : list (nat * bool) :=
    flat_map (fun o => if viable_for c o then match takes o f with Some r => [(r, is_deleted o)] | None => [] end else []) ops.
  (** the only one with the least rank *)
  Definition best (l : list (nat * bool)) : option (nat * bool) :=
    match l with
    | [] => None
    | x :: t =>
        let m := fold_right (fun y m => Nat.min (fst y) m) (fst x) t in
        match filter (fun y => fst y =? m) l with [y] => Some y | _ => None end
    end.
  (** x=f for an x of the type and category: [expr.ass] *)
  Definition assignment (u : type) (const : bool) (c : category) (f : F) : bool :=
    negb const &&
    match u with
    | Builtin n => match c with Lvalue => conv f n | Rvalue => false end
    | Class ops => match best (viable c ops f) with Some (_, deleted) => negb deleted | None => false end
    end.
  (** 165 Assignable, 166 AssignableFrom, 167 AssignableTo *)
  Definition is_assignable (T : targ) (f : F) : bool := assignment (base T) (is_const T) (declval_category (ref T)) f.
  Definition Assignable (T : targ) (f : F) : bool := is_assignable T f.
  Definition AssignableFrom (T : targ) (f : F) : bool := is_assignable T f.
  Definition AssignableTo (f : F) (T : targ) : bool := is_assignable T f.
End Assign.
Arguments op : clear implicits.
Arguments type : clear implicits.
Arguments targ : clear implicits.
