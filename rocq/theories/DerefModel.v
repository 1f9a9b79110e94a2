(** DerefModel.v -- what can be done with a PairIterator besides moving and comparing it: include/iterator.hpp:116-143.  Definitions only.

    - Types are those an element or an iterator may have, without const and volatile, which only make fewer conversions possible.  The
      iterators are pointers and classes with an operator*.
    - [elem n]: the type of *it for an iterator of class n, if it has one; [operator n t]: class n has a conversion function, not explicit, to t;
      [derived m n]: class m is derived from n, without ambiguity and in public.
    - Not modelled: operator<< (144-145), which prints the components. *)
From Verif Require Import Base.

Inductive type := Number | Null | Void | Pointer (t : type) | Class (n : nat).     (* Null: std::nullptr_t *)
Fixpoint type_eqb (a b : type) : bool :=
  match a, b with
  | Number, Number | Null, Null | Void, Void => true
  | Pointer s, Pointer t => type_eqb s t
  | Class m, Class n => Nat.eqb m n
  | _, _ => false
  end.

Section Deref.
  Context (elem : nat -> option type) (operator : nat -> type -> bool) (derived : nat -> nat -> bool).

  (** the type of *it *)
  Definition element (I : type) : option type :=
    match I with Pointer t => Some t | Class n => elem n | _ => None end.
  (** implicit conversion of a value to a pointer type: [conv.ptr], [class.conv.fct] *)
  Definition to_pointer (V target : type) : bool :=
    match V with
    | Null => true
    | Pointer a =>
        type_eqb a target ||
        match target with Void => true | Class n => match a with Class m => derived m n | _ => false end | _ => false end
    | Class n => operator n (Pointer target)
    | Number | Void => false
    end.

  (** 119 typedef std::pair<I1*,I2*> Reference; 142-143 return std::make_pair( *_iter1,*_iter2): the pair of the elements must convert to the pair
      of pointers to iterators, and does if both components do.  The result is what the elements x1 and x2 become by that; None if the call does
      not compile *)
  Context {X : Type} (become : type -> type -> X -> X).     (* become V P x: x of type V converted to P *)
  Definition dereference (I1 I2 : type) (x1 x2 : X) : option (X * X) :=
    match element I1, element I2 with
    | Some V1, Some V2 =>
        if to_pointer V1 I1 && to_pointer V2 I2 then Some (become V1 (Pointer I1) x1, become V2 (Pointer I2) x2) else None
    | _, _ => None
    end.
End Deref.

(** ** The functions of the class *)
Inductive function := Construct | Convert | Equal | DistanceTo | Advance | Dereference.
(** 126-132 *)
Definition declared : list function := [Construct; Convert; Equal; DistanceTo; Advance; Dereference].
(** 134-135, 136-137, 138-139, 140-141, 142-143; no source file of the library defines another *)
Definition defined : list function := [Construct; Convert; Equal; Advance; Dereference].
Definition function_eqb (a b : function) : bool :=
  match a, b with
  | Construct, Construct | Convert, Convert | Equal, Equal | DistanceTo, DistanceTo | Advance, Advance | Dereference, Dereference => true
  | _, _ => false
  end.
Inductive build := Runs | DoesNotCompile | DoesNotLink.
(** a program that calls these functions *)
Definition builds (calls : list function) : build :=
  if forallb (fun f => existsb (function_eqb f) declared) calls
  then if forallb (fun f => existsb (function_eqb f) defined) calls then Runs else DoesNotLink
  else DoesNotCompile.
