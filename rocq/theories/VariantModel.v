(** VariantModel.v -- model of CodedVariant (include/variant.hpp:46-55, include/variant.inl.hpp) and of the
    type-list predicates of include/metaprogramming.hpp:57-71.  Definitions only.

    An alternative is an element of an arbitrary type [T] of C++ types with a function [code]; codes are
    integers (C is an integer or enumeration type).  [None] means that the instantiation does not
    compile. *)
From Verif Require Import Base.

Section Variant.
  Context {T S R : Type} (code_of : T -> Z).

  (** the switch statement: duplicate case labels do not compile; abort() by default *)
  Fixpoint nodupb (l : list Z) : bool :=
    match l with
    | [] => true
    | c :: l' => negb (existsb (Z.eqb c) l') && nodupb l'
    end.
  Fixpoint select (code : Z) (cases : list (Z * M S R)) : M S R :=
    match cases with
    | [] => fun _ => Abort
    | (c, m) :: cases' => if Z.eqb code c then m else select code cases'
    end.
  Definition switch (code : Z) (cases : list (Z * M S R)) : option (M S R) :=
    if nodupb (map fst cases) then Some (select code cases) else None.

  Context (v : T -> M S R).
  (** case T::code(): return v(T()); *)
  Definition case (t : T) : Z * M S R := (code_of t, v t).

  (** the seventeen overloads of coded_visit; more than sixteen alternatives match none *)
  Definition coded_visit (alts : list T) (code : Z) : option (M S R) :=
  match alts with
  (* variant.inl.hpp:38-40 *)
  | [] =>
      switch code []
  (* variant.inl.hpp:43-46 *)
  | [t1] =>
      switch code [case t1]
  (* variant.inl.hpp:49-52 *)
  | [t1; t2] =>
      switch code [case t1; case t2]
  (* variant.inl.hpp:55-58 *)
  | [t1; t2; t3] =>
      switch code [case t1; case t2; case t3]
  (* variant.inl.hpp:61-64 *)
  | [t1; t2; t3; t4] =>
      switch code [case t1; case t2; case t3; case t4]
  (* variant.inl.hpp:67-71 *)
  | [t1; t2; t3; t4; t5] =>
      switch code [case t1; case t2; case t3; case t4; case t5]
  (* variant.inl.hpp:74-78 *)
  | [t1; t2; t3; t4; t5; t6] =>
      switch code [case t1; case t2; case t3; case t4; case t5; case t6]
  (* variant.inl.hpp:81-85 *)
  | [t1; t2; t3; t4; t5; t6; t7] =>
      switch code [case t1; case t2; case t3; case t4; case t5; case t6; case t7]
  (* variant.inl.hpp:88-92 *)
  | [t1; t2; t3; t4; t5; t6; t7; t8] =>
      switch code [case t1; case t2; case t3; case t4; case t5; case t6; case t7; case t8]
  (* variant.inl.hpp:96-101 *)
  | [t1; t2; t3; t4; t5; t6; t7; t8; t9] =>
      switch code [case t1; case t2; case t3; case t4; case t5; case t6; case t7; case t8; case t9]
  (* variant.inl.hpp:105-110 *)
  | [t1; t2; t3; t4; t5; t6; t7; t8; t9; t10] =>
      switch code [case t1; case t2; case t3; case t4; case t5; case t6; case t7; case t8; case t9;
                      case t10]
  (* variant.inl.hpp:114-119 *)
  | [t1; t2; t3; t4; t5; t6; t7; t8; t9; t10; t11] =>
      switch code [case t1; case t2; case t3; case t4; case t5; case t6; case t7; case t8; case t9;
                      case t10; case t11]
  (* variant.inl.hpp:123-128 *)
  | [t1; t2; t3; t4; t5; t6; t7; t8; t9; t10; t11; t12] =>
      switch code [case t1; case t2; case t3; case t4; case t5; case t6; case t7; case t8; case t9;
                      case t10; case t11; case t12]
  (* variant.inl.hpp:132-138 *)
  | [t1; t2; t3; t4; t5; t6; t7; t8; t9; t10; t11; t12; t13] =>
      switch code [case t1; case t2; case t3; case t4; case t5; case t6; case t7; case t8; case t9;
                      case t10; case t11; case t12; case t13]
  (* variant.inl.hpp:142-148 *)
  | [t1; t2; t3; t4; t5; t6; t7; t8; t9; t10; t11; t12; t13; t14] =>
      switch code [case t1; case t2; case t3; case t4; case t5; case t6; case t7; case t8; case t9;
                      case t10; case t11; case t12; case t13; case t14]
  (* variant.inl.hpp:152-158 *)
  | [t1; t2; t3; t4; t5; t6; t7; t8; t9; t10; t11; t12; t13; t14; t15] =>
      switch code [case t1; case t2; case t3; case t4; case t5; case t6; case t7; case t8; case t9;
                      case t10; case t11; case t12; case t13; case t14; case t15]
  (* variant.inl.hpp:162-168 *)
  | [t1; t2; t3; t4; t5; t6; t7; t8; t9; t10; t11; t12; t13; t14; t15; t16] =>
      switch code [case t1; case t2; case t3; case t4; case t5; case t6; case t7; case t8; case t9;
                      case t10; case t11; case t12; case t13; case t14; case t15; case t16]
  | _ => None
  end.

  (** variant.hpp:46-55: the object is its code; variant.inl.hpp:172-174 accept *)
  Record coded_variant := mkVariant { v_code : Z }.
  Definition variant_of_code (code : Z) : coded_variant := mkVariant code.
  Definition variant_of (t : T) : coded_variant := mkVariant (code_of t).
  Definition accept (alts : list T) (var : coded_variant) : option (M S R) := coded_visit alts (v_code var).
  Definition holds_alternative (t : T) (var : coded_variant) : bool := Z.eqb (v_code var) (code_of t).
End Variant.

(** metaprogramming.hpp:57-71.  Types are elements of a type with decidable equality; where a partial
    specialisation with equal arguments exists it is the more specialised one. *)
Section TypeLists.
  Context {T : Type} (eqb : T -> T -> bool).
  (** 57-61 *)
  Fixpoint are_all_same (ts : list T) : bool :=
    match ts with
    | [] => true
    | t0 :: ts' => match ts' with
                   | [] => true
                   | t1 :: _ => if eqb t0 t1 then are_all_same ts' else false
                   end
    end.
  (** 63-66 *)
  Fixpoint is_one_of (t : T) (us : list T) : bool :=
    match us with
    | [] => false
    | u :: us' => if eqb t u then true else is_one_of t us'
    end.
  (** 68-71: [None] if N is not defined *)
  Fixpoint index_of (t : T) (ts : list T) : option nat :=
    match ts with
    | [] => None
    | t0 :: ts' => if eqb t t0 then Some 0
                   else match index_of t ts' with Some n => Some (n + 1) | None => None end
    end.
End TypeLists.
