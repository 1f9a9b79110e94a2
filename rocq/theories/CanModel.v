(** CanModel.v -- the concepts HasEquality, CanAdd, CanSubtract, CanMultiply, CanDivide (include/metaprogramming.hpp:180-184) and the types
    EqualsType, SumType, DifferenceType, ProductType, QuotientType (94-100), for operands of class types.  Definitions only.

    - The operators found for the two types are given by how each declares its parameters, all of which are of these types.
    - In the concepts the operands are the parameters of a requires-expression, that is lvalues; in the types they are declval<X>(),
      that is xvalues.
    - A requires-expression cannot have a parameter of an abstract class.
    - For operator== the reversed candidates of C++20 are left out. *)
From Verif Require Import Base.

Inductive param := PVal | PCRef | PRef | PRv | PCRv.           (* T, T const&, T&, T&&, T const&& *)
Definition param_eqb (p q : param) : bool :=
  match p, q with PVal, PVal | PCRef, PCRef | PRef, PRef | PRv, PRv | PCRv, PCRv => true | _, _ => false end.
Record optype := mkType { is_const : bool; is_abstract : bool; from_lvalue : bool; from_xvalue : bool }.   (* the last two: can be constructed from *)

(** does a parameter bind to an operand of type [t], an lvalue or an xvalue *)
Definition binds (lv : bool) (t : optype) (p : param) : bool :=
  match p with PVal | PCRef => true | PRef => lv && negb (is_const t) | PRv => negb lv && negb (is_const t) | PCRv => negb lv end.
(** among parameters that bind: rvalue references for xvalues, then fewer qualifications *)
Definition better (lv : bool) (p q : param) : bool :=
  match p, q with
  | PRef, PCRef => lv
  | PRv, PCRef | PCRv, PCRef | PRv, PCRv => negb lv
  | _, _ => false
  end.
Definition cand := (param * param)%type.
Definition cand_eqb (c d : cand) : bool := param_eqb (fst c) (fst d) && param_eqb (snd c) (snd d).
Definition cand_better (lv : bool) (c d : cand) : bool :=
  negb (better lv (fst d) (fst c)) && negb (better lv (snd d) (snd c)) && (better lv (fst c) (fst d) || better lv (snd c) (snd d)).
(** the candidate better than all others *)
Definition select (lv : bool) (t1 t2 : optype) (ops : list cand) : option cand :=
  let v := filter (fun c => binds lv t1 (fst c) && binds lv t2 (snd c)) ops in
  find (fun c => forallb (fun d => cand_eqb c d || cand_better lv c d) v) v.
(** a parameter taken by value is initialised after the choice *)
Definition initialises (lv : bool) (t : optype) (p : param) : bool :=
  match p with PVal => if lv then from_lvalue t else from_xvalue t | _ => true end.
Definition compiles (lv : bool) (t1 t2 : optype) (ops : list cand) : bool :=
  match select lv t1 t2 ops with Some c => initialises lv t1 (fst c) && initialises lv t2 (snd c) | None => false end.

(** 180-184 *)
Definition can_op (t1 t2 : optype) (ops : list cand) : bool := negb (is_abstract t1) && negb (is_abstract t2) && compiles true t1 t2 ops.
(** 94-100: there is such a type *)
Definition op_type (t1 t2 : optype) (ops : list cand) : bool := compiles false t1 t2 ops.
