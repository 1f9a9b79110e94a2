(** AlgoModel.v -- iterators made with IteratorFacade (include/iterator.hpp:58-114) as the standard library sees them: which
    expressions compile, and what the standard algorithms compute with those that do.  Definitions only.

    - An expression is an operator applied to operands; the iterator class itself declares no operators and does not convert from
      or to integers.  The declarations are those of the two facades.
    - The algorithms are std::distance, std::advance, a for loop over a range and std::lower_bound, as in libstdc++
      (bits/stl_iterator_base_funcs.h, bits/stl_algobase.h); they choose by iterator_category. *)
From Verif Require Import Base IterModel.

(** iterator.hpp:42-43, 58, 92 *)
Inductive tag := RandomAccess | Forward.

Inductive operator :=
| OpEq | OpNe | OpLt | OpLe | OpGt | OpGe | OpMinus | OpPlus | OpPlusAssign | OpMinusAssign
| OpInc | OpDec | OpStar | OpArrow | OpIndex.
(** kinds of operands: an iterator, an integer.  The postfix operators have an integer as second operand. *)
Inductive operand := It | Int.
Definition expr : Type := operator * list operand.

(** iterator.hpp:75-89 and 108-113; the first operand of a member is the object *)
Definition declared (t : tag) : list expr :=
  match t with
  | RandomAccess =>
      [(OpEq, [It; It]); (OpNe, [It; It]); (OpLt, [It; It]); (OpLe, [It; It]); (OpGt, [It; It]); (OpGe, [It; It]);
       (OpMinus, [It; It]); (OpPlus, [It; Int]); (OpMinus, [It; Int]); (OpPlusAssign, [It; Int]); (OpMinusAssign, [It; Int]);
       (OpInc, [It]); (OpDec, [It]); (OpStar, [It]); (OpArrow, [It])]
  | Forward =>
      [(OpEq, [It; It]); (OpNe, [It; It]); (OpInc, [It]); (OpInc, [It; Int]); (OpStar, [It]); (OpArrow, [It])]
  end.
Definition operator_eqb (a b : operator) : bool :=
  match a, b with
  | OpEq, OpEq | OpNe, OpNe | OpLt, OpLt | OpLe, OpLe | OpGt, OpGt | OpGe, OpGe | OpMinus, OpMinus | OpPlus, OpPlus
  | OpPlusAssign, OpPlusAssign | OpMinusAssign, OpMinusAssign | OpInc, OpInc | OpDec, OpDec | OpStar, OpStar
  | OpArrow, OpArrow | OpIndex, OpIndex => true
  | _, _ => false
  end.
Fixpoint operands_eqb (a b : list operand) : bool :=
  match a, b with
  | [], [] => true
  | It :: a', It :: b' | Int :: a', Int :: b' => operands_eqb a' b'
  | _, _ => false
  end.
(** operator-> takes the address of what dereference returns (89, 113): it does not compile unless that is a reference *)
Definition compiles (t : tag) (ref_is_reference : bool) (e : expr) : bool :=
  existsb (fun d => operator_eqb (fst e) (fst d) && operands_eqb (snd e) (snd d)) (declared t) &&
  (match fst e with OpArrow => ref_is_reference | _ => true end).

Section Algorithms.
  Context {I Ref : Type} (c : core I Ref) (t : tag).
  Local Open Scope monad_scope.

  (** ++a of the facade with this tag; the state is the iterator *)
  Definition incr : M I unit := match t with RandomAccess => f_incr c | Forward => ff_incr c end.

  (** std::advance: it += n, or ++it n times; n may not be negative for forward iterators *)
  Fixpoint incr_times (n : nat) : M I unit := match n with 0 => ret tt | S n' => incr ;;; incr_times n' end.
  Definition std_advance (n : Z) : M I unit :=
    match t with
    | RandomAccess => f_plus_assign c n
    | Forward => if (n <? 0)%Z then (fun _ => Ub UbOutOfBounds) else incr_times (Z.to_nat n)
    end.

  (** for(auto it=first; it!=last; ++it) *it: the elements visited *)
  Fixpoint visit (fuel : nat) (last : I) : M I (list Ref) := fun it =>
    match fuel with
    | 0 => Fuel
    | S f => if f_ne c it last
             then (incr ;;; l <- visit f last ;; ret (f_star c it :: l)) it
             else Ret [] it
    end.

  (** std::distance: last - first, or counting *)
  Definition std_distance (fuel : nat) (first last : I) : res unit Z :=
    match t with
    | RandomAccess => f_diff c last first tt
    | Forward => match visit fuel last first with
                 | Ret l _ => Ret (Z.of_nat (length l)) tt
                 | Ub r => Ub r | Fuel => Fuel | Abort => Abort | Exc e _ => Exc e tt
                 end
    end.

  (** std::lower_bound(first, first+len, val, comp), where [before x] is comp(x,val); the state is first *)
  Fixpoint lower_bound_loop (before : Ref -> bool) (fuel : nat) (len : Z) : M I unit := fun first =>
    match fuel with
    | 0 => Fuel
    | S f =>
        if (0 <? len)%Z
        then let half := (len / 2)%Z in
             match std_advance half first with
             | Ret _ middle =>
                 if before (f_star c middle)
                 then (incr ;;; lower_bound_loop before f (len - half - 1)) middle
                 else lower_bound_loop before f half first
             | r => r
             end
        else Ret tt first
    end.
  Definition lower_bound (before : Ref -> bool) (fuel : nat) (first last : I) : res I unit :=
    match std_distance fuel first last with
    | Ret len _ => lower_bound_loop before fuel len first
    | Ub r => Ub r | Fuel => Fuel | Abort => Abort | Exc e _ => Exc e first
    end.
End Algorithms.
