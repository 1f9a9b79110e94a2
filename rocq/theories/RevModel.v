(** RevModel.v -- std::reverse_iterator<I> for an iterator I made with IteratorFacade (include/iterator.hpp:58-114).  Definitions only.

    - reverse_iterator is that of libstdc++ (bits/stl_iterator.h): it holds an iterator [current], and everything it does is done by the
      operators of that.  A reverse_iterator is represented by its [current]. *)
From Verif Require Import Base IterModel AlgoModel.

(** the expressions with operators of the facade that an expression with reverse_iterators is made of *)
Definition uses (e : expr) : option (list expr) :=
  let minus_one := (OpDec, [It]) in
  match e with
  | (OpStar, [It]) => Some [minus_one; (OpStar, [It])]                            (* I tmp=current; return *--tmp; *)
  | (OpArrow, [It]) => Some [minus_one; (OpArrow, [It])]
  | (OpInc, [It]) | (OpInc, [It; Int]) => Some [minus_one]                        (* --current *)
  | (OpDec, [It]) | (OpDec, [It; Int]) => Some [(OpInc, [It])]                    (* ++current *)
  | (OpPlus, [It; Int]) | (OpPlus, [Int; It]) => Some [(OpMinus, [It; Int])]      (* reverse_iterator(current-n) *)
  | (OpMinus, [It; Int]) => Some [(OpPlus, [It; Int])]
  | (OpPlusAssign, [It; Int]) => Some [(OpMinusAssign, [It; Int])]
  | (OpMinusAssign, [It; Int]) => Some [(OpPlusAssign, [It; Int])]
  | (OpIndex, [It; Int]) => Some [(OpMinus, [It; Int]); minus_one; (OpStar, [It])]  (* *( *this+n) *)
  | (OpMinus, [It; It]) => Some [(OpMinus, [It; It])]                             (* y.base()-x.base() *)
  | (OpEq, [It; It]) => Some [(OpEq, [It; It])]
  | (OpNe, [It; It]) => Some [(OpNe, [It; It])]
  | (OpLt, [It; It]) => Some [(OpGt, [It; It])]
  | (OpGt, [It; It]) => Some [(OpLt, [It; It])]
  | (OpLe, [It; It]) => Some [(OpGe, [It; It])]
  | (OpGe, [It; It]) => Some [(OpLe, [It; It])]
  | _ => None
  end.
Definition rev_compiles (t : tag) (ref_is_reference : bool) (e : expr) : bool :=
  match uses e with Some es => forallb (compiles t ref_is_reference) es | None => false end.

Section Reverse.
  Context {I Ref : Type} (c : core I Ref).
  Local Open Scope monad_scope.
  Definition r_star (a : I) : res unit Ref :=
    match f_decr c a with
    | Ret _ tmp => Ret (f_star c tmp) tt
    | Exc e _ => Exc e tt | Ub r => Ub r | Abort => Abort | Fuel => Fuel
    end.
  Definition r_incr : M I unit := f_decr c.
  Definition r_decr : M I unit := f_incr c.
  Definition r_post_incr : M I I := old <- getS ;; f_decr c ;;; ret old.
  Definition r_post_decr : M I I := old <- getS ;; f_incr c ;;; ret old.
  Definition r_plus (a : I) (n : Z) : M unit I := f_minus c a n.
  Definition r_minus (a : I) (n : Z) : M unit I := f_plus c a n.
  Definition r_plus_assign (n : Z) : M I unit := f_minus_assign c n.
  Definition r_minus_assign (n : Z) : M I unit := f_plus_assign c n.
  Definition r_index (a : I) (n : Z) : res unit Ref :=
    match r_plus a n tt with
    | Ret b _ => r_star b
    | Exc e _ => Exc e tt | Ub r => Ub r | Abort => Abort | Fuel => Fuel
    end.
  Definition r_diff (a b : I) : M unit Z := f_diff c b a.
  Definition r_eq (a b : I) : bool := f_eq c a b.
  Definition r_ne (a b : I) : bool := f_ne c a b.
  Definition r_lt (a b : I) : bool := f_gt c a b.
  Definition r_gt (a b : I) : bool := f_lt c a b.
  Definition r_le (a b : I) : bool := f_ge c a b.
  Definition r_ge (a b : I) : bool := f_le c a b.
  (** for(auto it=first; it!=last; ++it) *it *)
  Fixpoint r_visit (fuel : nat) (last : I) : M I (list Ref) := fun it =>
    match fuel with
    | 0 => Fuel
    | S f => if r_ne it last
             then match r_star it with
                  | Ret x _ => (r_incr ;;; l <- r_visit f last ;; ret (x :: l)) it
                  | Exc e _ => Exc e it | Ub r => Ub r | Abort => Abort | Fuel => Fuel
                  end
             else Ret [] it
    end.
End Reverse.
