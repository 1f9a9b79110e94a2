(** RangeAlgoModel.v -- the iterators of a Range (include/range.hpp:55-64) in the standard library and in the constructors of
    the containers.  Definitions only.

    - An algorithm is given by what its body in libstdc++ (bits/stl_algo.h, bits/stl_algobase.h, bits/stl_numeric.h,
      bits/stl_vector.h) requires of the iterators first and last: expressions, as in AlgoModel.v, and the members of
      std::iterator_traits.  C++20 gives std::iterator_traits members for a class without the five types only if it has the
      expressions of an iterator, *it++ among them. *)
From Verif Require Import Base IterModel AlgoModel RangeModel.

(** range.hpp:56-59; the constructor from size_t is explicit *)
Definition range_iterator : list expr := [(OpInc, [It]); (OpStar, [It]); (OpNe, [It; It])].
Definition has (ds : list expr) (e : expr) : bool :=
  existsb (fun d => operator_eqb (fst e) (fst d) && operands_eqb (snd e) (snd d)) ds.
(** the class declares none of the five types *)
Definition declares_types : bool := false.
Definition has_traits (ds : list expr) : bool := declares_types || (has ds (OpInc, [It]) && has ds (OpInc, [It; Int]) && has ds (OpStar, [It])).

Inductive algorithm :=
| ForEach | Accumulate | Transform | InnerProduct                                  (* while(first!=last) ... *first ... ++first *)
| Find | FindIf | AnyOf | Count | Copy | Distance | Equal                           (* iterator_category or difference_type *)
| MakeVector | MakeList | MakeArray | MakeSet | MakeLinked.                         (* vector(b,e), List(b,e), Array(b,e), Set(b,e), LinkedList(b,e) *)
Inductive requirement := Expr (e : expr) | Traits.
Definition loop_requires : list requirement := [Expr (OpNe, [It; It]); Expr (OpStar, [It]); Expr (OpInc, [It])].
Definition requires (a : algorithm) : list requirement :=
  match a with
  | ForEach | Accumulate | Transform | InnerProduct => loop_requires
  | _ => Traits :: loop_requires
  end.
Definition meets (ds : list expr) (q : requirement) : bool := match q with Expr e => has ds e | Traits => has_traits ds end.
Definition accepted (ds : list expr) (a : algorithm) : bool := forallb (meets ds) (requires a).

Section Loops.
  Context {X : Type}.
  (** std::accumulate(first,last,init,op); [None]: out of fuel *)
  Fixpoint accumulate (op : X -> Z -> X) (fuel : nat) (first last : Z) (init : X) : option X :=
    match fuel with
    | 0 => None
    | S n => if ri_neq first last then accumulate op n (ri_incr first) last (op init first) else Some init
    end.
  (** std::transform(first,last,out,op) with a std::back_inserter *)
  Fixpoint transform (op : Z -> X) (fuel : nat) (first last : Z) (out : list X) : option (list X) :=
    match fuel with
    | 0 => None
    | S n => if ri_neq first last then transform op n (ri_incr first) last (out ++ [op first]) else Some out
    end.
  (** std::inner_product(first,last,begin(r2),init,op1,op2), op1(init,op2(a,b)); the second range is not checked *)
  Fixpoint inner_product (op : X -> Z -> Z -> X) (fuel : nat) (first last first2 : Z) (init : X) : option X :=
    match fuel with
    | 0 => None
    | S n => if ri_neq first last then inner_product op n (ri_incr first) last (ri_incr first2) (op init first first2) else Some init
    end.
End Loops.
