(** AlgoSpec.v -- the expressions that the standard requires of an iterator of each category ([forward.iterators],
    [random.access.iterators] with the tables of the weaker categories), independently of iterator.hpp, and what the algorithms
    should compute on positions. *)
From Verif Require Import Base AlgoModel.

Definition required_forward : list expr :=
  [(OpStar, [It]); (OpArrow, [It]); (OpInc, [It]); (OpInc, [It; Int]); (OpEq, [It; It]); (OpNe, [It; It])].
Definition required_bidirectional : list expr := required_forward ++ [(OpDec, [It]); (OpDec, [It; Int])].
Definition required_random_access : list expr :=
  required_bidirectional ++
  [(OpPlusAssign, [It; Int]); (OpPlus, [It; Int]); (OpPlus, [Int; It]); (OpMinusAssign, [It; Int]); (OpMinus, [It; Int]);
   (OpMinus, [It; It]); (OpIndex, [It; Int]); (OpLt, [It; It]); (OpGt, [It; It]); (OpLe, [It; It]); (OpGe, [It; It])].
Definition required (t : tag) : list expr := match t with RandomAccess => required_random_access | Forward => required_forward end.

(** it++, it--, n+it and it[n] *)
Definition missing : list expr := [(OpInc, [It; Int]); (OpDec, [It; Int]); (OpPlus, [Int; It]); (OpIndex, [It; Int])].

(** the elements at the positions from a to b-1 *)
Definition elements_between {Ref} (elem : Z -> Ref) (a b : Z) : list Ref :=
  map (fun i => elem (a + Z.of_nat i)%Z) (seq 0 (Z.to_nat (b - a))).
