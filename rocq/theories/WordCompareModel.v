(** WordCompareModel.v -- the six comparisons of binary words and <=>: include/binary_word.hpp:91, 107, 138-145.  Definitions only.

    - operator< is the member of BinaryWord (word_less, WordModel.v): for two words it is a better match than anything for
      std::vector<bool>, to which words would have to be converted.
    - The other operators are those of the base class std::vector<bool> [vector.syn]: operator== and operator<=>; !=, >, <= and >= are
      rewritten in terms of these two [over.match.oper].
    - A word compared with a std::vector<bool> is compared with the operators of the latter, < included: the member takes no vector. *)
From Verif Require Import Base StreamModel WordModel.
Open Scope nat_scope.

(** std::lexicographical_compare_three_way [alg.three.way]; the elements are bool *)
Fixpoint three_way_loop (fuel i : nat) (a b : word) : res unit comparison :=
  match fuel with
  | O => Fuel
  | S fuel' =>
      if (negb (i =? length a) && negb (i =? length b))%nat then
        bit a i (fun x => bit b i (fun y =>
          if Bool.eqb x y then three_way_loop fuel' (S i) a b else Ret (if y then Lt else Gt) tt))
      else Ret (if negb (i =? length a) then Gt else if negb (i =? length b) then Lt else Eq) tt
  end.
Definition three_way (a b : word) : res unit comparison := three_way_loop (S (length a)) 0 a b.
(** std::equal after a comparison of the sizes *)
Fixpoint equal_loop (fuel i : nat) (a b : word) : res unit bool :=
  match fuel with
  | O => Fuel
  | S fuel' =>
      if i =? length a then Ret true tt
      else bit a i (fun x => bit b i (fun y => if Bool.eqb x y then equal_loop fuel' (S i) a b else Ret false tt))
  end.
Definition vector_equal (a b : word) : res unit bool :=
  if length a =? length b then equal_loop (S (length a)) 0 a b else Ret false tt.

Inductive operator := OLess | OGreater | OLessEq | OGreaterEq | OEqual | ONotEqual.
Inductive operand := AWordBW (w : word) | AVector (w : word).     (* BinaryWord, std::vector<bool> *)
Definition bits (a : operand) : word := match a with AWordBW w | AVector w => w end.
Definition rmap {A B} (f : A -> B) (r : res unit A) : res unit B :=
  match r with Ret a s => Ret (f a) s | Exc e s => Exc e s | Ub u => Ub u | Abort => Abort | Fuel => Fuel end.
Definition apply_operator (o : operator) (a b : operand) : res unit bool :=
  match o, a, b with
  | OLess, AWordBW v, AWordBW w => word_less v w
  | OLess, _, _ => rmap (fun c => match c with Lt => true | _ => false end) (three_way (bits a) (bits b))
  | OGreater, _, _ => rmap (fun c => match c with Gt => true | _ => false end) (three_way (bits a) (bits b))
  | OLessEq, _, _ => rmap (fun c => match c with Gt => false | _ => true end) (three_way (bits a) (bits b))
  | OGreaterEq, _, _ => rmap (fun c => match c with Lt => false | _ => true end) (three_way (bits a) (bits b))
  | OEqual, _, _ => vector_equal (bits a) (bits b)
  | ONotEqual, _, _ => rmap negb (vector_equal (bits a) (bits b))
  end.
