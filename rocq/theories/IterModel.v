(** IterModel.v -- model of IteratorFacade, include/iterator.hpp:58-114, over an arbitrary core (the
    functions reached through IteratorCoreAccess, 47-55).  Definitions only.  ptrdiff_t values are
    integers in [-2^63,2^63); negating the smallest one is undefined. *)
From Verif Require Import Base.

Record core (I Ref : Type) := mkCore {
  c_equal : I -> I -> bool;
  c_distance_to : I -> I -> Z;
  c_advance : I -> Z -> I;
  c_increment : I -> I;            (* forward iterators *)
  c_dereference : I -> Ref
}.
Arguments c_equal {I Ref}. Arguments c_distance_to {I Ref}. Arguments c_advance {I Ref}.
Arguments c_increment {I Ref}. Arguments c_dereference {I Ref}.

Definition neg_diff (n : Z) (S : Type) : M S Z := fun s =>
  if (n =? - 2 ^ 63)%Z then Ub UbOverflow else Ret (- n)%Z s.

Section Facade.
  Context {I Ref : Type} (c : core I Ref).
  (** iterator.hpp:75-80 *)
  Definition f_eq (a b : I) : bool := c_equal c a b.
  Definition f_ne (a b : I) : bool := negb (c_equal c a b).
  Definition f_lt (a b : I) : bool := (0 <? c_distance_to c a b)%Z.
  Definition f_le (a b : I) : bool := (0 <=? c_distance_to c a b)%Z.
  Definition f_gt (a b : I) : bool := (c_distance_to c a b <? 0)%Z.
  Definition f_ge (a b : I) : bool := (c_distance_to c a b <=? 0)%Z.
  (** 81: operator-(other) *)
  Definition f_diff (a b : I) : M unit Z := neg_diff (c_distance_to c a b) unit.
  (** 82-83 *)
  Definition f_plus (a : I) (n : Z) : M unit I := ret (c_advance c a n).
  Definition f_minus (a : I) (n : Z) : M unit I := (m <- neg_diff n unit ;; ret (c_advance c a m))%M.
  (** 84-87: the state is the iterator itself *)
  Definition f_plus_assign (n : Z) : M I unit := (a <- getS ;; putS (c_advance c a n))%M.
  Definition f_minus_assign (n : Z) : M I unit := (m <- neg_diff n I ;; a <- getS ;; putS (c_advance c a m))%M.
  Definition f_incr : M I unit := (a <- getS ;; putS (c_advance c a 1))%M.
  Definition f_decr : M I unit := (a <- getS ;; putS (c_advance c a (-1)))%M.
  (** 88-89: the address of what dereference returns *)
  Definition f_star (a : I) : Ref := c_dereference c a.
  Definition f_arrow (a : I) : Ref := c_dereference c a.

  (** the forward facade, 110-111: ++it returns the iterator, it++ the old value *)
  Definition ff_incr : M I unit := (a <- getS ;; putS (c_increment c a))%M.
  Definition ff_post_incr : M I I := (r <- getS ;; a <- getS ;; putS (c_increment c a) ;;; ret r)%M.
End Facade.

(** PairIterator, iterator.hpp:116-141.  Iterators of the same type; operator== and += of the components are those
    of a facade.  Not modelled: distance_to (declared, never defined), dereference (142-143, returns a pair of
    the elements as a pair of pointers to iterators and does not compile), operator<<. *)
Section Pair.
  Context {I1 I2 R1 R2 : Type} (c1 : core I1 R1) (c2 : core I2 R2).
  Record pair_it := mkPair { p_iter1 : I1; p_iter2 : I2 }.
  (** 138-139 *)
  Definition p_equal (p q : pair_it) : bool := f_eq c1 (p_iter1 p) (p_iter1 q) && f_eq c2 (p_iter2 p) (p_iter2 q).
  (** 140-141 *)
  Definition p_advance (k : Z) : M pair_it unit := fun p =>
    match f_plus_assign c1 k (p_iter1 p) with
    | Ret _ a => match f_plus_assign c2 k (p_iter2 p) with
                 | Ret _ b => Ret tt (mkPair a b)
                 | Exc e b => Exc e (mkPair a b)
                 | Ub r => Ub r | Abort => Abort | Fuel => Fuel
                 end
    | Exc e a => Exc e (mkPair a (p_iter2 p))
    | Ub r => Ub r | Abort => Abort | Fuel => Fuel
    end.
  Fixpoint p_advances (ks : list Z) : M pair_it unit :=
    match ks with [] => ret tt | k :: ks' => (p_advance k ;;; p_advances ks')%M end.
End Pair.
Arguments pair_it : clear implicits.
