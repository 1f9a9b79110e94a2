(** RevProps.v -- the property C161: iterators made with IteratorFacade, traversed backwards.  Statements only; the lemmas are in RevProofs.v. *)
From Verif Require Import Base IterModel IterSpec IterProofs AlgoModel AlgoSpec RevModel RevProofs.

(** C161: everything required of a random access iterator compiles for the reverse_iterator, even what does not for the iterator itself (C122);
    forward iterators have none. *)
Theorem C161_expressions :
  (forall e, In e required_random_access -> rev_compiles RandomAccess true e = true) /\
  (forall b, rev_compiles Forward b (OpStar, [It]) = false /\ rev_compiles Forward b (OpInc, [It]) = false).
Proof. exact (conj all_compile forward_none). Qed.
Print Assumptions C161_expressions.

(** C161: a loop from make_reverse_iterator(last) to make_reverse_iterator(first) visits the elements from the last to the first. *)
Theorem C161_backwards :
  forall (I Ref : Type) (c : core I Ref) (lo hi : Z) (pos : I -> Z), lawful c lo hi pos ->
  forall elem : Z -> Ref, (forall a, c_dereference c a = elem (pos a)) ->
  forall (first last : I) (fuel : nat), (pos first <= pos last)%Z -> (pos last - pos first < Z.of_nat fuel)%Z ->
  exists a, r_visit c fuel first last = Ret (List.rev (elements_between elem (pos first) (pos last))) a /\ pos a = pos first.
Proof. exact @visit_back_all. Qed.
Print Assumptions C161_backwards.

(** C161: the operators of the reverse_iterator are those of the reversed sequence: it is the place before the base that it refers to, and it
    moves and compares the other way round. *)
Theorem C161_operators :
  forall (I Ref : Type) (c : core I Ref) (lo hi : Z) (pos : I -> Z), lawful c lo hi pos ->
  forall elem : Z -> Ref, (forall a, c_dereference c a = elem (pos a)) ->
  forall (a b : I) (n : Z),
  ((lo < pos a)%Z -> r_star c a = Ret (elem (pos a - 1)%Z) tt /\
     exists a', r_incr c a = Ret tt a' /\ r_post_incr c a = Ret a a' /\ pos a' = (pos a - 1)%Z) /\
  ((pos a < hi)%Z -> exists a', r_decr c a = Ret tt a' /\ r_post_decr c a = Ret a a' /\ pos a' = (pos a + 1)%Z) /\
  ((lo <= pos a - n <= hi)%Z -> exists a', r_plus c a n tt = Ret a' tt /\ r_plus_assign c n a = Ret tt a' /\ pos a' = (pos a - n)%Z) /\
  ((lo <= pos a + n <= hi)%Z -> exists a', r_minus c a n tt = Ret a' tt /\ r_minus_assign c n a = Ret tt a' /\ pos a' = (pos a + n)%Z) /\
  ((lo < pos a - n <= hi)%Z -> r_index c a n = Ret (elem (pos a - n - 1)%Z) tt) /\
  r_diff c a b tt = Ret (pos b - pos a)%Z tt /\
  ((r_eq c a b = true <-> pos a = pos b) /\ (r_ne c a b = true <-> pos a <> pos b) /\
   (r_lt c a b = true <-> pos b < pos a)%Z /\ (r_gt c a b = true <-> pos a < pos b)%Z /\
   (r_le c a b = true <-> pos b <= pos a)%Z /\ (r_ge c a b = true <-> pos a <= pos b)%Z).
Proof. exact @operators. Qed.
Print Assumptions C161_operators.

Example C161_example :
  let i n := c_advance vec_core vec_begin n in
  lawful vec_core 0 9 (@proj1_sig Z _) /\ (forall a, c_dereference vec_core a = (100 + proj1_sig a)%Z) /\
  match r_visit vec_core 20 (i 2%Z) (i 6%Z) with Ret l _ => l = [105; 104; 103; 102]%Z | _ => False end /\
  r_index vec_core (i 6%Z) 3 = Ret 102%Z tt /\ r_diff vec_core (i 6%Z) (i 2%Z) tt = Ret (-4)%Z tt /\ r_lt vec_core (i 6%Z) (i 2%Z) = true.
Proof. cbv zeta. split; [exact vec_lawful|]. split; [reflexivity|]. vm_compute. repeat split. Qed.
Example C161_example_expressions :
  In (OpIndex, [It; Int]) required_random_access /\ rev_compiles RandomAccess true (OpIndex, [It; Int]) = true /\
  compiles RandomAccess true (OpIndex, [It; Int]) = false /\ rev_compiles RandomAccess true (OpIndex, [It; It]) = false /\
  rev_compiles RandomAccess false (OpArrow, [It]) = false.
Proof. simpl. repeat split. tauto. Qed.
