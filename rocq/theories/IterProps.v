(** IterProps.v -- the properties C48 of IteratorFacade and C81 of PairIterator.  Statements only; the lemmas are in
    IterProofs.v. *)
From Verif Require Import Base IterModel IterSpec IterProofs.

(** ** C48 *)
Theorem C48_facade_lawful :
  forall (I Ref : Type) (c : core I Ref) (lo hi : Z) (pos : I -> Z), lawful c lo hi pos ->
  (forall a b, (f_eq c a b = true <-> pos a = pos b) /\ (f_ne c a b = true <-> pos a <> pos b) /\
     (f_lt c a b = true <-> (pos a < pos b)%Z) /\ (f_le c a b = true <-> (pos a <= pos b)%Z) /\
     (f_gt c a b = true <-> (pos a > pos b)%Z) /\ (f_ge c a b = true <-> (pos a >= pos b)%Z) /\
     f_diff c a b tt = Ret (pos a - pos b)%Z tt) /\
  (forall a n, (lo <= pos a + n <= hi)%Z ->
     (exists a', f_plus c a n tt = Ret a' tt /\ pos a' = (pos a + n)%Z) /\
     (exists a', f_plus_assign c n a = Ret tt a' /\ pos a' = (pos a + n)%Z)) /\
  (forall a n, (lo <= pos a - n <= hi)%Z ->
     (exists a', f_minus c a n tt = Ret a' tt /\ pos a' = (pos a - n)%Z) /\
     (exists a', f_minus_assign c n a = Ret tt a' /\ pos a' = (pos a - n)%Z)) /\
  (forall a, (pos a < hi)%Z -> exists a', f_incr c a = Ret tt a' /\ pos a' = (pos a + 1)%Z) /\
  (forall a, (lo < pos a)%Z -> exists a', f_decr c a = Ret tt a' /\ pos a' = (pos a - 1)%Z) /\
  (forall a, f_star c a = c_dereference c a /\ f_arrow c a = f_star c a).
Proof. exact @facade_laws. Qed.
Print Assumptions C48_facade_lawful.

Theorem C48_facade_round_trips :
  forall (I Ref : Type) (c : core I Ref) (lo hi : Z) (pos : I -> Z), lawful c lo hi pos ->
  (forall a b, exists d a', f_diff c b a tt = Ret d tt /\ f_plus c a d tt = Ret a' tt /\ f_eq c a' b = true) /\
  (forall a n, (lo <= pos a + n <= hi)%Z ->
     exists a' a'', f_plus c a n tt = Ret a' tt /\ f_minus c a' n tt = Ret a'' tt /\ f_eq c a'' a = true) /\
  (forall a, (pos a < hi)%Z ->
     (exists a', ff_incr c a = Ret tt a' /\ pos a' = (pos a + 1)%Z) /\
     (exists a', ff_post_incr c a = Ret a a' /\ pos a' = (pos a + 1)%Z)).
Proof. exact @facade_round_trips. Qed.
Print Assumptions C48_facade_round_trips.

(** a core meeting the laws: ten positions *)
Example C48_example : lawful vec_core 0 9 (@proj1_sig Z _).
Proof. exact vec_lawful. Qed.
(** offsets whose negation does not fit are undefined *)
Example C48_overflow : forall a, f_minus vec_core a (- 2 ^ 63) tt = Ub UbOverflow.
Proof. exact (minus_overflow vec_core). Qed.

(** ** C81: a PairIterator moves its components in step.  After any advances within the ranges of both components, each has moved by
    the sum of the steps, and two iterators that started from the same one are equal iff their sums are. *)
Theorem C81_pair_in_step :
  forall (I1 I2 R1 R2 : Type) (c1 : core I1 R1) (c2 : core I2 R2) (lo1 hi1 lo2 hi2 : Z) (pos1 : I1 -> Z) (pos2 : I2 -> Z),
  lawful c1 lo1 hi1 pos1 -> lawful c2 lo2 hi2 pos2 ->
  forall (p : pair_it I1 I2) (ks ks' : list Z),
  stays_in lo1 hi1 (pos1 (p_iter1 p)) ks -> stays_in lo2 hi2 (pos2 (p_iter2 p)) ks ->
  stays_in lo1 hi1 (pos1 (p_iter1 p)) ks' -> stays_in lo2 hi2 (pos2 (p_iter2 p)) ks' ->
  exists q q', p_advances c1 c2 ks p = Ret tt q /\ p_advances c1 c2 ks' p = Ret tt q' /\
    pos1 (p_iter1 q) = (pos1 (p_iter1 p) + total ks)%Z /\ pos2 (p_iter2 q) = (pos2 (p_iter2 p) + total ks)%Z /\
    (p_equal c1 c2 q q' = true <-> total ks = total ks').
Proof. exact @pair_in_step. Qed.
Print Assumptions C81_pair_in_step.
(** PairIterators are equal iff both components are. *)
Theorem C81_pair_equal :
  forall (I1 I2 R1 R2 : Type) (c1 : core I1 R1) (c2 : core I2 R2) (lo1 hi1 lo2 hi2 : Z) (pos1 : I1 -> Z) (pos2 : I2 -> Z),
  lawful c1 lo1 hi1 pos1 -> lawful c2 lo2 hi2 pos2 -> forall p q : pair_it I1 I2,
  p_equal c1 c2 p q = true <-> pos1 (p_iter1 p) = pos1 (p_iter1 q) /\ pos2 (p_iter2 p) = pos2 (p_iter2 q).
Proof. exact @pair_equal. Qed.
Print Assumptions C81_pair_equal.
Example C81_example :
  let p := mkPair (c_advance vec_core vec_begin 2) (c_advance vec_core vec_begin 5) in
  stays_in 0 9 2 [3; -4; 1]%Z /\ stays_in 0 9 5 [3; -4; 1]%Z /\
  match p_advances vec_core vec_core [3; -4; 1]%Z p with
  | Ret _ q => proj1_sig (p_iter1 q) = 2%Z /\ proj1_sig (p_iter2 q) = 5%Z /\ p_equal vec_core vec_core p q = true
  | _ => False
  end.
Proof. simpl. repeat split; lia. Qed.
