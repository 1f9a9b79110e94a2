(** RangeProps.v -- the properties C46 and C47 of Range.  Statements only; the lemmas are in
    RangeProofs.v. *)
From Verif Require Import Base RangeModel RangeSpec RangeProofs.

(** ** C46: for an arbitrary loop body (which may throw) *)
Theorem C46_range_for_visits_all :
  forall (S : Type) (body : Z -> M S unit) (a b : Z) (fuel : nat) (s : S), is_size_t a -> is_size_t b ->
  Z.to_nat (r_size (range2 a b)) < fuel ->
  range_for fuel (range2 a b) body s =
    each body (map (r_index (range2 a b)) (counting 0 (Z.to_nat (r_size (range2 a b))))) s /\
  ((a <= b)%Z -> r_size (range2 a b) = (b - a)%Z /\
     map (r_index (range2 a b)) (counting 0 (Z.to_nat (r_size (range2 a b)))) = counting a (Z.to_nat (b - a))).
Proof. exact @range_for_each. Qed.
Print Assumptions C46_range_for_visits_all.
(** range(n) is 0, ..., n-1, with stride 1. *)
Theorem C46_range_from_zero :
  forall (S : Type) (body : Z -> M S unit) (n : Z) (fuel : nat) (s : S), is_size_t n -> Z.to_nat n < fuel ->
  range_for fuel (range1 n) body s = each body (counting 0 (Z.to_nat n)) s /\
  r_size (range1 n) = n /\ r_stride (range1 n) = 1%Z /\ (forall i, (0 <= i < n)%Z -> r_index (range1 n) i = i).
Proof. exact @range_from_zero. Qed.
Print Assumptions C46_range_from_zero.
Example C46_example :
  is_size_t 3 /\ is_size_t 7 /\
  range_for 10 (range2 3 7) (fun i l => Ret tt (l ++ [i])) [] = Ret tt [3; 4; 5; 6]%Z /\
  range_for 10 (range1 3) (fun i l => Ret tt (l ++ [i])) [] = Ret tt [0; 1; 2]%Z.
Proof. unfold is_size_t. split; [lia|]. split; [lia|]. split; vm_compute; reflexivity. Qed.

(** ** C47: intended statement: for b < a the range is empty.  False for all of them: the size wraps
    and the loop counts up through 2^64-1 and 0 to b. *)
Theorem C47_reversed_range_refuted :
  forall a b : Z, is_size_t a -> is_size_t b -> (b < a)%Z ->
  r_size (range2 a b) = (2 ^ 64 - (a - b))%Z /\ (0 < r_size (range2 a b))%Z /\
  (forall fuel, Z.to_nat (r_size (range2 a b)) < fuel ->
     exists n, range_for fuel (range2 a b) (fun _ s => Ret tt (s + 1)%Z) 0%Z = Ret tt n /\ n = r_size (range2 a b)).
Proof. exact reversed_range. Qed.
Print Assumptions C47_reversed_range_refuted.
Theorem C47_trivial_range_partial :
  forall (a : Z) (S : Type) (fuel : nat) (body : Z -> M S unit) (s : S),
  r_size (range2 a a) = 0%Z /\ range_for (Datatypes.S fuel) (range2 a a) body s = Ret tt s.
Proof. exact trivial_range. Qed.
Print Assumptions C47_trivial_range_partial.
Example C47_witness :
  range_for 9 (range2 (2 ^ 64 - 2) 3) (fun i l => Ret tt (l ++ [i])) [] = Ret tt [2 ^ 64 - 2; 2 ^ 64 - 1; 0; 1; 2]%Z.
Proof. vm_compute. reflexivity. Qed.
