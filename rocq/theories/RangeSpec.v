(** RangeSpec.v *)
From Verif Require Import Base.

(** the body executed once for each element of the list, in order *)
Fixpoint each {S} (body : Z -> M S unit) (l : list Z) : M S unit :=
  match l with
  | [] => ret tt
  | i :: l' => (body i ;;; each body l')%M
  end.
(** a, a+1, ..., a+n-1 *)
Fixpoint counting (a : Z) (n : nat) : list Z :=
  match n with O => [] | S m => a :: counting (a + 1) m end.
Definition is_size_t (z : Z) : Prop := (0 <= z < 2 ^ 64)%Z.
