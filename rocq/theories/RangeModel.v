(** RangeModel.v -- model of include/range.hpp.  Definitions only.  size_t values are integers in
    [0,2^64); arithmetic on them wraps. *)
From Verif Require Import Base.

(** range.hpp:42-51 *)
Record range_t := mkRange { r_start : Z; r_stop : Z }.
Definition r_index (r : range_t) (i : Z) : Z := wrap64 (r_start r + i).
Definition r_size (r : range_t) : Z := wrap64 (r_stop r - r_start r).
Definition r_stride (r : range_t) : Z := 1%Z.
(** range.hpp:52-53 *)
Definition range1 (stop : Z) : range_t := mkRange 0 stop.
Definition range2 (start stop : Z) : range_t := mkRange start stop.

(** range.hpp:55-64 RangeIterator, begin, end *)
Definition ri_incr (i : Z) : Z := wrap64 (i + 1).
Definition ri_neq (i j : Z) : bool := negb (Z.eqb i j).
(** for(auto i : r) { body }; the body is an arbitrary computation *)
Fixpoint for_loop {S} (fuel : nat) (it last : Z) (body : Z -> M S unit) : M S unit := fun s =>
  match fuel with
  | O => Fuel
  | Datatypes.S fuel' =>
      if ri_neq it last then (body it ;;; for_loop fuel' (ri_incr it) last body)%M s else Ret tt s
  end.
Definition range_for {S} (fuel : nat) (r : range_t) (body : Z -> M S unit) : M S unit :=
  for_loop fuel (r_start r) (r_stop r) body.
