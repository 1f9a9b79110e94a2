(** CleanModel.v -- model of HELPER_CLEAN_TEST_VECTOR, include/test.hpp:599-607.  Definitions only.

    A vector of pointers to objects made by new: NULL is [None].  [cl_alive] says which objects have been
    made and not yet deleted.  Destructors neither throw nor touch the vector. *)
From Verif Require Import Base.
Local Open Scope monad_scope.

Record clst := mkCl { cl_alive : nat -> bool; cl_vec : list (option nat) }.
(** delete p *)
Definition cl_delete (p : nat) : M clst unit := fun s =>
  if cl_alive s p then Ret tt (mkCl (set_var (cl_alive s) p false) (cl_vec s)) else Ub UbDoubleFree.
Definition cl_at (i : nat) : M clst (option nat) := fun s =>
  match nth_error (cl_vec s) i with Some p => Ret p s | None => Ub UbOutOfBounds end.
Definition cl_set (i : nat) (p : option nat) : M clst unit := fun s => Ret tt (mkCl (cl_alive s) (upd i p (cl_vec s))).
(** 603-605 *)
Definition clean_one (i : nat) : M clst unit :=
  p <- cl_at i ;;
  match p with
  | Some a => q <- cl_at i ;; (match q with Some b => cl_delete b | None => ret tt end) ;;; cl_set i None
  | None => ret tt
  end.
(** 602: the size of the vector does not change in the loop *)
Fixpoint clean_from (i n : nat) : M clst unit :=
  match n with O => ret tt | S m => clean_one i ;;; clean_from (S i) m end.
Definition HELPER_CLEAN_TEST_VECTOR : M clst unit := fun s => clean_from 0 (length (cl_vec s)) s.
