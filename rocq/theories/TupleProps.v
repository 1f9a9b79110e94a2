(** TupleProps.v -- properties C69 and C70 of include/tuple.hpp. *)
From Verif Require Import Base TupleModel TupleSpec TupleProofs.
From Coq Require Import Permutation ZArith.
Open Scope list_scope.

(** C69 (assigning to make_lpair/make_ltuple assigns every component). *)
Theorem C69_lpair_assigns : forall V (s : nat -> V) x y a b,
  x <> y -> assigned [x; y] [a; b] s (pair_assign (make_lpair x y) (a, b) s).
Proof. exact (fun V s x y a b => pair_assigned x y a b s). Qed.
(** whatever the order in which the standard library assigns the elements *)
Theorem C69_ltuple_assigns : forall V (s : nat -> V) order xs vs,
  NoDup xs -> length vs = length xs -> each_once order (length xs) ->
  assigned xs vs s (tuple_assign order (make_ltuple xs) vs s).
Proof. exact (fun V s order xs vs => tuple_assigned order xs vs s). Qed.
(** the right-hand side may be an lvalue tuple of other variables *)
Theorem C69_ltuple_from_ltuple : forall V (s : nat -> V) order xs ys,
  NoDup xs -> length ys = length xs -> each_once order (length xs) -> (forall z, In z xs -> ~ In z ys) ->
  assigned xs (map s ys) s (tuple_assign_refs order (make_ltuple xs) (make_ltuple ys) s).
Proof. exact (fun V s order xs ys => tuple_refs_assigned order xs ys s). Qed.
Definition demo_env (n : nat) : Z := (10 * Z.of_nat n)%Z.
Example C69_example :
  map (tuple_assign [2; 0; 1] (make_ltuple [4; 2; 7]) [1; 2; 3]%Z demo_env) [2; 3; 4; 7] = [2; 30; 1; 3]%Z /\
  each_once [2; 0; 1] (length [4; 2; 7]) /\ NoDup [4; 2; 7].
Proof.
  split; [reflexivity|]. split.
  - unfold each_once. cbn. apply perm_trans with [0; 2; 1]; [apply perm_swap|apply perm_skip, perm_swap].
  - repeat constructor; cbn; intuition discriminate.
Qed.
Example C69_example_pair : map (pair_assign (make_lpair 4 2) (1, 2)%Z demo_env) [2; 3; 4] = [2; 30; 1]%Z.
Proof. reflexivity. Qed.
Example C69_example_refs : map (tuple_assign_refs [1; 0] (make_ltuple [4; 2]) (make_ltuple [5; 6]) demo_env) [2; 4; 5] = [60; 50; 50]%Z.
Proof. reflexivity. Qed.
Print Assumptions C69_lpair_assigns.
Print Assumptions C69_ltuple_assigns.
Print Assumptions C69_ltuple_from_ltuple.
(** a pair from a pair of references, if the second one is not the variable assigned first *)
Theorem C69_lpair_from_lpair : forall V (s : nat -> V) x y u v,
  x <> y -> v <> x -> assigned [x; y] [s u; s v] s (pair_assign_refs (make_lpair x y) (make_lpair u v) s).
Proof. exact (fun V s x y u v => pair_refs_assigned x y u v s). Qed.
Example C69_example_lpair : map (pair_assign_refs (make_lpair 4 2) (make_lpair 2 5) demo_env) [2; 4; 5] = [50; 20; 50]%Z.
Proof. reflexivity. Qed.
Print Assumptions C69_lpair_from_lpair.

(** C70 (swapping through lvalue tuples):
      make_lpair(x,y)=make_lpair(y,x) exchanges x and y.
    Refuted: the references on the right are read after the first element has been assigned, so both
    variables end up with the old value of y, for all different variables; likewise with make_ltuple both
    end up equal, whatever the order of assignment. *)
Theorem C70_lpair_swap_refuted : forall V (s : nat -> V) x y,
  x <> y ->
  let s' := pair_assign_refs (make_lpair x y) (make_lpair y x) s in s' x = s y /\ s' y = s y.
Proof. exact (fun V s x y => lpair_swap x y s). Qed.
Theorem C70_ltuple_swap_refuted : forall V (s : nat -> V) order x y,
  x <> y -> each_once order 2 ->
  let s' := tuple_assign_refs order (make_ltuple [x; y]) (make_ltuple [y; x]) s in s' x = s' y.
Proof. exact (fun V s order x y => ltuple_swap order x y s). Qed.
(** with a pair of values on the right, make_lpair(x,y)=make_pair(y,x), the variables are exchanged *)
Theorem C70_make_pair_swap_partial : forall V (s : nat -> V) x y,
  x <> y -> assigned [x; y] [s y; s x] s (pair_assign (make_lpair x y) (s y, s x) s).
Proof. exact (fun V s x y => pair_assigned x y (s y) (s x) s). Qed.
Example C70_example : map (pair_assign_refs (make_lpair 1 2) (make_lpair 2 1) demo_env) [1; 2] = [20; 20]%Z.
Proof. reflexivity. Qed.
Example C70_example_values : map (pair_assign (make_lpair 1 2) (demo_env 2, demo_env 1) demo_env) [1; 2] = [20; 10]%Z.
Proof. reflexivity. Qed.
Print Assumptions C70_lpair_swap_refuted.
Print Assumptions C70_ltuple_swap_refuted.
Print Assumptions C70_make_pair_swap_partial.
