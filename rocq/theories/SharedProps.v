(** SharedProps.v -- properties C19 and C20 of class SharedArray (include/array.hpp 223-247). *)
From Verif Require Import Base SharedModel SharedSpec SharedProofs.
Open Scope nat_scope.

(** C19 (copies share elements and the count tracks the sharers; no destruction).  [shexec] runs the program on
    variables that refer to objects; it gives no result if the program is ill formed or destroys a variable. *)
Theorem C19_shared_history : forall V (dini : option V) n p l m,
  (Z.of_nat n < 2 ^ 64)%Z -> shexec dini (shinit n) p = Some (l, m) ->
  exists s', srun dini p (sinit n) = Ret l s' /\
    (forall a o k, obj_of m a = Some (o, k) -> seen_elems s' a = Some k /\ seen_count s' a = Some (Z.of_nat (sharers m o))) /\
    live_arrays s' = live_objects m /\ live_counts s' = live_objects m.
Proof. exact (fun V dini => shared_history dini). Qed.
Definition demo_shared : list (sop Z) :=
  [SList 0 [1; 2; 3]%Z; SCopy 1 0; SNew 2 2; SSet 1 1 (TVal 9%Z); SElems 0; SValue 3 2 (TElem 0 1); SElems 3;
   SAssign 0 3; SElems 0; SElems 1; SAssign 1 2; SSize 1; SSet 1 0 (TVal 5%Z); SGet 2 0].
Example C19_example :
  shexec None (shinit 4) demo_shared =
  Some ([SDone; SDone; SDone; SDone; SVals [1; 9; 3]; SDone; SVals [9; 9]; SDone; SVals [9; 9]; SVals [1; 9; 3]; SDone; SNat 2; SDone; SVal 5]%Z,
        mkSh [Some 2; Some 1; Some 1; Some 2] [[Some 1; Some 9; Some 3]; [Some 5; None]; [Some 9; Some 9]]%Z) /\
  live_objects (mkSh [Some 2; Some 1; Some 1; Some 2] [[Some 1; Some 9; Some 3]; [Some 5; None]; [Some 9; Some 9]]%Z) = 2.
Proof. split; reflexivity. Qed.
Print Assumptions C19_shared_history.

(** C20 (destruction decrements the count and frees the storage exactly when no other copy remains).
    Refuted: the destructor decrements the pointer instead of the count and reads through it, so that in every
    state destroying any SharedArray is undefined behaviour; *)
Theorem C20_destruction_refuted : forall V (s : sst V) a z, seen_count s a = Some z -> s_destroy a s = Ub UbOutOfBounds.
Proof. exact (fun V s a z => destroy_ub s a z). Qed.
(** no history without undefined behaviour ever destroys one; *)
Theorem C20_history_refuted : forall V (dini : option V) n p l m a,
  (Z.of_nat n < 2 ^ 64)%Z -> shexec dini (shinit n) p = Some (l, m) -> ref_of m a <> None ->
  srun dini (p ++ [SDestroy a]) (sinit n) = Ub UbOutOfBounds.
Proof. exact (fun V dini n p l m a => shared_destroy dini n p l m a). Qed.
(** and so is an element assignment that throws inside the initializer list constructor, which has delegated. *)
Theorem C20_failing_constructor_refuted : forall V (s : sst V) d l j,
  nth_error (svars s) d = Some SDead -> j < length l -> scd s = Some (2 + j) -> s_list None d l s = Ub UbOutOfBounds.
Proof. exact (fun V s d l j H1 H2 H3 => failing_list None s d l j H1 eq_refl H2 H3). Qed.
Example C20_example : srun None (demo_shared ++ [SDestroy 3]) (sinit 4) = Ub UbOutOfBounds.
Proof. vm_compute. reflexivity. Qed.
Example C20_example_count : exists s', srun None demo_shared (sinit 4) = Ret [SDone; SDone; SDone; SDone; SVals [1; 9; 3]; SDone; SVals [9; 9]; SDone; SVals [9; 9]; SVals [1; 9; 3]; SDone; SNat 2; SDone; SVal 5]%Z s' /\ seen_count s' 3 = Some 2%Z.
Proof. eexists. split; [vm_compute; reflexivity|]. reflexivity. Qed.
Print Assumptions C20_destruction_refuted.
Print Assumptions C20_history_refuted.
Print Assumptions C20_failing_constructor_refuted.
