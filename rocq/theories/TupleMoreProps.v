(** TupleMoreProps.v -- the properties C134 and C135 of include/tuple.hpp.  Statements only; the lemmas are in TupleMoreProofs.v. *)
From Verif Require Import Base TupleModel TupleSpec TupleMoreModel TupleMoreSpec TupleMoreProofs.
From Coq Require Import Permutation ZArith.
Open Scope list_scope.
Open Scope nat_scope.

(** ** C134: get_first(t), ..., get_fifth(t) are the elements of t *)
(** the k-th function gives the object that is the k-th element, or that it refers to, and is there if the tuple has so many elements *)
Theorem C134_object :
  forall k g t c e, nth_error getters k = Some g -> nth_error t k = Some e -> exists c', g t c = Some (object e, c').
Proof. exact get_object. Qed.
Print Assumptions C134_object.
Theorem C134_exists :
  forall k g t c, nth_error getters k = Some g -> (g t c = None <-> length t <= k).
Proof. exact get_none. Qed.
Print Assumptions C134_exists.
(** it can be assigned to exactly if the element may be written, and then nothing else changes *)
Theorem C134_assignable :
  forall V k g t c e r (v : V), nth_error getters k = Some g -> nth_error t k = Some e -> g t c = Some r ->
  (assign r v <> None <-> writable e c).
Proof. exact @get_assign. Qed.
Print Assumptions C134_assignable.
Theorem C134_assigns :
  forall V k g t c e r (v : V) f (m : memory), nth_error getters k = Some g -> nth_error t k = Some e -> g t c = Some r ->
  assign r v = Some f -> m (object e) <> None ->
  exists m', f m = Ret tt m' /\ m' (object e) = Some v /\ forall b, b <> object e -> m' b = m b.
Proof. exact @get_assign_effect. Qed.
Print Assumptions C134_assigns.
(** auto x=get_k(t) has the value of the element, which is moved from only if the tuple is an rvalue and has the object to give away *)
Theorem C134_moves :
  forall V k g t c e r (left v : V) (m : memory), nth_error getters k = Some g -> nth_error t k = Some e -> g t c = Some r ->
  m (object e) = Some v ->
  exists m', initialise r left m = Ret v m' /\ (forall b, b <> object e -> m' b = m b) /\
  (given_away e c -> m' (object e) = Some left) /\ (~ given_away e c -> m' (object e) = Some v).
Proof. exact @get_initialise. Qed.
Print Assumptions C134_moves.
(** a reference obtained from a tuple that is destroyed, a temporary for example, can be used exactly if the element is itself a reference *)
Theorem C134_lifetime :
  forall V k g t c e r (v : V) (m : memory), nth_error getters k = Some g -> nth_error t k = Some e -> g t c = Some r ->
  (forall e', In e' t -> is_own e' -> e' <> e -> object e' <> object e) -> m (object e) = Some v ->
  (is_own e -> read r (destroy t m) = Ub UbDangling) /\ (~ is_own e -> read r (destroy t m) = Ret v (destroy t m)).
Proof. exact @get_lifetime. Qed.
Print Assumptions C134_lifetime.

(** a tuple with an object of its own and a reference to another; get_second(std::move(t)) does not move from what t refers to *)
Example C134_example :
  let t := [Own 1; LvalueRef 7; RvalueRef 8] in
  let m := fun a => if a <? 9 then Some (Z.of_nat a) else None in
  get_first t Rvalue = Some (1, Rvalue) /\ get_second t Rvalue = Some (7, Lvalue) /\ get_third t Rvalue = Some (8, Rvalue) /\
  get_third t Lvalue = Some (8, Lvalue) /\ get_first t ConstLvalue = Some (1, ConstLvalue) /\ get_second t ConstLvalue = Some (7, Lvalue) /\
  get_fourth t Lvalue = None /\
  read (1, Rvalue) (destroy t m) = Ub UbDangling /\ (exists m', read (7, Lvalue) (destroy t m) = Ret 7%Z m') /\
  (exists m', initialise (1, Rvalue) 0%Z m = Ret 1%Z m' /\ m' 1 = Some 0%Z).
Proof. cbv zeta. repeat (split; [reflexivity|]). split; [eexists; reflexivity|]. eexists. split; reflexivity. Qed.

(** ** C135
    intended: if the assignment of an element throws, make_ltuple(xs...)=vs leaves the variables as they were:
      tuple_assign_throwing fails order (make_ltuple xs) vs s = Exc e s' -> (forall j x e w, fails j = Some (e, w) -> nth_error xs j = Some x ->
      w = s x) -> forall z, s' z = s z *)
(** what happens: the elements assigned before keep their new values, those after their old ones *)
Theorem C135_stops_partial :
  forall V (fails : nat -> option (exn * V)) xs vs before i after e w x s,
  NoDup xs -> length vs = length xs -> each_once (before ++ i :: after) (length xs) ->
  (forall j, In j before -> fails j = None) -> fails i = Some (e, w) -> nth_error xs i = Some x ->
  exists s', tuple_assign_throwing fails (before ++ i :: after) (make_ltuple xs) vs s = Exc e s' /\ s' x = w /\
  (forall j y v, In j before -> nth_error xs j = Some y -> nth_error vs j = Some v -> s' y = v) /\
  (forall j y, In j after -> nth_error xs j = Some y -> s' y = s y) /\
  (forall z, ~ In z xs -> s' z = s z).
Proof. exact @throwing_stops. Qed.
Print Assumptions C135_stops_partial.
(** if none throws, it is the assignment of C69 *)
Theorem C135_quiet_partial :
  forall V (fails : nat -> option (exn * V)) l t order, (forall i, In i order -> fails i = None) -> forall s,
  tuple_assign_throwing fails order l t s = Ret tt (tuple_assign order l t s).
Proof. exact @throwing_quiet. Qed.
Print Assumptions C135_quiet_partial.
(** the same for a pair, whose first element is assigned first *)
Theorem C135_pair_partial :
  forall V (fails : nat -> option (exn * V)) x y a b s, x <> y ->
  (fails 0 = None -> fails 1 = None -> pair_assign_throwing fails (make_lpair x y) (a, b) s = Ret tt (pair_assign (make_lpair x y) (a, b) s)) /\
  (forall e w, fails 0 = Some (e, w) ->
    exists s', pair_assign_throwing fails (make_lpair x y) (a, b) s = Exc e s' /\ s' x = w /\ (forall z, z <> x -> s' z = s z)) /\
  (forall e w, fails 0 = None -> fails 1 = Some (e, w) ->
    exists s', pair_assign_throwing fails (make_lpair x y) (a, b) s = Exc e s' /\ s' x = a /\ s' y = w /\ (forall z, z <> x -> z <> y -> s' z = s z)).
Proof. exact @pair_throwing. Qed.
Print Assumptions C135_pair_partial.
(** the first assignment stays, in whatever order, also if the one that throws leaves its variable alone *)
Theorem C135_tuple_refuted :
  forall V (fails : nat -> option (exn * V)) xs vs i j after e x y v s,
  NoDup xs -> length vs = length xs -> each_once (i :: j :: after) (length xs) ->
  nth_error xs i = Some x -> nth_error vs i = Some v -> nth_error xs j = Some y ->
  fails i = None -> fails j = Some (e, s y) -> v <> s x ->
  exists s', tuple_assign_throwing fails (i :: j :: after) (make_ltuple xs) vs s = Exc e s' /\ s' x = v /\ s' x <> s x /\
  (forall z, z <> x -> s' z = s z).
Proof. exact @throwing_second. Qed.
Print Assumptions C135_tuple_refuted.
Theorem C135_pair_refuted :
  forall V (fails : nat -> option (exn * V)) x y a b e s, x <> y -> fails 0 = None -> fails 1 = Some (e, s y) -> a <> s x ->
  exists s', pair_assign_throwing fails (make_lpair x y) (a, b) s = Exc e s' /\ s' x = a /\ s' x <> s x /\ (forall z, z <> x -> s' z = s z).
Proof. exact @pair_throwing_second. Qed.
Print Assumptions C135_pair_refuted.

Example C135_example :
  let fails i := if i =? 2 then Some (EBadAlloc, 50%Z) else None in
  let s n := (10 * Z.of_nat n)%Z in
  exists s', tuple_assign_throwing fails [1; 2; 0] (make_ltuple [3; 4; 5]) [1; 2; 3]%Z s = Exc EBadAlloc s' /\
  map s' [3; 4; 5; 6] = [30; 2; 50; 60]%Z /\ each_once ([1] ++ 2 :: [0]) (length [3; 4; 5]).
Proof.
  cbv zeta. eexists. split; [reflexivity|]. split; [reflexivity|]. unfold each_once. cbn.
  apply perm_trans with [1; 0; 2]; [apply perm_skip, perm_swap|apply perm_swap].
Qed.
Example C135_pair_example :
  let fails i := if i =? 1 then Some (EBadAlloc, 50%Z) else None in
  let s n := (10 * Z.of_nat n)%Z in
  exists s', pair_assign_throwing fails (make_lpair 3 4) (1%Z, 2%Z) s = Exc EBadAlloc s' /\ map s' [3; 4; 5] = [1; 50; 50]%Z.
Proof. cbv zeta. eexists. split; reflexivity. Qed.
