(** LruRecProps.v -- the property C111: an LRU cache in front of a recursive function.  Statements only;
    the lemmas are in LruRecProofs.v. *)
From Verif Require Import Base StdOrd LruModel LruPerfSpec LruRecSpec LruRecProofs.

(** ** C111 *)
(** Whatever the function and the size of the cache: no call of the cache is rejected or undefined, and an
    answer is what the function yields without the cache. *)
Theorem C111_never_wrong :
  forall (L V : Type) (ltb : L -> L -> bool), SWO ltb ->
  forall F : L -> body L V, (forall a b, eqvb ltb a b = true -> F a = F b) ->
  forall fuel m ls, (0 < m < 2 ^ 64)%Z ->
  match requests ltb F fuel m ls with
  | Session os log =>
      Forall2 (fun l o => yields F (F l) o) ls os /\ Forall (fun e => yields F (F (fst e)) (snd e)) log
  | SSpent => True
  | SBroken => False
  end.
Proof. exact @never_wrong. Qed.
Print Assumptions C111_never_wrong.

(** If the function ends without the cache, it ends with it. *)
Theorem C111_ends :
  forall (L V : Type) (ltb : L -> L -> bool), SWO ltb ->
  forall F : L -> body L V, (forall a b, eqvb ltb a b = true -> F a = F b) ->
  forall m ls os, (0 < m < 2 ^ 64)%Z -> Forall2 (fun l o => yields F (F l) o) ls os ->
  exists fuel0, forall fuel, fuel0 <= fuel -> exists log, requests ltb F fuel m ls = Session os log.
Proof. exact @ends. Qed.
Print Assumptions C111_ends.

(** A cache with room for all labels evaluated: none of them is evaluated to a value twice. *)
Theorem C111_evaluates_once :
  forall (L V : Type) (ltb : L -> L -> bool), SWO ltb ->
  forall F : L -> body L V, (forall a b, eqvb ltb a b = true -> F a = F b) ->
  forall fuel m ls os log, (0 < m < 2 ^ 64)%Z ->
  requests ltb F fuel m ls = Session os log ->
  (Z.of_nat (different ltb (valued log)) <= m)%Z -> all_different ltb (valued log).
Proof. exact @evaluates_once. Qed.
Print Assumptions C111_evaluates_once.

(** Fibonacci numbers, with 100 not allowed *)
Definition fib (n : nat) : body nat nat :=
  match n with
  | 0 => Finish (OVal 0)
  | 1 => Finish (OVal 1)
  | S (S k) =>
      if Nat.eqb n 100 then Finish (OExc ERuntime)
      else Call (S k) (fun a => Call k (fun b =>
             match a, b with
             | OVal x, OVal y => Finish (OVal (x + y))
             | OExc e, _ => Finish (OExc e)
             | _, OExc e => Finish (OExc e)
             end))
  end.
Example C111_example :
  requests Nat.ltb fib 20 10 [7; 8; 100; 7] =
    Session [OVal 13; OVal 21; OExc ERuntime; OVal 13]
            [(1, OVal 1); (0, OVal 0); (2, OVal 1); (3, OVal 2); (4, OVal 3); (5, OVal 5); (6, OVal 8); (7, OVal 13);
             (8, OVal 21); (100, OExc ERuntime)] /\
  requests Nat.ltb fib 20 1 [4] =
    Session [OVal 3]
            [(1, OVal 1); (0, OVal 0); (2, OVal 1); (1, OVal 1); (3, OVal 2);
             (1, OVal 1); (0, OVal 0); (2, OVal 1); (4, OVal 3)].
Proof. vm_compute. split; reflexivity. Qed.
(** a failed evaluation is not kept: 100 is evaluated again; and an exception may be handled *)
Example C111_example_handled :
  let F n := if Nat.eqb n 1 then Finish (OExc EOutOfRange)
             else Call 1 (fun o => match o with OVal v => Finish (OVal v) | OExc _ => Call 1 (fun _ => Finish (OVal (n * n))) end) in
  requests Nat.ltb F 5 3 [5; 1; 5] =
    Session [OVal 25; OExc EOutOfRange; OVal 25]
            [(1, OExc EOutOfRange); (1, OExc EOutOfRange); (5, OVal 25); (1, OExc EOutOfRange)].
Proof. vm_compute. reflexivity. Qed.
(** a function that calls itself with the same label does not end, with or without a cache *)
Example C111_example_spent : requests Nat.ltb (fun n => Call n (fun o => @Finish nat nat o)) 9 3 [5] = SSpent.
Proof. vm_compute. reflexivity. Qed.
(** the hypothesis on F is needed: if the body for 13 calls 3, the same label to the cache, then putting 13
    is rejected *)
Example C111_needs_compatible_function :
  requests mod10_ltb (fun n => if Nat.leb n 9 then Finish (OVal n) else Call (n - 10) (fun o => Finish o)) 9 2 [13] = SBroken.
Proof. vm_compute. reflexivity. Qed.
