(** DerefProps.v -- C164: dereferencing PairIterators and measuring their distance.  Statements only; the lemmas are in DerefProofs.v. *)
From Verif Require Import Base DerefModel DerefProofs.

(** ** C164
    intended: for all iterators it1 and it2, PairIterator(it1,it2).dereference() compiles and gives the pair of *it1 and *it2; distance_to gives the number
    of steps *)
(** dereference compiles exactly if the elements of both convert to pointers to the iterators *)
Theorem C164_dereference_partial :
  forall (elem : nat -> option type) (operator : nat -> type -> bool) (derived : nat -> nat -> bool) (X : Type) (become : type -> type -> X -> X)
         (I1 I2 : type) (x1 x2 : X) (r : X * X),
  dereference elem operator derived become I1 I2 x1 x2 = Some r <->
  exists V1 V2, element elem I1 = Some V1 /\ element elem I2 = Some V2 /\
                to_pointer operator derived V1 I1 = true /\ to_pointer operator derived V2 I2 = true /\
                r = (become V1 (Pointer I1) x1, become V2 (Pointer I2) x2).
Proof. exact @dereference_iff. Qed.
Print Assumptions C164_dereference_partial.
Theorem C164_elements_partial :
  forall (operator : nat -> type -> bool) (derived : nat -> nat -> bool) (V I : type),
  to_pointer operator derived V I = true <->
  V = Null \/ V = Pointer I \/ (I = Void /\ exists t, V = Pointer t) \/
  (exists m n, V = Pointer (Class m) /\ I = Class n /\ derived m n = true) \/ (exists n, V = Class n /\ operator n (Pointer I) = true).
Proof. exact to_pointer_iff. Qed.
Print Assumptions C164_elements_partial.
(** never if one of them is a pointer to a number or to a pointer, nor if the elements of one are numbers *)
Theorem C164_dereference_refuted :
  (forall (elem : nat -> option type) (operator : nat -> type -> bool) (derived : nat -> nat -> bool) (X : Type) (become : type -> type -> X -> X)
          (t I2 : type) (x1 x2 : X), t <> Null -> (forall n, t <> Class n) ->
   dereference elem operator derived become (Pointer t) I2 x1 x2 = None /\ dereference elem operator derived become I2 (Pointer t) x1 x2 = None) /\
  (forall (elem : nat -> option type) (operator : nat -> type -> bool) (derived : nat -> nat -> bool) (X : Type) (become : type -> type -> X -> X)
          (I1 I2 : type) (x1 x2 : X), element elem I1 = Some Number \/ element elem I2 = Some Number ->
   dereference elem operator derived become I1 I2 x1 x2 = None).
Proof. exact (conj (@dereference_pointers) (@dereference_numbers)). Qed.
Print Assumptions C164_dereference_refuted.
(** a program can use all functions of the class but distance_to, which has no definition *)
Theorem C164_distance_refuted :
  forall calls : list function, builds calls <> DoesNotCompile /\ (builds calls = Runs <-> ~ In DistanceTo calls).
Proof. exact builds_iff. Qed.
Print Assumptions C164_distance_refuted.

(** class 0 is an iterator over numbers, class 1 over pointers to such iterators as itself, class 2 over pointers to class 3, which is derived from 2 *)
Example C164_example :
  let elem n := match n with 0 => Some Number | 1 => Some (Pointer (Class 1)) | 2 => Some (Pointer (Class 3)) | _ => None end in
  let derived m n := (m =? 3) && (n =? 2) in
  let deref I1 I2 := dereference elem (fun _ _ => false) derived (fun V P x => (P, snd x)) I1 I2 (Number, 5) (Number, 6) in
  (* int* and int*, class 0 and class 0, class 1 and class 2, class 1 and int*, char** and class 1, nullptr_t* and class 1 *)
  deref (Pointer Number) (Pointer Number) = None /\ deref (Class 0) (Class 0) = None /\
  deref (Class 1) (Class 2) = Some ((Pointer (Class 1), 5), (Pointer (Class 2), 6)) /\
  deref (Class 1) (Pointer Number) = None /\ deref (Pointer (Pointer Number)) (Class 1) = None /\
  deref (Pointer Null) (Class 1) = Some ((Pointer (Pointer Null), 5), (Pointer (Class 1), 6)) /\
  builds [Construct; Advance; Equal] = Runs /\ builds [Construct; DistanceTo] = DoesNotLink.
Proof. vm_compute. repeat split. Qed.
