(** LiftProps.v -- the property C150: containers convert as their elements do.  Statements only; the lemmas are in
    LiftProofs.v. *)
From Verif Require Import Base StdOrd SetModel SetSpec MapModel LiftModel LiftSpec LiftProofs.

(** ** C150
    intended: for every container C and every kind k of conversion of the elements
      choose direct (C_ctors (plain k)) = expected (same_kind lift k) direct.
    List from std::vector or List, and Array from Array unless the elements do not convert at all: *)
Theorem C150_sequences_partial :
  forall (A B : Type) (k : kind A B) (direct : bool),
  choose direct (list_ctors (plain k)) = expected (same_kind (fun f l => map f l) k) direct /\
  ((direct = true -> somehow k <> None) -> choose direct (array_ctors (plain k)) = expected (same_kind (fun f l => map f l) k) direct).
Proof. exact (fun A B k direct => conj (lists k direct) (arrays k direct)). Qed.
Print Assumptions C150_sequences_partial.
(** Set from std::set or Set, for every kind *)
Theorem C150_sets_partial :
  forall (A B : Type) (ltB : B -> B -> bool), SWO ltB -> forall (k : kind A B) (direct : bool),
  match (if direct then somehow k else implicitly k) with
  | Some f => exists g, choose direct (set_ctors ltB (plain k)) = Made g /\ forall l, set_image ltB f l (g l)
  | None => choose direct (set_ctors ltB (plain k)) = Absent
  end.
Proof. exact @sets. Qed.
Print Assumptions C150_sets_partial.
(** Set from std::vector or List, and Map: only if the elements convert implicitly *)
Theorem C150_implicit_partial :
  forall (A B K : Type) (ltB : B -> B -> bool) (ltK : K -> K -> bool), SWO ltB -> SWO ltK -> forall (k : kind A B) (direct : bool),
  match implicitly k with
  | Some f => (exists g, choose direct (set_vector_ctors ltB (plain k)) = Made g /\ forall l, set_image ltB f l (g l)) /\
              exists g, choose direct (map_ctors ltK (plain k)) = Made g /\
                forall m, StronglySorted (fun p q => ltK (fst p) (fst q) = true) m -> g m = map (fun p => (fst p, f (snd p))) m
  | None => choose direct (set_vector_ctors ltB (plain k)) = Absent /\ choose direct (map_ctors ltK (plain k)) = Absent
  end.
Proof. exact @implicit_only. Qed.
Print Assumptions C150_implicit_partial.
(** LinkedList from List or LinkedList, where it should compile *)
Theorem C150_linked_partial :
  forall (A B : Type) (k : kind A B) (direct : bool),
  (direct = false -> match k with Explicit _ => False | _ => True end) -> somehow k <> None ->
  choose direct (linked_ctors (plain k)) = expected (same_kind (fun f l => map f l) k) direct.
Proof. exact @linked. Qed.
Print Assumptions C150_linked_partial.
(** Lists of lists, to any depth, are again elements of the same kind *)
Theorem C150_nested_partial :
  forall (A B : Type) (k : kind A B) (n : nat), nested n (plain k) = plain (same_kind (deep_map n) k).
Proof. exact @nested_lists. Qed.
Print Assumptions C150_nested_partial.

(** Elements that convert only explicitly: no conversion at all to a Set from a vector or to a Map, ... *)
Theorem C150_explicit_refuted :
  forall (A B K : Type) (ltB : B -> B -> bool) (ltK : K -> K -> bool) (f : A -> B),
  somehow (Explicit f) = Some f /\
  forall direct, choose direct (set_vector_ctors ltB (plain (Explicit f))) = Absent /\ choose direct (map_ctors ltK (plain (Explicit f))) = Absent.
Proof. exact @explicit_missing. Qed.
Print Assumptions C150_explicit_refuted.
(** ... and an implicit one to a LinkedList *)
Theorem C150_linked_refuted :
  forall (A B : Type) (f : A -> B), implicitly (Explicit f) = None /\ choose false (linked_ctors (plain (Explicit f))) = Made (map f).
Proof. exact @linked_implicit. Qed.
Print Assumptions C150_linked_refuted.
(** Elements that do not convert: the type traits say that Arrays and LinkedLists do, but they do not compile *)
Theorem C150_traits_refuted :
  forall (A B : Type) (k : kind A B), somehow k = None ->
  choose true (array_ctors (plain k)) = Broken /\ trait (choose true (array_ctors (plain k))) = true /\
  forall direct, choose direct (linked_ctors (plain k)) = Broken /\ trait (choose direct (linked_ctors (plain k))) = true.
Proof. exact @array_trait. Qed.
Print Assumptions C150_traits_refuted.
(** Elements that convert only from a temporary: the containers are declared to convert, but do not compile *)
Theorem C150_temporary_refuted :
  forall (A B K : Type) (ltB : B -> B -> bool) (ltK : K -> K -> bool) (e : element A B) (direct : bool),
  copy_rvalue e = true -> direct_const e = None ->
  choose direct (list_ctors e) = Broken /\ choose direct (array_ctors e) = Broken /\ choose direct (set_vector_ctors ltB e) = Broken /\
  choose direct (set_ctors ltB e) = Broken /\ choose direct (map_ctors ltK e) = Broken.
Proof. exact @rvalue_only. Qed.
Print Assumptions C150_temporary_refuted.
(** Elements that convert only from variables, not from temporaries: the elements of containers are variables, but no container except
    LinkedList converts; for Array the type traits say it does *)
Theorem C150_variable_refuted :
  forall (A B K : Type) (ltB : B -> B -> bool) (ltK : K -> K -> bool) (e : element A B) (f : A -> B),
  copy_rvalue e = false -> direct_rvalue e = false -> direct_const e = Some f ->
  choose true (list_ctors e) = Absent /\ choose true (set_vector_ctors ltB e) = Absent /\ choose true (set_ctors ltB e) = Absent /\
  choose true (map_ctors ltK e) = Absent /\
  choose true (array_ctors e) = Broken /\ trait (choose true (array_ctors e)) = true /\ choose true (linked_ctors e) = Made (map f).
Proof. exact @lvalue_only. Qed.
Print Assumptions C150_variable_refuted.
(** Elements with an implicit and another explicit conversion: the implicit conversion of the container uses the explicit one *)
Theorem C150_choice_refuted :
  forall (A B : Type) (e : element A B) (f g : A -> B), copy_rvalue e = true -> copy_const e = Some f -> direct_const e = Some g ->
  choose false (list_ctors e) = Made (map g) /\ choose false (array_ctors e) = Made (map g) /\ choose false (linked_ctors e) = Made (map g).
Proof. exact @by_direct. Qed.
Print Assumptions C150_choice_refuted.

(** concrete cases: 10 - x *)
Example C150_example :
  let i := plain (Implicit (fun x => 10 - x)%Z) in let x := plain (Explicit (fun x => 10 - x)%Z) in
  run (choose false (list_ctors i)) [3; 1; 3]%Z = Some [7; 9; 7]%Z /\ run (choose false (list_ctors x)) [3]%Z = None /\
  run (choose true (list_ctors x)) [3]%Z = Some [7]%Z /\ run (choose true (array_ctors x)) [3; 4]%Z = Some [7; 6]%Z /\
  run (choose true (array_ctors i)) [3; 4]%Z = Some [7; 6]%Z /\
  run (choose false (set_ctors Z.ltb i)) [1; 3]%Z = Some [7; 9]%Z /\ run (choose true (set_ctors Z.ltb x)) [1; 3]%Z = Some [7; 9]%Z /\
  run (choose false (set_vector_ctors Z.ltb i)) [3; 1; 3]%Z = Some [7; 9]%Z /\ run (choose true (set_vector_ctors Z.ltb x)) [3]%Z = None /\
  run (choose false (map_ctors Z.ltb i)) [(1, 5); (2, 6)]%Z = Some [(1, 5); (2, 4)]%Z /\
  run (choose false (linked_ctors x)) [3]%Z = Some [7]%Z /\
  run (choose true (list_ctors (nested 1 x))) [[3; 4]; []]%Z = Some [[7; 6]; []]%Z.
Proof. vm_compute. repeat split. Qed.
Example C150_example_hypotheses :
  somehow (@None_ Z Z) = None /\ SWO Z.ltb /\
  (exists e : element Z Z, copy_rvalue e = true /\ direct_const e = None) /\
  (exists (e : element Z Z) f, copy_rvalue e = false /\ direct_rvalue e = false /\ direct_const e = Some f) /\
  exists (e : element Z Z) f g, copy_rvalue e = true /\ copy_const e = Some f /\ direct_const e = Some g /\ f 0%Z <> g 0%Z.
Proof.
  split; [reflexivity|]. split; [exact swo_Z|]. split.
  - exists (mkElement true None true None None false). split; reflexivity.
  - split. { exists (mkElement false (Some Z.opp) false (Some Z.opp) (Some Z.opp) true), Z.opp. split; [reflexivity|]. split; reflexivity. }
    exists (mkElement true (Some (fun x => x)) true (Some (fun x => x + 1)%Z) (Some (fun x => x + 1)%Z) true).
    eexists. eexists. split; [reflexivity|]. split; [reflexivity|]. split; [reflexivity|]. discriminate.
Qed.
