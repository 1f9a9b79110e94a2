(** LiftSpec.v -- conversions of elements of the usual kind, independently of the containers. *)
From Verif Require Import Base StdOrd SetSpec LiftModel.

(** TT converts to T by one function f, implicitly or only explicitly, or does not convert *)
Inductive kind (A B : Type) := Implicit (f : A -> B) | Explicit (f : A -> B) | None_.
Arguments Implicit {A B} f. Arguments Explicit {A B} f. Arguments None_ {A B}.

Definition implicitly {A B} (k : kind A B) : option (A -> B) := match k with Implicit f => Some f | _ => None end.
Definition somehow {A B} (k : kind A B) : option (A -> B) := match k with Implicit f | Explicit f => Some f | None_ => None end.
Definition is_some {X} (o : option X) : bool := match o with Some _ => true | None => false end.

(** an element type that converts in this way, whatever the argument looks like *)
Definition plain {A B} (k : kind A B) : element A B :=
  mkElement (is_some (implicitly k)) (implicitly k) (is_some (somehow k)) (somehow k) (somehow k) true.

(** the conversion of containers that corresponds to it *)
Definition same_kind {A B X Y} (lift : (A -> B) -> X -> Y) (k : kind A B) : kind X Y :=
  match k with Implicit f => Implicit (lift f) | Explicit f => Explicit (lift f) | None_ => None_ end.
(** C<T> c = x; (direct = false) or C<T> c(x); (direct = true) *)
Definition expected {X Y} (k : kind X Y) (direct : bool) : outcome (X -> Y) :=
  match (if direct then somehow k else implicitly k) with Some f => Made f | None => Absent end.

Fixpoint deep_map {A B} (n : nat) (f : A -> B) : deep n A -> deep n B :=
  match n with 0 => f | S n' => map (deep_map n' f) end.

(** s is the set of the values of f on l, up to the equivalence of the order *)
Definition set_image {A B} (ltB : B -> B -> bool) (f : A -> B) (l : list A) (s : list B) : Prop :=
  increasing ltB s /\ (forall y, In y s -> exists a, In a l /\ y = f a) /\ forall a, In a l -> exists y, In y s /\ eqvb ltB y (f a) = true.

(** the container made, if any *)
Definition run {X Y} (o : outcome (X -> Y)) (x : X) : option Y := match o with Made f => Some (f x) | _ => None end.
