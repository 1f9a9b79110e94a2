(** MetaSpec.v -- what the invocability traits should say, by the standard's description of INVOKE. *)
From Verif Require Import Base MetaModel.

(** a pointer to member, of whatever const and reference kind *)
Definition member_pointer (F : type) : Prop := exists m c r, F = TObj (TMember m) c r.
(** INVOKE(f,a) is well formed, of type [t]: for pointers to members the standard has rules of its own, for all others it
    is the call f(a) *)
Inductive invokes (L : lang) : type -> type -> type -> Prop :=
| inv_member : forall m c r A t, A <> TVoid -> l_member L m A = Some t -> invokes L (TObj (TMember m) c r) A t
| inv_call : forall F A t, F <> TVoid -> A <> TVoid -> ~ member_pointer F -> l_call L F A = Some t -> invokes L F A t.

(** R is a scalar type that is not an lvalue reference to non-const: an object or const object, an rvalue reference, a
    reference to const *)
Definition scalar_value (R : type) : Prop :=
  exists o c r, R = TObj o c r /\ (forall n, o <> TClass n) /\ (r <> LRef \/ c = true).
(** a class whose rvalues can be assigned exactly what converts to the class, such as classes with the assignment operators
    the compiler declares *)
Definition assigns_what_converts (L : lang) (n : nat) : Prop :=
  forall x, x <> TVoid -> l_class_assign L n false false x = l_convertible L x (TObj (TClass n) false NoRef).
(** void converts to nothing but void *)
Definition void_apart (L : lang) : Prop :=
  forall o c r, l_convertible L TVoid (TObj o c r) = false.
