(** ConvSpec.v -- what Set::remove should leave. *)
From Verif Require Import Base StdOrd SetModel SetSpec ConvModel.

(** the elements [l] without those that equal what x converts to *)
Definition without (T X : ctype) (xs : list val) (l l' : list val) : Prop :=
  increasing val_ltb l' /\ forall y, In y l' <-> In y l /\ forall x, In x xs -> convert T X x <> Some y.
Definition compiles (o : option bool) : Prop := o <> None.
(** the type of the elements of a vector, list or set *)
Definition elements_of (X : ctype) : option ctype := match X with StdVector u | HList u | StdSet u | HSet u => Some u | _ => None end.
