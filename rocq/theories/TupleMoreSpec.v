(** TupleMoreSpec.v -- what is expected of get_first ... get_fifth. *)
From Verif Require Import Base TupleMoreModel.
Open Scope list_scope.

(** the object an element is, or refers to *)
Definition object (e : element) : nat := match e with Own a => a | LvalueRef a => a | RvalueRef a => a end.
Definition is_own (e : element) : Prop := match e with Own _ => True | _ => False end.
(** who has the tuple may write the element: it is not a const object *)
Definition writable (e : element) (c : category) : Prop :=
  match e, c with
  | Own _, Lvalue => True
  | LvalueRef _, _ => True
  | RvalueRef _, (Lvalue | ConstLvalue) => True
  | _, _ => False
  end.
(** the tuple is an rvalue, and the element its own or handed over to it *)
Definition given_away (e : element) (c : category) : Prop :=
  match e, c with Own _, Rvalue => True | RvalueRef _, Rvalue => True | _, _ => False end.
