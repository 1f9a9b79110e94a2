(** CalleeSpec.v -- what the client expects of apply(f,l) and elementwise(f,l1,...,lk). *)
From Verif Require Import Base CalleeModel.
Open Scope list_scope.
Open Scope nat_scope.

(** the object kept of a result *)
Definition object_of (r : rtype) : option nat := match r with RVal n | RConst n | RRefTo n => Some n | RVoid => None end.
(** f may be called with elements of k const lists and gives something; then that is what is called and collected *)
Definition usable (k : nat) (f : callee) (o : overload) (n : nat) : Prop :=
  call f (repeat ConstLvalue k) = Some o /\ object_of (o_result o) = Some n.
(** one function that reads its arguments *)
Definition reads (k : nat) (o : overload) : Prop :=
  length (o_forms o) = k /\ forall f, In f (o_forms o) -> f = ByValue \/ f = ConstRef.
(** what stands for one function that reads its arguments *)
Definition one (f : callee) (o : overload) : Prop :=
  f = FunctionName o \/ f = FunctionPointer o \/ (exists c, f = Object c [o] /\ (o_const o = true \/ c = false)).
