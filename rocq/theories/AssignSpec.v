(** AssignSpec.v -- when a variable may be assigned a value. *)
From Verif Require Import Base AssignModel.

(** an operator can be called for a variable with a value of type f, with rank r *)
Definition callable {F} (f : F) (o : op F) (r : nat) : Prop := qual o <> OnRvalues /\ takes o f = Some r.
(** U x; x=f: built-in by conversion, otherwise by the operator that is better than all others that can be called *)
Inductive may_assign {F} (conv : F -> nat -> bool) : type F -> F -> Prop :=
| M_builtin n f : conv f n = true -> may_assign conv (Builtin n) f
| M_class l1 o l2 f r :
    callable f o r -> is_deleted o = false ->
    (forall o' r', In o' (l1 ++ l2) -> callable f o' r' -> r < r') -> may_assign conv (Class (l1 ++ o :: l2)) f.
