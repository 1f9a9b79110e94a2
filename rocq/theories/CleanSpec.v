(** CleanSpec.v *)
From Verif Require Import Base.
(** the non-null pointers of a vector *)
Fixpoint pointers (v : list (option nat)) : list nat :=
  match v with [] => [] | Some p :: v' => p :: pointers v' | None :: v' => pointers v' end.
