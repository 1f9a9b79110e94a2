(** AlignSpec.v -- types, and where their objects may be. *)
From Verif Require Import Base AlignModel.
Open Scope Z_scope.

Definition type_ok (t : element) : Prop := (exists k, 0 <= k /\ e_align t = 2 ^ k) /\ (e_align t | e_size t) /\ 0 < e_size t.
