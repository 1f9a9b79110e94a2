(** TraceMemSpec.v -- what is expected of the memory stack_trace uses. *)
From Verif Require Import Base StreamModel TraceModel TraceMemModel.

(** the blocks of [s] are as before, and all blocks made since are freed *)
Definition nothing_left (s s' : mstate) : Prop := exists k, heap s' = heap s ++ repeat None k.
(** the blocks of [s] are as before, and [b] is among those made since and never freed *)
Definition left_over (b : block) (s s' : mstate) : Prop := exists l, heap s' = heap s ++ l /\ In (Some b) l.
(** dladdr knows a name if it knows the file *)
Definition known (P : platform) (a : Z) : Prop := dladdr P a <> Some None.
