(** WatchMoreSpec.v -- clocks that are or are not set. *)
From Verif Require Import Base StopwatchModel StopwatchSpec WatchMoreModel.
Local Open Scope Z_scope.

(** nobody sets the time of day while the program runs *)
Definition not_set (set : nat -> Z) : Prop := exists c, forall i, set i = c.
(** what the calls of a program returned *)
Definition map_out (r : res swst (list swout)) : option (list swout) := match r with Ret l _ => Some l | _ => None end.
