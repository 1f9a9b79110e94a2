(** LruLifeSpec.v -- what C153 says.  Definitions only. *)
From Verif Require Import Base StdOrd LruModel LruLifeModel.

Section Spec.
  Context {L V : Type}.
  (** one label, one value and one allocated node per element, and no others *)
  Definition owns_its_contents (s : life L V) : Prop :=
    let n := length (c_elems (l_cache s)) in vals s = n /\ labs s = n /\ nodes s = n.
  Definition owns_nothing (s : life L V) : Prop := vals s = 0 /\ labs s = 0 /\ nodes s = 0.
  (** how many times values were copied and moved, and labels copied, between two states *)
  Definition made (s s' : life L V) (value_copies value_moves label_copies : nat) : Prop :=
    v_copies s' = v_copies s + value_copies /\ v_moves s' = v_moves s + value_moves /\ l_copies s' = l_copies s + label_copies.
  Definition is_put (o : op L V) : bool := match o with OPut _ _ => true | _ => false end.
End Spec.
