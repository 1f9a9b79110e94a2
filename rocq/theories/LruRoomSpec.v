(** LruRoomSpec.v -- comparing what two caches answer to the same calls, for C159.  Definitions only. *)
From Verif Require Import Base StdOrd LruModel.

Section LruRoomSpec.
  Context {L V : Type} (ltb : L -> L -> bool).
  (** what a new cache with room for [m] answers to the calls *)
  Definition answered (m : Z) (ops : list (op L V)) : option (list (out V)) :=
    match lru_new m with
    | Ret c _ => match run ltb c ops with (Some _, outs) => Some outs | (None, _) => None end
    | _ => None
    end.
  (** the second cache knows every label the first one knows *)
  Definition knows (r r' : out V) : Prop :=
    match r with
    | RBool true => r' = RBool true
    | RVal _ => exists w, r' = RVal w
    | _ => True
    end.
  (** it gives the same values, its elements are no younger, it accepts what the first one accepts, and is no smaller *)
  Definition no_worse (r r' : out V) : Prop :=
    match r with
    | RBool true => r' = RBool true
    | RVal v => r' = RVal v
    | RNum a => exists a', r' = RNum a' /\ (a <= a')%Z
    | RUnit => r' = RUnit
    | _ => True
    end.
  (** put did not throw *)
  Definition accepted (o : op L V) (r : out V) : Prop := match o with OPut _ _ => r = RUnit | _ => True end.
End LruRoomSpec.
