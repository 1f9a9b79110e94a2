(** LruSyncSpec.v -- what is expected of an LRU cache shared by several threads. *)
From Verif Require Import Base StdOrd LruModel LruSpec SyncModel SyncSpec.

(** the members that change nothing: has_label, age, current_size, maximum_size *)
Definition looks {L V} (o : op L V) : Prop :=
  match o with OHas _ | OAge _ | OSize | OMax => True | OGet _ | OPut _ _ => False end.
Definition only_looks {L V} (p : list (stm (op L V))) : Prop := forall o, In o (does p) -> looks o.
(** the recency list of a cache: that of the calls made so far, applied to a new one *)
Definition recency {L V} (ltb : L -> L -> bool) (s0 : cache L V) (r : rlist L V) : Prop :=
  exists m c0 ops outs, (0 < m < 2 ^ 64)%Z /\ lru_new m = Ret c0 tt /\ run ltb c0 ops = (Some s0, outs) /\
    r = fst (spec_run ltb (mkRlist m []) ops).
