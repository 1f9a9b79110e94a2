(** SetKeepSpec.v -- which of several equivalent, but distinguishable, elements are meant (C168). *)
From Verif Require Import Base StdOrd SetModel SetSpec.

Section SetKeepSpec.
  Context {T : Type} (ltb : T -> T -> bool).

  (** [x] stands in [l] and no element before it is equivalent to it *)
  Definition earliest (l : list T) (x : T) : Prop :=
    exists pre post, l = pre ++ x :: post /\ forall y, In y pre -> eqvb ltb y x = false.

  (** [x] stands in [l] and some element before it is equivalent to it, but no two are *)
  Definition second (l : list T) (x : T) : Prop :=
    exists pre y mid post, l = pre ++ y :: mid ++ x :: post /\ eqvb ltb y x = true /\
      forall z, In z (pre ++ mid) -> eqvb ltb z x = false.

  (** nothing in [l] is equivalent to [x]; something is *)
  Definition absent (l : list T) (x : T) : Prop := forall y, In y l -> eqvb ltb y x = false.
  Definition present (l : list T) (x : T) : Prop := exists y, In y l /\ eqvb ltb y x = true.

  (** A set with its representatives: for each value the element kept that is equivalent to it, if any. *)
  Definition rset := T -> option T.
  Definition rlist (l : list T) : rset := fun x => find (fun y => eqvb ltb y x) l.
  (** the elements of the first, and those of the second where the first has none *)
  Definition rjoin (p q : rset) : rset := fun x => match p x with Some e => Some e | None => q x end.
  (** the elements of the first where the second has some, or none *)
  Definition rmeet (p q : rset) : rset := fun x => match q x with Some _ => p x | None => None end.
  Definition rminus (p q : rset) : rset := fun x => match q x with Some _ => None | None => p x end.

  Definition rset_step (o : sop T) (p : nat -> rset) : nat -> rset :=
    match o with
    | SNew d => set_var p d (fun _ => None)
    | SFromList d l => set_var p d (rlist l)
    | SCopy d s => set_var p d (p s)
    | SInsert d t => set_var p d (rjoin (p d) (rlist [t]))
    | SAdjoin d s => set_var p d (rjoin (p d) (p s))
    | SRemove d t => set_var p d (rminus (p d) (rlist [t]))
    | SRemoveSet d s => set_var p d (rminus (p d) (p s))
    | SRemoveList d l => set_var p d (rminus (p d) (rlist l))
    | SFreeRemove d s => set_var p d (rminus (p d) (p s))
    | SFreeRestrict d s => set_var p d (rmeet (p d) (p s))
    | SMemberRestrict d s => set_var p d (rmeet (p d) (p s))
    | SJoin d s1 s2 => set_var p d (rjoin (p s1) (p s2))
    | SIntersection d s1 s2 => set_var p d (rmeet (p s1) (p s2))
    | SIntersectionList d s1 l => set_var p d (rmeet (rlist l) (p s1))   (* the elements of the list *)
    | SDifference d s1 s2 => set_var p d (rminus (p s1) (p s2))
    end.
  Definition rset_run (ops : list (sop T)) (p : nat -> rset) : nat -> rset :=
    fold_left (fun q o => rset_step o q) ops p.
End SetKeepSpec.
