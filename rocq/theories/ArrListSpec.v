(** ArrListSpec.v -- lists of sequences, and which arrays are removed from a list or replaced in it. *)
From Verif Require Import Base ArrayModel ArraySpec ArrListModel.

Section Spec.
  Context {V : Type} (sz : Z).
  (** the elements whose flag is [b] *)
  Fixpoint flagged (b : bool) (keep : list bool) (l : list (list V)) : list (list V) :=
    match keep, l with
    | k :: keep, x :: l => if Bool.eqb k b then x :: flagged b keep l else flagged b keep l
    | _, _ => []
    end.
  (** what an operation does to a list of sequences: [lstep N l o l' gone] with the arrays [gone] that were neither
      destroyed nor kept.  An array can be created if its elements fit into memory. *)
  Inductive lstep (N : nat) (l : list (list V)) : lop V -> list (list V) -> list (list V) -> Prop :=
  | SPush vs : length l < N -> allocatable sz (length vs) -> lstep N l (LPush vs) (l ++ [vs]) []
  | SAppend i x : length l < N -> nth_error l i = Some x -> lstep N l (LAppend i) (l ++ [x]) []
  | SPop l1 x : l = l1 ++ [x] -> lstep N l LPop l1 []
  | SErase i l1 x l2 : l = l1 ++ x :: l2 -> length l1 = i ->
      lstep N l (LErase i) (l1 ++ l2) (match l2 with [] => [] | _ => [x] end)
  | SInsert i l1 l2 vs : length l < N -> allocatable sz (length vs) -> l = l1 ++ l2 -> length l1 = i ->
      lstep N l (LInsert i vs) (l1 ++ vs :: l2) []
  | SSwap i j x y : i <> j -> nth_error l i = Some x -> nth_error l j = Some y -> lstep N l (LSwap i j) (upd j x (upd i y l)) []
  | SSet i x vs : nth_error l i = Some x -> allocatable sz (length vs) -> lstep N l (LSet i vs) (upd i vs l) [x]
  | SCopy i j x y : nth_error l i = Some x -> nth_error l j = Some y -> lstep N l (LCopy i j) (upd i y l) []
  | SRemove keep : length keep = length l ->
      lstep N l (LRemove keep) (flagged true keep l) (flagged false (firstn (length (flagged true keep l)) keep) l).
  Inductive lsteps (N : nat) : list (list V) -> list (lop V) -> list (list V) -> list (list V) -> Prop :=
  | SDone l : lsteps N l [] l []
  | SMore l o l1 g1 os l2 g2 : lstep N l o l1 g1 -> lsteps N l1 os l2 g2 -> lsteps N l (o :: os) l2 (g1 ++ g2).
  Definition total (l : list (list V)) : nat := length (concat l).
  (** the operations after which no array is lost *)
  Definition lossless (n : nat) (o : lop V) : Prop :=
    match o with
    | LErase i => S i = n
    | LSet _ _ => False
    | LRemove keep => exists a b, keep = repeat true a ++ repeat false b
    | _ => True
    end.
  (** the arrays of the list, in the slots of the model *)
  Definition list_holds (s : st V) (l : list (list V)) : Prop :=
    forall i x, nth_error l i = Some x -> holds s (S i) x.
End Spec.
