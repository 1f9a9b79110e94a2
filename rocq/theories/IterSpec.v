(** IterSpec.v -- what it means that a core describes positions lo..hi on a line. *)
From Verif Require Import Base IterModel.

Record lawful {I Ref} (c : core I Ref) (lo hi : Z) (pos : I -> Z) : Prop := {
  law_fits : (hi - lo < 2 ^ 63)%Z;
  law_in : forall a, (lo <= pos a <= hi)%Z;
  law_equal : forall a b, c_equal c a b = true <-> pos a = pos b;
  law_distance : forall a b, c_distance_to c a b = (pos b - pos a)%Z;
  law_advance : forall a n, (lo <= pos a + n <= hi)%Z -> pos (c_advance c a n) = (pos a + n)%Z;
  law_increment : forall a, (pos a < hi)%Z -> pos (c_increment c a) = (pos a + 1)%Z
}.

(** every partial sum of the steps [ks] from position [z] lies in [lo,hi] *)
Fixpoint stays_in (lo hi z : Z) (ks : list Z) : Prop :=
  match ks with [] => True | k :: ks' => (lo <= z + k <= hi)%Z /\ stays_in lo hi (z + k) ks' end.
Definition total (ks : list Z) : Z := fold_right Z.add 0%Z ks.
