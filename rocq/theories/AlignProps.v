(** AlignProps.v -- C141: the elements of an array are where objects of their type may be.  Statements only; the lemmas are in
    AlignProofs.v. *)
From Verif Require Import Base AlignModel AlignSpec AlignProofs.
Open Scope Z_scope.

(** ** C141
    intended: type_ok t -> array_new t p -> array_built t p n = Built *)
(** holds for types that need no more than the default alignment *)
Theorem C141_array_partial :
  forall t p n, type_ok t -> e_align t <= default_alignment -> array_new t p -> array_built t p n = Built.
Proof. exact array_aligned. Qed.
Print Assumptions C141_array_partial.
(** and for all types in a SharedArray *)
Theorem C141_shared_partial :
  forall t b p n, type_ok t -> shared_new t p -> shared_built t b p n = Built.
Proof. exact shared_aligned. Qed.
Print Assumptions C141_shared_partial.
(** for every type that needs more there are storages, as many as one likes, in which no element of an Array is where it may be *)
Theorem C141_overaligned_refuted :
  forall t m, type_ok t -> default_alignment < e_align t -> 0 < m ->
  let p := m * e_align t + default_alignment in array_new t p /\ (forall n, (0 < n)%nat -> array_built t p n = Misaligned 0) /\
  forall i, ~ (e_align t | element_address t p i).
Proof. exact array_misaligned. Qed.
Print Assumptions C141_overaligned_refuted.

(** a vector of four doubles, as for AVX; a double *)
Example C141_example :
  type_ok (mkE 32 32) /\ type_ok (mkE 8 8) /\ array_new (mkE 32 32) 4112 /\ array_built (mkE 32 32) 4112 3 = Misaligned 0 /\
  array_built (mkE 8 8) 4112 3 = Built /\ shared_new (mkE 32 32) 4128 /\ shared_built (mkE 32 32) true 4128 3 = Built.
Proof.
  split; [split; [exists 5; split; [lia|reflexivity]|split; [exists 1; reflexivity|reflexivity]]|].
  split; [split; [exists 3; split; [lia|reflexivity]|split; [exists 1; reflexivity|reflexivity]]|].
  split; [split; [reflexivity|exists 257; reflexivity]|]. split; [reflexivity|]. split; [reflexivity|].
  split; [split; [reflexivity|exists 129; reflexivity]|reflexivity].
Qed.
