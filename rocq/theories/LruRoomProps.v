(** LruRoomProps.v -- C159: a cache with more room knows what a cache with less room knows. *)
From Verif Require Import Base StdOrd LruModel LruRoomSpec LruRoomProofs.

(** C159, refuted: for every two capacities from 2 on there are calls after which the smaller cache knows a label the larger one does not. *)
Theorem C159_every_capacity_refuted :
  forall m m' : Z, (2 <= m < m')%Z -> (m' < 2 ^ 64)%Z ->
  exists (ops : list (op nat nat)) (l : nat) outs outs',
    answered Nat.ltb m (ops ++ [OHas l]) = Some (outs ++ [RBool true]) /\
    answered Nat.ltb m' (ops ++ [OHas l]) = Some (outs' ++ [RBool false]).
Proof. exact forgets. Qed.
Print Assumptions C159_every_capacity_refuted.

(** C159, missing that: if the larger cache accepted every put, it knows at each call what the smaller one knows, with the same values, and
    its elements are no younger. *)
Theorem C159_accepted_partial :
  forall (L V : Type) (ltb : L -> L -> bool), SWO ltb ->
  forall (m m' : Z) (ops : list (op L V)), (0 < m <= m')%Z -> (m' < 2 ^ 64)%Z ->
  exists outs outs', answered ltb m ops = Some outs /\ answered ltb m' ops = Some outs' /\
    (Forall2 accepted ops outs' -> Forall2 no_worse outs outs').
Proof. exact @more_room. Qed.
Print Assumptions C159_accepted_partial.

(** C159: any cache knows what a cache with room for one knows, after the same calls, accepted or not. *)
Theorem C159_room_for_one :
  forall (L V : Type) (ltb : L -> L -> bool), SWO ltb ->
  forall (m : Z) (ops : list (op L V)), (0 < m < 2 ^ 64)%Z ->
  exists outs outs', answered ltb 1 ops = Some outs /\ answered ltb m ops = Some outs' /\ Forall2 knows outs outs'.
Proof. exact @room_for_one. Qed.
Print Assumptions C159_room_for_one.

(** 1 is put again while the larger cache still has it: that is an error and does not make it younger *)
Example C159_forgotten :
  let ops := [OPut 1 1; OPut 2 2; OPut 3 3; OPut 1 4; OPut 5 5; OHas 1; OGet 1] in
  answered Nat.ltb 2 ops = Some [RUnit; RUnit; RUnit; RUnit; RUnit; RBool true; RVal 4] /\
  answered Nat.ltb 3 ops = Some [RUnit; RUnit; RUnit; RThrow ERuntime; RUnit; RBool false; RThrow ERuntime].
Proof. vm_compute. split; reflexivity. Qed.
Example C159_accepted :
  let ops := [OPut 1 10; OPut 2 20; OGet 1; OPut 3 30; OHas 2; OGet 1; OPut 4 40; OAge 1; OSize] in
  answered Nat.ltb 2 ops = Some [RUnit; RUnit; RVal 10; RUnit; RBool false; RVal 10; RUnit; RNum 1; RNum 2] /\
  answered Nat.ltb 3 ops = Some [RUnit; RUnit; RVal 10; RUnit; RBool true; RVal 10; RUnit; RNum 1; RNum 3] /\
  Forall2 accepted ops [RUnit; RUnit; RVal 10; RUnit; RBool true; RVal 10; RUnit; RNum 1; RNum 3].
Proof. vm_compute. repeat split. repeat (constructor; [exact I || reflexivity|]). constructor. Qed.
(** with room for one, the values may differ *)
Example C159_one :
  let ops := [OPut 1 10; OPut 2 20; OPut 1 11; OGet 1] in
  answered Nat.ltb 1 ops = Some [RUnit; RUnit; RUnit; RVal 11] /\ answered Nat.ltb 2 ops = Some [RUnit; RUnit; RThrow ERuntime; RVal 10].
Proof. vm_compute. split; reflexivity. Qed.
