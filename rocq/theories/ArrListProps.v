(** ArrListProps.v -- the property C147 of lists of arrays.  Statements only; the proofs are in ArrListProofs.v. *)
From Verif Require Import Base ArrayModel ArraySpec ArrListModel ArrListSpec ArrListProofs.

(** ** C147 (a list of arrays releases the arrays removed from it): false of the code.  For every list of arrays, erasing
    one that is not the last leaves its storage and its elements behind when the list is destroyed, *)
Theorem C147_erase_refuted : forall V (sz : Z) (dflt : V) neq (eq_dec : forall x y : V, {x = y} + {x <> y}),
  (0 < sz)%Z -> (forall x y, neq x y = true <-> x <> y) ->
  forall l1 x y l2, Forall (fun x => allocatable sz (length x)) (l1 ++ x :: y :: l2) ->
  let l := l1 ++ x :: y :: l2 in
  let os := map LPush l ++ [LErase (length l1)] in
  let p := programs 0 os ++ destroy_list (final_size os) in
  exists s, run sz dflt neq (calm p) (init (S (length l))) = Ret (repeat ODone (length p)) s /\
    unreleased s = 1 /\ made s = ArrayModel.gone s + length x.
Proof. exact @erased_lost. Qed.
Print Assumptions C147_erase_refuted.
(** and so does assigning a temporary array to an element. *)
Theorem C147_assign_refuted : forall V (sz : Z) (dflt : V) neq (eq_dec : forall x y : V, {x = y} + {x <> y}),
  (0 < sz)%Z -> (forall x y, neq x y = true <-> x <> y) ->
  forall x vs, allocatable sz (length x) -> allocatable sz (length vs) ->
  let os := [LPush x; LSet 0 vs] in
  let p := programs 0 os ++ destroy_list (final_size os) in
  exists s, run sz dflt neq (calm p) (init 2) = Ret (repeat ODone (length p)) s /\
    unreleased s = 1 /\ made s = ArrayModel.gone s + length x.
Proof. exact @assigned_lost. Qed.
Print Assumptions C147_assign_refuted.

(** What holds, for all sequences of operations on a list: the list contains the sequences it should; *)
Theorem C147_values_partial : forall V (sz : Z) (dflt : V) neq (eq_dec : forall x y : V, {x = y} + {x <> y}),
  (0 < sz)%Z -> (forall x y, neq x y = true <-> x <> y) ->
  forall N os l g, lsteps sz N [] os l g ->
  exists s, run sz dflt neq (calm (programs 0 os)) (init (S N)) = Ret (repeat ODone (length (programs 0 os))) s /\ list_holds s l.
Proof. exact @lists_are_values. Qed.
Print Assumptions C147_values_partial.
(** once it is destroyed, exactly the arrays [g] are left behind, with their elements; *)
Theorem C147_losses_partial : forall V (sz : Z) (dflt : V) neq (eq_dec : forall x y : V, {x = y} + {x <> y}),
  (0 < sz)%Z -> (forall x y, neq x y = true <-> x <> y) ->
  forall N os l g, lsteps sz N [] os l g ->
  let p := programs 0 os ++ destroy_list (final_size os) in
  exists s, run sz dflt neq (calm p) (init (S N)) = Ret (repeat ODone (length p)) s /\
    unreleased s = length g /\ made s = ArrayModel.gone s + total g.
Proof. exact @lists_lose. Qed.
Print Assumptions C147_losses_partial.
(** and an operation leaves none behind exactly if it is not an assignment from a temporary and removes elements at
    the end only. *)
Theorem C147_lossless_partial : forall V (sz : Z) N (l : list (list V)) (o : lop V) l' g,
  lstep sz N l o l' g -> (g = [] <-> lossless (length l) o).
Proof. exact @lossless_iff. Qed.
Print Assumptions C147_lossless_partial.

(** A list built, shuffled and thinned out: the arrays [1;2] and [6] are lost, [] is not. *)
Example C147_example :
  let os := [LPush [1; 2]%Z; LPush [3]%Z; LInsert 1 [4; 5]%Z; LSwap 0 2; LPush []; LInsert 4 [6]%Z; LAppend 1; LCopy 0 1;
             LRemove [true; true; false; true; false; true]; LPop; LSet 2 [7]%Z] in
  lsteps 4 6 [] os [[4; 5]; [4; 5]; [7]]%Z [[1; 2]; []]%Z /\
  (match run 4 0%Z (fun x y => negb (x =? y)%Z) (calm (programs 0 os ++ destroy_list (final_size os))) (init 7) with
   | Ret _ s => Some (unreleased s, made s - ArrayModel.gone s) | _ => None end) = Some (2, 2).
Proof.
  split; [|vm_compute; reflexivity].
  change [[1; 2]; []]%Z with ([] ++ ([] ++ ([] ++ ([] ++ ([] ++ ([] ++ ([] ++ ([] ++ ([[1; 2]] ++ ([] ++ ([[]] ++ [])))))))))))%Z.
  assert (Ha : forall n, n < 5 -> allocatable 4 n) by (intros n Hn; unfold allocatable; lia).
  eapply SMore; [apply SPush; [cbn; lia|apply Ha; cbn; lia]|].
  eapply SMore; [apply SPush; [cbn; lia|apply Ha; cbn; lia]|].
  eapply SMore; [apply (SInsert 4 6 _ 1 [[1; 2]]%Z [[3]]%Z); [cbn; lia|apply Ha; cbn; lia|reflexivity|reflexivity]|].
  eapply SMore; [eapply SSwap; [discriminate|reflexivity|reflexivity]|].
  eapply SMore; [apply SPush; [cbn; lia|apply Ha; cbn; lia]|].
  eapply SMore; [apply (SInsert 4 6 _ 4 [[3]; [4; 5]; [1; 2]; []]%Z []); [cbn; lia|apply Ha; cbn; lia|reflexivity|reflexivity]|].
  eapply SMore; [eapply SAppend; [cbn; lia|reflexivity]|].
  eapply SMore; [eapply SCopy; reflexivity|].
  eapply SMore; [exact (SRemove 4 6 [[4; 5]; [4; 5]; [1; 2]; []; [6]; [4; 5]]%Z [true; true; false; true; false; true] eq_refl)|].
  eapply SMore; [apply (SPop 4 6 _ [[4; 5]; [4; 5]; []]%Z [4; 5]%Z); reflexivity|].
  eapply SMore; [exact (SSet 4 6 [[4; 5]; [4; 5]; []]%Z 2 [] [7]%Z eq_refl (Ha 1 ltac:(lia)))|].
  constructor.
Qed.
