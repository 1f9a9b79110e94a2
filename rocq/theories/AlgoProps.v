(** AlgoProps.v -- the property C122: iterators made with IteratorFacade in the standard library.  Statements only; the lemmas
    are in AlgoProofs.v. *)
From Verif Require Import Base IterModel IterSpec IterProofs AlgoModel AlgoSpec AlgoProofs.

(** ** C122
    intended: every expression required of the category that the facade claims compiles, and the algorithms that use them
    compute what they should:
      In e (required t) -> compiles t true e = true *)
Theorem C122_random_access_refuted :
  forall e, In e missing -> In e (required RandomAccess) /\ forall b, compiles RandomAccess b e = false.
Proof. exact missing_required. Qed.
Print Assumptions C122_random_access_refuted.

(** nothing else is missing *)
Theorem C122_expressions_partial :
  (forall e, In e (required Forward) -> compiles Forward true e = true) /\
  (forall e, In e (required RandomAccess) -> ~ In e missing -> compiles RandomAccess true e = true).
Proof. exact (conj forward_complete (fun e H => proj2 (random_access_exact e H))). Qed.
Print Assumptions C122_expressions_partial.

(** but a facade whose dereference returns a value has no operator-> *)
Theorem C122_arrow_refuted :
  forall t, In (OpArrow, [It]) (required t) /\ compiles t false (OpArrow, [It]) = false.
Proof. exact arrow_of_value. Qed.
Print Assumptions C122_arrow_refuted.

Example C122_example_expressions :
  length missing = 4 /\ length (required RandomAccess) = 19 /\
  compiles RandomAccess true (OpPlus, [It; Int]) = true /\ compiles RandomAccess true (OpPlus, [Int; It]) = false /\
  compiles Forward true (OpInc, [It; Int]) = true /\ compiles RandomAccess true (OpInc, [It; Int]) = false /\
  compiles Forward true (OpDec, [It]) = false.
Proof. repeat split. Qed.

(** The algorithms on the positions from first to last, for both facades.  [elem] is the element at a position. *)
Theorem C122_algorithms_partial :
  forall (I Ref : Type) (c : core I Ref) (t : tag) (lo hi : Z) (pos : I -> Z), lawful c lo hi pos ->
  forall elem : Z -> Ref, (forall a, c_dereference c a = elem (pos a)) ->
  forall (first last : I) (fuel : nat), (pos first <= pos last)%Z -> (pos last - pos first < Z.of_nat fuel)%Z ->
  std_distance c t fuel first last = Ret (pos last - pos first)%Z tt /\
  (exists a, visit c t fuel last first = Ret (elements_between elem (pos first) (pos last)) a /\ pos a = pos last) /\
  (forall n, (0 <= n <= pos last - pos first)%Z ->
     exists a, std_advance c t n first = Ret tt a /\ pos a = (pos first + n)%Z) /\
  (forall before,
     (forall i j, (pos first <= i < j)%Z -> (j < pos last)%Z -> before (elem j) = true -> before (elem i) = true) ->
     exists a, lower_bound c t before fuel first last = Ret tt a /\ (pos first <= pos a <= pos last)%Z /\
       forall i, (pos first <= i < pos last)%Z -> (before (elem i) = true <-> (i < pos a)%Z)).
Proof. exact @algorithms. Qed.
Print Assumptions C122_algorithms_partial.
Example C122_example :
  forall t, match visit vec_core t 20 (c_advance vec_core vec_begin 6) (c_advance vec_core vec_begin 2) with
            | Ret l _ => l = [102; 103; 104; 105]%Z | _ => False end /\
  match lower_bound vec_core t (fun x => x <? 104)%Z 20 vec_begin (c_advance vec_core vec_begin 9) with
  | Ret _ a => proj1_sig a = 4%Z | _ => False end.
Proof. intros []; vm_compute; split; reflexivity. Qed.
Example C122_example_hypotheses :
  lawful vec_core 0 9 (@proj1_sig Z _) /\ (forall a, c_dereference vec_core a = (100 + proj1_sig a)%Z) /\
  (forall i j, (0 <= i < j)%Z -> (j < 9)%Z -> (100 + j <? 104)%Z = true -> (100 + i <? 104)%Z = true).
Proof. split; [exact vec_lawful|]. split; [reflexivity|]. intros i j Hij _. rewrite !Z.ltb_lt. lia. Qed.
(** going back is possible with random access only *)
Example C122_example_back :
  match std_advance vec_core RandomAccess (-2) (c_advance vec_core vec_begin 5) with Ret _ a => proj1_sig a = 3%Z | _ => False end /\
  std_advance vec_core Forward (-2) (c_advance vec_core vec_begin 5) = Ub UbOutOfBounds.
Proof. vm_compute. split; reflexivity. Qed.
