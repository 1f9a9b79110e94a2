(** CallProps.v -- the properties C126 and C127: apply and elementwise with functions whose results point at their argument,
    and with functions that use the list.  Statements only; the lemmas are in CallProofs.v. *)
From Verif Require Import Base CallModel CallSpec CallProofs.

(** ** C126
    intended: if f takes its argument by reference and returns a pointer or a reference to it (or something that holds one),
    the results of apply(f,l) and elementwise(f,l) point at the elements of l, and can be used while l exists:
      exists rs s', apply_at f a (length l) s = Ret rs s' /\
      Forall2 (fun t r => use r s' = Ret (match f t with Some x => inl x | None => inr t end) s') l rs *)
(** it holds for elementwise of one list and of two *)
Theorem C126_elementwise_partial :
  forall (T X : Type) (f : T -> option X) (l : list T) s a, list_at s a l ->
  exists rs, elementwise_at f a (length l) s = Ret rs s /\
    Forall2 (fun t r => use r s = Ret (match f t with Some x => inl x | None => inr t end) s) l rs.
Proof. exact (@elementwise_points). Qed.
Print Assumptions C126_elementwise_partial.

Theorem C126_elementwise2_partial :
  forall (T X : Type) (f : T -> T -> X + bool) (l1 l2 : list T) s a b,
  length l2 = length l1 -> list_at s a l1 -> list_at s b l2 ->
  exists rs, elementwise2_at f a b (length l1) s = Ret rs s /\
    Forall2 (fun tu r => use r s = Ret (match f (fst tu) (snd tu) with
                                        | inl x => inl x | inr true => inr (fst tu) | inr false => inr (snd tu) end) s)
            (combine l1 l2) rs.
Proof. exact (@elementwise2_points). Qed.
Print Assumptions C126_elementwise2_partial.

(** with apply every result that points at the argument dangles, for every list; results of any other kind are right *)
Theorem C126_apply_refuted :
  forall (T X : Type) (f : T -> option X) s a (l : list T), list_at s a l ->
  exists rs s', apply_at f a (length l) s = Ret rs s' /\ list_at s' a l /\
    Forall2 (fun t r => use r s' = match f t with Some x => Ret (inl x) s' | None => Ub UbDangling end) l rs.
Proof. exact (@apply_dangles). Qed.
Print Assumptions C126_apply_refuted.

(** the list 7,9 at address 1; f returns a value for 7 and points at any other *)
Example C126_example :
  let s := [None; Some 7; Some 9; Some 0] in
  let f n := if n =? 7 then Some true else None in
  (forall i t, nth_error [7; 9] i = Some t -> nth_error s (1 + i) = Some (Some t)) /\
  elementwise_at f 1 2 s = Ret [Own true; Address 2] s /\
  apply_at f 1 2 s = Ret [Own true; Address 5] (s ++ [None; None]) /\
  use (X:=bool) (Address 2) s = Ret (inr 9) s /\
  use (X:=bool) (Address 5) (s ++ [None; None]) = Ub UbDangling.
Proof.
  cbv zeta. split; [|vm_compute; repeat split].
  intros [|[|[|i]]] t H; cbn in H |- *; congruence.
Qed.

(** ** C127
    intended: apply(f,l) and elementwise(f,l) call f once for each element l has when they are called, in order, whatever f
    does with l meanwhile:
      apply_call f v = on_each f (elems v) v /\ elementwise_call fuel f v = on_each f (elems v) v   for enough fuel *)
(** it holds if f only reads l *)
Theorem C127_reading_partial :
  forall (T R : Type) (f : T -> prog T R) fuel v, (forall x, reads_only (f x)) -> length (elems v) < fuel ->
  apply_call f v = on_each f (elems v) v /\ elementwise_call fuel f v = on_each f (elems v) v.
Proof. exact (@reading). Qed.
Print Assumptions C127_reading_partial.

(** if f also assigns to elements of l, both go by what the elements are by then *)
Theorem C127_assigning_partial :
  forall (T R : Type) (f : T -> prog T R) fuel v, (forall x, keeps_size (f x)) -> length (elems v) < fuel ->
  apply_call f v = on_current f 0 (length (elems v)) v /\ elementwise_call fuel f v = on_current f 0 (length (elems v)) v.
Proof. exact (@assigning). Qed.
Print Assumptions C127_assigning_partial.

Theorem C127_assigning_refuted :
  exists (f : nat -> prog nat nat) v, (forall x, keeps_size (f x)) /\
  (exists v', on_each f (elems v) v = Ret [1; 2] v') /\ (exists v', apply_call f v = Ret [1; 9] v').
Proof.
  exact (ex_intro _ (fun x => Assign 1 9 (Return x)) (ex_intro _ (mkVec [1; 2] 0)
    (conj (fun _ => I) (conj (ex_intro _ (mkVec [1; 9] 0) eq_refl) (ex_intro _ (mkVec [1; 9] 0) eq_refl))))).
Qed.
Print Assumptions C127_assigning_refuted.

(** with apply, a call for the first element that changes the size of l makes behaviour undefined *)
Theorem C127_apply_refuted :
  forall (T R : Type) (f : T -> prog T R) v v' x l r,
  elems v = x :: l -> run_prog (f x) v = Ret r v' -> epoch v' <> epoch v -> apply_call f v = Ub UbDangling.
Proof. exact (@apply_resized). Qed.
Print Assumptions C127_apply_refuted.

(** with elementwise, a function that appends never lets the loop end *)
Theorem C127_appending_refuted :
  forall (T : Type) fuel (v : vec T), elems v <> [] -> elementwise_call fuel (fun x => Push x (Return x)) v = Fuel.
Proof. exact (@pushes_forever). Qed.
Print Assumptions C127_appending_refuted.

(** and with one that removes the last element, the loop ends half way, or misses the end *)
Theorem C127_removing_even_refuted :
  forall (T : Type) m i fuel (v : vec T), length (elems v) = i + 2 * m -> m < fuel ->
  exists e, elementwise_from fuel (fun x => Pop (Return x)) i v =
            Ret (firstn m (skipn i (elems v))) (mkVec (firstn (i + m) (elems v)) e).
Proof. exact (@pops_even). Qed.
Print Assumptions C127_removing_even_refuted.

Theorem C127_removing_odd_refuted :
  forall (T : Type) m i fuel (v : vec T), length (elems v) = i + 2 * m + 1 -> m + 1 < fuel ->
  elementwise_from fuel (fun x => Pop (Return x)) i v = Ub UbOutOfBounds.
Proof. exact (@pops_odd). Qed.
Print Assumptions C127_removing_odd_refuted.

(** a function that reads: the difference to the first element, 0 if there is none; and the others *)
Example C127_example :
  let f x := Size (fun n => if n =? 0 then Return 0 else Get 0 (fun y => Return (x - y))) in
  let v := mkVec [3; 5; 9] 4 in
  (forall x, reads_only (f x)) /\ apply_call f v = Ret [0; 2; 6] v /\ elementwise_call 4 f v = Ret [0; 2; 6] v /\
  apply_call (fun x => Push x (Return x)) v = Ub UbDangling /\
  elementwise_call 10 (fun x => Pop (Return x)) (mkVec [1; 2; 3; 4] 0) = Ret [1; 2] (mkVec [1; 2] 2) /\
  elementwise_call 10 (fun x => Pop (Return x)) v = Ub UbOutOfBounds /\
  elementwise_call 10 (fun x => Throw (T:=nat) (R:=nat) (EUser x)) v = Exc (EUser 3) v.
Proof.
  cbv zeta. split; [|vm_compute; repeat split]. intros x n. destruct (n =? 0); cbn; auto.
Qed.
