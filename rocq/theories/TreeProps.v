(** TreeProps.v -- the property C123: HELPER_TEST_GRID_TREE_SUBPAVING_ITERATOR.  Statements only; the lemmas are in
    TreeProofs.v. *)
From Verif Require Import Base StreamModel MacroModel MacroSpec TestModel TestSpec TreeModel TreeSpec TreeProofs.
From Coq Require Import String.
Open Scope list_scope.
Open Scope Z_scope.

(** ** C123
    intended: for every expression for the subpaving, and every expression for the number, evaluated once, with value m,
      the check adds wrong_items expected items m to HELPER_TEST_FAILURES.
    False if the number is a variable that the client calls elements_count: the check passes, whatever is iterated over and
    whatever is expected. *)
Theorem C123_captured_name_refuted :
  forall (W : Type) (call : nat -> list Z -> W -> callres W) (ltr : bool) (l : loc) (expected : list (option Z)) (ntxt : text)
         (items : list Z) (s : st W),
  exists s', subpaving_check call ltr l expected ntxt (EVar "elements_count") (Object items) s = Norm tt s' /\
             s_frames s' = s_frames s.
Proof. exact @captured_check. Qed.
Print Assumptions C123_captured_name_refuted.

Definition no_call (f : nat) (l : list Z) (w : Z) : callres Z := CRet 0 w.
(** function 0 counts its calls *)
Definition next_call (f : nat) (l : list Z) (w : Z) : callres Z := CRet (w + 1) (w + 1).
Definition there : loc := mkLoc (chars "t.cpp") 9 (chars "main").
(** three elements expected, one found: there should be a failure *)
Example C123_example_captured :
  wrong_items [Some 4; Some 5; Some 6] [7] 3 = 2 /\
  match subpaving_check no_call true there [Some 4; Some 5; Some 6] (chars "elements_count") (EVar "elements_count") (Object [7])
          (start [("elements_count"%string, 3)] 0) with
  | Norm _ s' => counter "HELPER_TEST_FAILURES" s' 0 | _ => False end.
Proof. vm_compute. split; reflexivity. Qed.

(** False if the subpaving is returned by a function: begin() and end() belong to two temporaries, and both are gone. *)
Theorem C123_temporary_refuted :
  forall (W : Type) (call : nat -> list Z -> W -> callres W) (ltr : bool) (l : loc) (expected : list (option Z)) (ntxt : text)
         (n : expr) (items : list Z) (s : st W),
  subpaving_check call ltr l expected ntxt n (Temporary items) s = Undef UbDangling.
Proof. exact (fun W call ltr l expected ntxt n items s => eq_refl). Qed.
Print Assumptions C123_temporary_refuted.

(** False if evaluating the number has effects: it is evaluated for every element and again at the end. *)
Theorem C123_effects_refuted :
  exists s', subpaving_check next_call true there [Some 4; Some 5] (chars "next()") (ECall1 0 (ELit 0)) (Object [4; 5]) (start [] 1)
             = Norm tt s' /\ counter "HELPER_TEST_FAILURES" s' 1 /\
  eval next_call true (ECall1 0 (ELit 0)) (start [] 1) = Norm 2 (start [] 2) /\ wrong_items [Some 4; Some 5] [4; 5] 2 = 0.
Proof. eexists. split; [vm_compute; reflexivity|]. repeat split. Qed.
Print Assumptions C123_effects_refuted.

(** It holds for an object and an arithmetic expression that mentions none of the names the macro uses; nothing else changes. *)
Theorem C123_counts_partial :
  forall (W : Type) (call : nat -> list Z -> W -> callres W) (ltr : bool) (l : loc) (expected : list (option Z)) (ntxt : text)
         (n : expr) (z : Z) (items : list Z) (s : st W) (f : Z),
  arithmetic n = true -> keeps_out n -> value1 call ltr n s = Some z -> 0 <= z -> provided expected items (Z.to_nat z) ->
  counter "HELPER_TEST_FAILURES" s f -> 0 <= f -> f + Z.of_nat (List.length items) + 1 < 2 ^ 31 ->
  exists s', subpaving_check call ltr l expected ntxt n (Object items) s = Norm tt s' /\
    s_frames s' = assign "HELPER_TEST_FAILURES" (CVal (f + wrong_items expected items (Z.to_nat z))) (s_frames s) /\
    s_statics s' = s_statics s /\ s_world s' = s_world s.
Proof. exact @counting_check. Qed.
Print Assumptions C123_counts_partial.
(** and so it passes exactly if the elements are those expected *)
Theorem C123_passes_partial :
  forall (expected : list (option Z)) (items : list Z) (m : nat), provided expected items m ->
  (wrong_items expected items m = 0 <-> firstn m expected = map Some items /\ List.length items = m).
Proof. exact nothing_wrong. Qed.
Print Assumptions C123_passes_partial.
(** the check is not survived if one of the elements needed is missing from the vector, or a null pointer *)
Theorem C123_missing_partial :
  forall (W : Type) (call : nat -> list Z -> W -> callres W) (ltr : bool) (l : loc) (expected : list (option Z)) (ntxt : text)
         (n : expr) (z : Z) (items : list Z) (s : st W) (f : Z) (i : nat),
  arithmetic n = true -> keeps_out n -> value1 call ltr n s = Some z -> 0 <= z ->
  (i < Z.to_nat z)%nat -> (i < List.length items)%nat -> (forall x, nth_error expected i <> Some (Some x)) ->
  counter "HELPER_TEST_FAILURES" s f -> 0 <= f -> f + Z.of_nat (List.length items) + 1 < 2 ^ 31 ->
  exists r, subpaving_check call ltr l expected ntxt n (Object items) s = Undef r.
Proof. exact @missing_check. Qed.
Print Assumptions C123_missing_partial.
(** the number is x - 1 with x = 5; one of the first four elements differs, and there is one element too many *)
Example C123_example :
  let n := ESub (EVar "x") (ELit 1) in let s := start [("x"%string, 5)] 0 in
  arithmetic n = true /\ keeps_out n /\ value1 no_call true n s = Some 4 /\
  provided [Some 1; Some 2; Some 3; Some 4; None] [1; 2; 8; 4; 9] 4 /\ counter "HELPER_TEST_FAILURES" s 0 /\
  wrong_items [Some 1; Some 2; Some 3; Some 4; None] [1; 2; 8; 4; 9] 4 = 2 /\
  match subpaving_check no_call true there [Some 1; Some 2; Some 3; Some 4; None] (chars "x-1") n (Object [1; 2; 8; 4; 9]) s with
  | Norm _ s' => counter "HELPER_TEST_FAILURES" s' 2 | _ => False end.
Proof.
  cbv zeta. split; [reflexivity|]. split.
  { intros x [<- | [<- | [<- | [<- | [<- | []]]]]]; reflexivity. }
  split; [reflexivity|]. split.
  { intros i Hi _. do 4 (destruct i; [eexists; reflexivity|]). lia. }
  split; [reflexivity|]. split; vm_compute; reflexivity.
Qed.
(** fewer elements than expected *)
Example C123_example_fewer :
  wrong_items [Some 1; Some 2; Some 3] [1; 2] 3 = 1 /\ wrong_items [Some 1; Some 2; Some 3] [1; 2; 3] 3 = 0 /\
  provided [Some 1; Some 2; Some 3] [1; 2] 3.
Proof.
  split; [reflexivity|]. split; [reflexivity|]. intros i Hi _. do 3 (destruct i; [eexists; reflexivity|]). lia.
Qed.
(** a vector that is too short, or holds a null pointer, is not survived *)
Example C123_example_short :
  subpaving_check no_call true there [Some 1] (chars "2") (ELit 2) (Object [1; 2]) (start [] 0) = Undef UbOutOfBounds /\
  subpaving_check no_call true there [Some 1; None] (chars "2") (ELit 2) (Object [1; 2]) (start [] 0) = Undef UbNull /\
  exists s', subpaving_check no_call true there [Some 1] (chars "2") (ELit 2) (Object [1]) (start [] 0) = Norm tt s'.
Proof. split; [|split; [|eexists]]; vm_compute; reflexivity. Qed.
