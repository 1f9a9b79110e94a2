(** CleanProps.v -- property C80 of HELPER_CLEAN_TEST_VECTOR. *)
From Verif Require Import Base CleanModel CleanSpec CleanProofs.

(** C80 (HELPER_CLEAN_TEST_VECTOR deletes every object the vector points to and sets all pointers to NULL):
      forall s, (forall p, In p (pointers (cl_vec s)) -> cl_alive s p = true) ->
      exists s', HELPER_CLEAN_TEST_VECTOR s = Ret tt s' /\ ...
    Refuted: an object the vector points to twice is deleted twice; so in every vector. *)
Theorem C80_clean_vector_refuted : forall s : clst,
  ~ NoDup (pointers (cl_vec s)) -> HELPER_CLEAN_TEST_VECTOR s = Ub UbDoubleFree.
Proof. exact clean_repeated. Qed.
(** It holds for vectors without repeated pointers, which may contain NULL; other objects stay. *)
Theorem C80_clean_vector_partial : forall s : clst,
  NoDup (pointers (cl_vec s)) -> (forall p, In p (pointers (cl_vec s)) -> cl_alive s p = true) ->
  exists s', HELPER_CLEAN_TEST_VECTOR s = Ret tt s' /\ cl_vec s' = repeat None (length (cl_vec s)) /\
    (forall p, In p (pointers (cl_vec s)) -> cl_alive s' p = false) /\
    (forall p, ~ In p (pointers (cl_vec s)) -> cl_alive s' p = cl_alive s p).
Proof. exact clean_distinct. Qed.
Example C80_example :
  let al := fun p => Nat.ltb p 9 in
  ~ NoDup (pointers [Some 4; None; Some 4]) /\ HELPER_CLEAN_TEST_VECTOR (mkCl al [Some 4; None; Some 4]) = Ub UbDoubleFree /\
  NoDup (pointers [Some 4; None; Some 2]) /\
  match HELPER_CLEAN_TEST_VECTOR (mkCl al [Some 4; None; Some 2]) with
  | Ret _ s => cl_vec s = [None; None; None] /\ map (cl_alive s) [2; 3; 4] = [false; true; false]
  | _ => False
  end.
Proof.
  split; [intros H; inversion H as [|? ? Hn _]; apply Hn; simpl; auto|]. split; [reflexivity|].
  split; [repeat constructor; simpl; intuition discriminate|]. split; reflexivity.
Qed.
Print Assumptions C80_clean_vector_refuted.
Print Assumptions C80_clean_vector_partial.
