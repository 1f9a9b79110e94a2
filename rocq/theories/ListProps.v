(** ListProps.v -- properties C21-C23 of the list functions of container.hpp. *)
From Verif Require Import Base ListModel ListSpec ListProofs.

(** ** C21.  [limit] is the largest size push_back supports (max_size or memory). *)
Theorem C21_list_append_builds_concatenation :
  forall (T : Type) (limit : Z) (st : nat -> list T) d s t fuel,
  d <> s -> (Z.of_nat (length (st s)) < 2 ^ 32)%Z ->
  (Z.of_nat (length (st d) + length (st s)) < limit)%Z -> length (st s) < fuel ->
  (exists st', append limit fuel d s st = Ret tt st' /\ concatenate limit fuel d s st = Ret tt st' /\
               st' d = st d ++ st s /\ (forall v, v <> d -> st' v = st v)) /\
  (exists st', append_elem limit d t st = Ret tt st' /\
               st' d = st d ++ [t] /\ (forall v, v <> d -> st' v = st v)) /\
  catenate limit (st d) (st s) = Ret (st d ++ st s) tt /\
  catenate_elem limit (st d) t = Ret (st d ++ [t]) tt.
Proof. exact @append_builds. Qed.
Print Assumptions C21_list_append_builds_concatenation.
Example C21_example :
  let st := set_var (set_var (fun _ => []) 0 [1; 2]) 1 [3; 4] in
  exists st', append 100 10 0 1 st = Ret tt st' /\ st' 0 = [1; 2; 3; 4] /\ st' 1 = [3; 4].
Proof. eexists. split; [reflexivity|]. split; reflexivity. Qed.

(** The bound 2^32 of the quantifier is sharp: for a longer argument the 32-bit counter never meets
    size(), whatever the amount of fuel. *)
Theorem C21_list_append_needs_32_bits :
  forall (T : Type) (limit : Z) (st : nat -> list T) d s fuel, d <> s ->
  (2 ^ 32 <= Z.of_nat (length (st s)))%Z -> no_return (append limit fuel d s st).
Proof. exact @append_big. Qed.
Print Assumptions C21_list_append_needs_32_bits.
Example C21_big_example : exists l : list unit, (2 ^ 32 <= Z.of_nat (length l))%Z.
Proof. exists (repeat tt (Z.to_nat (2 ^ 32))). rewrite repeat_length, Z2Nat.id; lia. Qed.

(** ** C22: intended statement
      forall st d, exists fuel st', append fuel d d st = Ret tt st' /\ st' d = st d ++ st d, and the same of concatenate.
    False for every non-empty list: the loop never returns normally; it ends in an exception of
    push_back after the list has grown to the limit. *)
Theorem C22_list_self_append_refuted :
  forall (T : Type) (limit : Z) (st : nat -> list T) d, st d <> [] ->
  Forall (fun member : nat -> nat -> nat -> M (nat -> list T) unit =>
    (forall fuel, no_return (member fuel d d st)) /\
    (forall fuel, (Z.of_nat (length (st d)) <= limit)%Z ->
       (limit - Z.of_nat (length (st d)) < Z.of_nat fuel)%Z ->
       exists st' ext, member fuel d d st = Exc ELength st' /\
         st' d = st d ++ ext /\ Z.of_nat (length (st' d)) = limit /\ (forall v, v <> d -> st' v = st v)))
    [append limit; concatenate limit].
Proof. exact @append_self. Qed.
Print Assumptions C22_list_self_append_refuted.
Example C22_witness :
  exists st', append 8 100 0 0 (set_var (fun _ => []) 0 [1; 2; 3]) = Exc ELength st' /\
    st' 0 = [1; 2; 3; 1; 2; 3; 1; 2].
Proof. eexists. split; reflexivity. Qed.

(** What holds of C22: the empty list, and the catenate function, which works on a copy. *)
Theorem C22_list_self_append_partial :
  forall (T : Type) (limit : Z) (st : nat -> list T) d fuel,
  (st d = [] -> append limit (S fuel) d d st = Ret tt st /\ concatenate limit (S fuel) d d st = Ret tt st) /\
  ((Z.of_nat (length (st d) + length (st d)) <= limit)%Z ->
     catenate limit (st d) (st d) = Ret (st d ++ st d) tt).
Proof. exact (fun T limit st d fuel => conj (append_self_empty limit st d fuel) (catenate_ok limit (st d) (st d))). Qed.
Print Assumptions C22_list_self_append_partial.
Example C22_partial_example : catenate 8 [1; 2; 3] [1; 2; 3] = Ret [1; 2; 3; 1; 2; 3] tt.
Proof. reflexivity. Qed.

(** ** C23 *)
Theorem C23_apply_calls_once_in_order :
  (forall (S T R : Type) (f : T -> M S R) l s, pass f l s (apply f l s)) /\
  (forall (S T R : Type) (f : T -> M S R) l s fuel,
     (Z.of_nat (length l) < 2 ^ 64)%Z -> length l < fuel -> pass f l s (elementwise fuel f l s)) /\
  (forall (S T1 T2 R : Type) (f : T1 -> T2 -> M S R) l1 l2 s fuel,
     (Z.of_nat (length l1) < 2 ^ 64)%Z -> length l1 < fuel ->
     (length l1 = length l2 -> forall ndebug,
        pass (fun p => f (fst p) (snd p)) (combine l1 l2) s (elementwise2 ndebug fuel f l1 l2 s)) /\
     (length l1 <> length l2 -> elementwise2 false fuel f l1 l2 s = Abort)).
Proof. exact (conj (@apply_once) (conj (@elementwise_once) (@elementwise2_once))). Qed.
Print Assumptions C23_apply_calls_once_in_order.
(** a function that counts and logs its calls, and throws at the third *)
Example C23_example :
  let f := fun x (s : list nat) => if Nat.leb 2 (length s) then Exc (EUser 7) s else Ret (x * x) (s ++ [x]) in
  apply f [3; 4] [] = Ret [9; 16] [3; 4] /\ apply f [3; 4; 5; 6] [] = Exc (EUser 7) [3; 4] /\
  elementwise 10 f [3; 4] [] = Ret [9; 16] [3; 4] /\
  elementwise2 false 10 (fun x y => f (x + y)) [1; 2] [5] [] = Abort.
Proof. repeat split. Qed.
(** and in a build without asserts (NDEBUG) unequal lengths are undefined behaviour *)
Theorem C23_elementwise_ndebug_undefined :
  forall (S T1 T2 R : Type) (f : T1 -> T2 -> M S R) l1 l2 s fuel,
  (Z.of_nat (length l1) < 2 ^ 64)%Z -> length l2 < length l1 -> length l1 < fuel ->
  (forall x y s1, exists r s2, f x y s1 = Ret r s2) ->
  elementwise2 true fuel f l1 l2 s = Ub UbOutOfBounds.
Proof. exact @elementwise2_ndebug_short. Qed.
Print Assumptions C23_elementwise_ndebug_undefined.
Example C23_ndebug_example : elementwise2 true 10 (fun x y (s : unit) => Ret (x + y) s) [1; 2] [5] tt = Ub UbOutOfBounds.
Proof. reflexivity. Qed.
