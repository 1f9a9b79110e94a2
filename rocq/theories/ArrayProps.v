(** ArrayProps.v -- properties C08 to C18 of include/array.hpp (class Array and complement). *)
From Verif Require Import Base ArrayModel ArraySpec ArrayProofs ArrayStep ArrayThms ArrayComplement ArrayPrograms.
From Coq Require Import Sorted.
Open Scope nat_scope.

(** the state in which the examples start: elements of 4 bytes, array 0 = {1,2,3}, array 1 = {7,8}, variables 2
    and 3 not in scope; [f] tells which of the next operations fails *)
Definition id_Z (x : Z) : Z := x.
Definition ne_Z (x y : Z) : bool := negb (x =? y)%Z.
Definition demo (f : option nat) : st Z :=
  mkSt [Arr 3 (Some 0); Arr 2 (Some 1); Dead; Dead]
       [mkBlk 12 [Some 1; Some 2; Some 3]%Z false; mkBlk 8 [Some 7; Some 8]%Z false] 5 0 f.
Example demo_reached :
  run 4 0%Z ne_Z [(OpFrom 0 (SList id_Z [1; 2; 3]%Z), None); (OpFrom 1 (SList id_Z [7; 8]%Z), None)] (init 4) = Ret [ODone; ODone] (demo None).
Proof. vm_compute. reflexivity. Qed.
Example demo_holds f : holds (demo f) 0 [1; 2; 3]%Z /\ holds (demo f) 1 [7; 8]%Z /\ sole_owner (demo f) 0 /\ new_var (demo f) 2.
Proof.
  split; [reflexivity|]. split; [reflexivity|]. split; [|reflexivity].
  intros c n m b H1 H2. injection H1 as _ <-. destruct c as [|[|[|[|c]]]]; try discriminate; [reflexivity|]. destruct c; discriminate.
Qed.

(** C08 (arrays are independent values):
      every program over Array variables computes what it computes on independent sequences.
    Refuted by assign(first,last) with a range inside the array itself (see C16). *)
Theorem C08_independent_values_refuted : forall V (sz : Z) (dflt : V) neq l,
  (0 < sz)%Z -> 1 < length l -> allocatable sz (length l) ->
  run sz dflt neq [(OpFrom 0 (SList (fun v => v) l), None); (OpAssignRange 0 (SRange (fun v => v) 0 0 1), None)] (init 1) = Ub UbDangling.
Proof. exact (fun V sz dflt neq l H => own_range_program sz dflt neq H l). Qed.
(** Holds for all other programs, even if allocations and element operations fail on the way, as long as no copy
    assignment or reallocate that changes the size fails (see C14).  [sexec] runs the program on independent
    sequences; it gives no result if the program is ill formed or contains one of these two cases. *)
Theorem C08_independent_values_partial : forall V (sz : Z) (dflt : V) neq (eq_dec : forall x y : V, {x = y} + {x <> y}),
  (0 < sz)%Z -> (forall x y, neq x y = true <-> x <> y) ->
  forall n p l m, sexec sz dflt eq_dec (vinit n) p = Some (l, m) ->
    exists s', run sz dflt neq p (init n) = Ret l s' /\
      (forall a own k, nth_error (store m) a = Some (VArr own k) -> contents s' a = Some k) /\
      (forall a, nth_error (store m) a = Some VDead -> nth_error (vars s') a = Some Dead).
Proof. exact (fun V sz dflt neq eq_dec H1 H2 => program_values sz dflt neq eq_dec H1 H2). Qed.
Definition demo_program : list (op Z * option nat) :=
  [(OpFrom 0 (SList id_Z [1; 2; 3]%Z), None); (OpCopy 1 0 id_Z, None); (OpSet 1 0 (AVal 9%Z), None); (OpEq 0 1, None);
   (OpResize 0 5 (Some (AElem 0 2)), None); (OpMove 2 0, None); (OpSwap 1 2, None); (OpList 1, None); (OpList 2, None);
   (OpAssign 0 1, None); (OpAssignRange 2 (SRange id_Z 1 1 3), None); (OpAt 2 7, None); (OpCopy 3 1 id_Z, Some 2);
   (OpList 2, None); (OpLen 0, None)].
Example C08_example :
  sexec 4 0%Z Z.eq_dec (vinit 4) demo_program =
  Some ([ODone; ODone; ODone; OBool false; ODone; ODone; ODone; OVals [1; 2; 3; 3; 3]; OVals [9; 2; 3];
         ODone; ODone; OExc EOutOfRange; OExc (EUser 0); OVals [2; 3]; ONat 5]%Z,
        mkVst [VArr true [Some 1; Some 2; Some 3; Some 3; Some 3]; VArr true [Some 1; Some 2; Some 3; Some 3; Some 3];
               VArr true [Some 2; Some 3]; VDead]%Z 1 1).
Proof. vm_compute. reflexivity. Qed.
Print Assumptions C08_independent_values_refuted.
Print Assumptions C08_independent_values_partial.

(** C09 (storage is released exactly once and nothing leaks):
      when all variables have been destroyed, every block has been released once and every element destroyed once.
    Refuted: move assignment forgets the storage and the elements of its target, for every size. *)
Theorem C09_no_leak_refuted : forall V (sz : Z) (dflt : V) neq (eq_dec : forall x y : V, {x = y} + {x <> y}),
  (0 < sz)%Z -> (forall x y, neq x y = true <-> x <> y) ->
  forall n, allocatable sz n ->
    exists s', run sz dflt neq [(OpSize 0 n, None); (OpDefault 1, None); (OpMoveAssign 0 1, None); (OpDestroy 0, None); (OpDestroy 1, None)] (init 2)
               = Ret [ODone; ODone; ODone; ODone; ODone] s' /\
      vars s' = [Dead; Dead] /\ unreleased s' = 1 /\ made s' = gone s' + n.
Proof. exact (fun V sz dflt neq eq_dec H1 H2 n => move_assign_loses sz dflt neq eq_dec H1 H2 n). Qed.
(** Holds for programs without move assignment, placement new, failures and the two cases of C08 *)
Theorem C09_no_leak_partial : forall V (sz : Z) (dflt : V) neq (eq_dec : forall x y : V, {x = y} + {x <> y}),
  (0 < sz)%Z -> (forall x y, neq x y = true <-> x <> y) ->
  forall n p l m, sexec sz dflt eq_dec (vinit n) p = Some (l, m) -> all_destroyed m ->
    Forall (fun of => may_lose (fst of) = false /\ snd of = None) p ->
    exists s', run sz dflt neq p (init n) = Ret l s' /\ unreleased s' = 0 /\ made s' = gone s'.
Proof. exact (fun V sz dflt neq eq_dec H1 H2 => program_no_loss sz dflt neq eq_dec H1 H2). Qed.
(** In general exactly what [sexec] counts as lost is lost: the target of a move assignment, an element overwritten
    by placement new, and what a failing constructor or resize had created. *)
Theorem C09_exact_losses_partial : forall V (sz : Z) (dflt : V) neq (eq_dec : forall x y : V, {x = y} + {x <> y}),
  (0 < sz)%Z -> (forall x y, neq x y = true <-> x <> y) ->
  forall n p l m, sexec sz dflt eq_dec (vinit n) p = Some (l, m) -> all_destroyed m ->
    exists s', run sz dflt neq p (init n) = Ret l s' /\ unreleased s' = lost_blocks m /\ made s' = gone s' + lost_elems m.
Proof. exact (fun V sz dflt neq eq_dec H1 H2 => program_balance sz dflt neq eq_dec H1 H2). Qed.
Example C09_example :
  let p := [(OpSize 0 3, None); (OpCopy 1 0 id_Z, None); (OpResize 1 5 None, None); (OpAssign 0 1, None);
            (OpMove 2 0, None); (OpDestroy 0, None); (OpDestroy 1, None); (OpDestroy 2, None)] in
  exists l m, sexec 4 0%Z Z.eq_dec (vinit 3) p = Some (l, m) /\ all_destroyed m /\
    Forall (fun of => may_lose (fst of) = false /\ snd of = None) p.
Proof. do 2 eexists. split; [vm_compute; reflexivity|]. split; repeat constructor. Qed.
Example C09_example_lost :
  let p := [(OpSize 0 3, None); (OpSize 1 2, None); (OpMoveAssign 0 1, None); (OpCopy 2 0 id_Z, Some 2); (OpDestroy 0, None); (OpDestroy 1, None)] in
  exists l m, sexec 4 0%Z Z.eq_dec (vinit 3) p = Some (l, m) /\ all_destroyed m /\ lost_blocks m = 2 /\ lost_elems m = 4.
Proof. do 2 eexists. split; [vm_compute; reflexivity|]. split; [repeat constructor|]. split; reflexivity. Qed.
Print Assumptions C09_no_leak_refuted.
Print Assumptions C09_no_leak_partial.
Print Assumptions C09_exact_losses_partial.

(** C10 (resize keeps the common prefix, even when the filler is an element of the array itself). *)
Theorem C10_resize : forall V (sz : Z) (dflt : V),
  (0 < sz)%Z -> forall s a l n t x, holds s a l -> no_failure s -> allocatable sz n -> filler_is dflt s t x ->
  exists s' l', a_resize sz dflt a n t s = Ret tt s' /\ holds s' a l' /\ length l' = n /\
    (forall i, i < n -> i < length l -> nth_error l' i = nth_error l i) /\
    (forall i, i < n -> length l <= i -> nth_error l' i = Some x) /\
    (sole_owner s a -> others_kept s s' a).
Proof. exact (fun V sz dflt H s a l n t x => resize_spec sz dflt H s a l n t x). Qed.
Example C10_example : exists s', a_resize 4 0%Z 0 5 (Some (AElem 0 1)) (demo None) = Ret tt s' /\ holds s' 0 [1; 2; 3; 2; 2]%Z.
Proof. eexists. split; [vm_compute; reflexivity|]. reflexivity. Qed.
Example C10_example_filler : filler_is 0%Z (demo None) (Some (AElem 0 1)) 2%Z.
Proof. exists [1; 2; 3]%Z. split; reflexivity. Qed.
Print Assumptions C10_resize.

(** C11 (checked access accepts exactly the valid indices). *)
Theorem C11_at : forall V (s : st V) a l i, holds s a l ->
  a_at a i s = match nth_error l i with Some v => Ret v s | None => Exc EOutOfRange s end.
Proof. exact (fun V s a l i => at_exact s a l i). Qed.
Theorem C11_at_write : forall V (s : st V) a l i t x, holds s a l -> arg_is s t x -> no_failure s ->
  match nth_error l i with
  | Some _ => exists s', a_set_at a i t s = Ret tt s' /\ holds s' a (upd i x l) /\ (sole_owner s a -> others_kept s s' a)
  | None => a_set_at a i t s = Exc EOutOfRange s
  end.
Proof. exact (fun V s a l i t x => set_at_exact s a l i t x). Qed.
Example C11_example : a_at 0 2 (demo None) = Ret 3%Z (demo None) /\ a_at 0 3 (demo None) = Exc EOutOfRange (demo None).
Proof. split; reflexivity. Qed.
Print Assumptions C11_at.
Print Assumptions C11_at_write.

(** C12 (equality is equality of contents). *)
Theorem C12_equality : forall V (neq : V -> V -> bool) (s : st V) a b l l',
  (forall x y, neq x y = false <-> x = y) -> holds s a l -> holds s b l' ->
  exists e, a_eq neq a b s = Ret e s /\ a_ne neq a b s = Ret (negb e) s /\ (e = true <-> l = l').
Proof. exact (fun V neq s a b l l' => eq_exact neq s a b l l'). Qed.
Example C12_example :
  a_eq ne_Z 0 1 (demo None) = Ret false (demo None) /\ a_ne ne_Z 0 0 (demo None) = Ret false (demo None) /\
  (forall x y, ne_Z x y = false <-> x = y).
Proof.
  split; [reflexivity|]. split; [reflexivity|]. intros x y. unfold ne_Z. rewrite Bool.negb_false_iff. apply Z.eqb_eq.
Qed.
Print Assumptions C12_equality.

(** C13 (a failing constructor releases what it acquired):
      if an element fails, the elements before it are destroyed and the storage is released.
    Refuted: for every constructor that creates elements, every length and every position of the failing element,
    the block and the elements before it stay. *)
Theorem C13_failing_constructor_refuted : forall V (sz : Z) (dflt : V) neq,
  (0 < sz)%Z -> forall s d o vs j, new_var s d -> constructs dflt s d o vs -> allocatable sz (length vs) ->
  j < length vs -> cd s = Some (S j) ->
  exists s', exec_op sz dflt neq o s = Exc (EUser 0) s' /\ vars s' = vars s /\
    unreleased s' = unreleased s + 1 /\ made s' = made s + j /\ gone s' = gone s.
Proof. exact (fun V sz dflt neq H => failing_constructor_leaks sz dflt neq H). Qed.
(** Holds if it is the allocation that fails *)
Theorem C13_failing_allocation_partial : forall V (sz : Z) (dflt : V) neq,
  (0 < sz)%Z -> forall s d o vs, new_var s d -> constructs dflt s d o vs -> sane sz (length vs) = true ->
  cd s = Some 0 \/ ~ allocatable sz (length vs) ->
  exists s', exec_op sz dflt neq o s = Exc EBadAlloc s' /\ vars s' = vars s /\ heap s' = heap s /\ made s' = made s /\ gone s' = gone s.
Proof. exact (fun V sz dflt neq H => failing_allocation_clean sz dflt neq H). Qed.
Example C13_example : constructs 0%Z (demo (Some 2)) 2 (OpCopy 2 0 id_Z) [1; 2; 3]%Z /\ new_var (demo (Some 2)) 2 /\ allocatable 4 3 /\
  exists s', exec_op 4 0%Z ne_Z (OpCopy 2 0 id_Z) (demo (Some 2)) = Exc (EUser 0) s' /\ unreleased s' = 3.
Proof.
  split; [exact (CCopy 0%Z (demo (Some 2)) 2 0 id_Z [1; 2; 3]%Z eq_refl)|]. split; [reflexivity|]. split; [unfold allocatable; reflexivity|].
  eexists. split; [vm_compute; reflexivity|]. reflexivity.
Qed.
Print Assumptions C13_failing_constructor_refuted.
Print Assumptions C13_failing_allocation_partial.

(** C14 (a failing assignment or resize leaves the array destructible):
      if copy assignment, resize or reallocate throws, the array can still be read, assigned to and destroyed;
      resize leaves the old contents in place.
    Refuted: whenever copy assignment between arrays of different size or reallocate to a different size throws,
    wherever the failure occurs, destroying the array is undefined behaviour. *)
Theorem C14_failing_assignment_refuted : forall V (sz : Z),
  (0 < sz)%Z -> forall (s : st V) d a l l' k, holds s d l -> holds s a l' -> length l <> length l' -> allocatable sz (length l') ->
  cd s = Some k -> k <= length l' ->
  exists e s', a_assign sz d a s = Exc e s' /\ exists r, a_destroy d s' = Ub r.
Proof. exact (fun V sz H => assign_failure_breaks sz H). Qed.
Theorem C14_failing_reallocate_refuted : forall V (sz : Z) (dflt : V),
  (0 < sz)%Z -> forall s a l n k, holds s a l -> n <> length l -> allocatable sz n -> cd s = Some k -> k <= n ->
  exists e s', a_reallocate sz dflt a n s = Exc e s' /\ exists r, a_destroy a s' = Ub r.
Proof. exact (fun V sz dflt H => reallocate_failure_breaks sz dflt H). Qed.
(** Holds for resize and for copy assignment between arrays of equal size *)
Theorem C14_failing_resize_partial : forall V (sz : Z) (dflt : V),
  (0 < sz)%Z -> forall s a l n t x k, holds s a l -> n <> length l -> allocatable sz n -> filler_is dflt s t x -> cd s = Some k -> k <= n ->
  exists s', a_resize sz dflt a n t s = Exc (match k with 0 => EBadAlloc | _ => EUser 0 end) s' /\ vars s' = vars s /\ all_kept s s'.
Proof. exact (fun V sz dflt H => resize_failure sz dflt H). Qed.
Theorem C14_failing_same_size_partial : forall V (sz : Z) (s : st V) d a l l' j,
  holds s d l -> holds s a l' -> length l = length l' -> j < length l -> cd s = Some j ->
  exists s', a_assign sz d a s = Exc (EUser 0) s' /\ holds s' d (firstn j l' ++ skipn j l) /\ (sole_owner s d -> others_kept s s' d).
Proof. exact (fun V sz s d a l l' j => assign_same_size_failure sz s d a l l' j). Qed.
Example C14_example : exists s', a_assign 4 0 1 (demo (Some 1)) = Exc (EUser 0) s' /\ a_destroy 0 s' = Ub UbDangling.
Proof. eexists. split; [vm_compute; reflexivity|]. reflexivity. Qed.
Example C14_example_resize : exists s', a_resize 4 0%Z 0 5 None (demo (Some 4)) = Exc (EUser 0) s' /\ holds s' 0 [1; 2; 3]%Z.
Proof. eexists. split; [vm_compute; reflexivity|]. reflexivity. Qed.
Print Assumptions C14_failing_assignment_refuted.
Print Assumptions C14_failing_reallocate_refuted.
Print Assumptions C14_failing_resize_partial.
Print Assumptions C14_failing_same_size_partial.

(** C15 (construction of any size either throws or provides room for all elements).
    Refuted: for every element size from 2 bytes on there is an n below 2^64 whose n*sizeof(T) wraps around to a small
    number: the array is created with too little storage, and initialising its elements writes past the end. *)
Theorem C15_enough_storage_refuted : forall V (sz : Z) (dflt : V),
  (2 <= sz < 2 ^ 63)%Z -> forall s d, new_var s d -> no_failure s ->
  exists n, (Z.of_nat n < 2 ^ 64)%Z /\
    (exists s' bytes, a_uninit sz d n s = Ret tt s' /\ a_len d s' = Ret n s' /\ storage s' d = Some bytes /\ (bytes < Z.of_nat n * sz)%Z) /\
    a_size sz dflt d n s = Ub UbOutOfBounds.
Proof. exact (fun V sz dflt H => overflow_exists sz dflt H). Qed.
(** Holds if n*sizeof(T) is below 2^64 *)
Theorem C15_enough_storage_partial : forall V (sz : Z) (dflt : V) neq,
  (0 < sz)%Z -> forall s d o vs, new_var s d -> constructs dflt s d o vs -> sane sz (length vs) = true -> no_failure s ->
  (exists s', exec_op sz dflt neq o s = Exc EBadAlloc s' /\ all_kept s s') \/
  (exists s', exec_op sz dflt neq o s = Ret ODone s' /\ holds s' d vs /\ storage s' d = Some (Z.of_nat (length vs) * sz)%Z /\ others_kept s s' d).
Proof. exact (fun V sz dflt neq H => constructor_room sz dflt neq H). Qed.
Example C15_example : exists s', exec_op 4 0%Z ne_Z (OpSize 2 6) (demo None) = Ret ODone s' /\ storage s' 2 = Some 24%Z.
Proof. eexists. split; [vm_compute; reflexivity|]. reflexivity. Qed.
Print Assumptions C15_enough_storage_refuted.
Print Assumptions C15_enough_storage_partial.

(** C16 (assign(first,last) stores the range):
      the array equals the sequence [first,last) as it was before the call, wherever it is stored.
    Refuted: for every nonempty range inside the array itself that is not the whole array, freed storage is read. *)
Theorem C16_assign_own_range_refuted : forall V (sz : Z) (dflt : V),
  (0 < sz)%Z -> forall s a l f i j, holds s a l -> no_failure s -> i < j -> j <= length l -> j - i <> length l -> allocatable sz (length l) ->
  a_assign_range sz dflt a (SRange f a i j) s = Ub UbDangling.
Proof. exact (fun V sz dflt H => assign_range_own sz dflt H). Qed.
(** Holds for ranges outside the array, and for those of the same length as the array *)
Theorem C16_assign_partial : forall V (sz : Z) (dflt : V),
  (0 < sz)%Z -> forall s a l y vs, holds s a l -> src_is s y vs -> no_failure s -> allocatable sz (length vs) -> sole_owner s a ->
  inside a y = false \/ length vs = length l ->
  exists s', a_assign_range sz dflt a y s = Ret tt s' /\ holds s' a vs /\ others_kept s s' a.
Proof. exact (fun V sz dflt H => assign_range_holds sz dflt H). Qed.
Example C16_example : a_assign_range 4 0%Z 0 (SRange id_Z 0 1 3) (demo None) = Ub UbDangling.
Proof. vm_compute. reflexivity. Qed.
Example C16_example_other : src_is (demo None) (SRange id_Z 1 0 2) [7; 8]%Z /\ inside 0 (SRange id_Z 1 0 2) = false /\
  exists s', a_assign_range 4 0%Z 0 (SRange id_Z 1 0 2) (demo None) = Ret tt s' /\ holds s' 0 [7; 8]%Z.
Proof.
  split; [exists [7; 8]%Z; cbn; repeat split; auto|]. split; [reflexivity|]. eexists. split; [vm_compute; reflexivity|]. reflexivity.
Qed.
Print Assumptions C16_assign_own_range_refuted.
Print Assumptions C16_assign_partial.

(** C17 (reallocate(n) yields n default-constructed elements).
    Refuted: reallocate to the present size does nothing. *)
Theorem C17_reallocate_refuted : forall V (sz : Z) (dflt : V) s a l, holds s a l -> a_reallocate sz dflt a (length l) s = Ret tt s.
Proof. exact (fun V sz dflt s a l => reallocate_same sz dflt s a l). Qed.
(** Holds if the size changes *)
Theorem C17_reallocate_partial : forall V (sz : Z) (dflt : V),
  (0 < sz)%Z -> forall s a l n, holds s a l -> no_failure s -> allocatable sz n -> n <> length l ->
  exists s', a_reallocate sz dflt a n s = Ret tt s' /\ holds s' a (repeat dflt n) /\ (sole_owner s a -> others_kept s s' a).
Proof. exact (fun V sz dflt H => reallocate_holds sz dflt H). Qed.
Example C17_example : a_reallocate 4 0%Z 0 3 (demo None) = Ret tt (demo None) /\ holds (demo None) 0 [1; 2; 3]%Z /\
  exists s', a_reallocate 4 0%Z 0 2 (demo None) = Ret tt s' /\ holds s' 0 [0; 0]%Z.
Proof. split; [reflexivity|]. split; [reflexivity|]. eexists. split; [vm_compute; reflexivity|]. reflexivity. Qed.
Print Assumptions C17_reallocate_refuted.
Print Assumptions C17_reallocate_partial.

(** C18 (complement lists the missing indices; outside its precondition it never returns). *)
Theorem C18_complement : forall (s : st nat) d v l nmax,
  new_var s d -> holds s v l -> no_failure s -> allocatable 8 nmax -> increasing_below nmax l ->
  exists s' r, complement d nmax v s = Ret tt s' /\ holds s' d r /\ StronglySorted lt r /\
    (forall j, In j r <-> j < nmax /\ ~ In j l) /\ others_kept s s' d.
Proof. exact complement_missing. Qed.
Theorem C18_complement_otherwise : forall (s : st nat) d v l nmax,
  new_var s d -> holds s v l -> no_failure s -> allocatable 8 nmax -> allocatable 8 (length l) -> ~ increasing_below nmax l ->
  complement d nmax v s = Ub UbOutOfBounds \/ exists s', complement d nmax v s = Exc EBadAlloc s'.
Proof. exact complement_otherwise. Qed.
(** taken twice it is the array again *)
Theorem C18_twice : forall (s1 s1' s2 : st nat) d1 v1 d2 v2 l r nmax,
  new_var s1 d1 -> holds s1 v1 l -> no_failure s1 -> allocatable 8 nmax -> increasing_below nmax l ->
  complement d1 nmax v1 s1 = Ret tt s1' -> holds s1' d1 r ->
  new_var s2 d2 -> holds s2 v2 r -> no_failure s2 ->
  exists s2', complement d2 nmax v2 s2 = Ret tt s2' /\ holds s2' d2 l.
Proof. exact complement_twice. Qed.
Definition demo_vars (l : list nat) : st nat := mkSt [Arr (length l) (Some 0); Dead] [mkBlk (Z.of_nat (length l) * 8) (map Some l) false] (length l) 0 None.
Example C18_example : exists s', complement 1 6 0 (demo_vars [1; 4]) = Ret tt s' /\ holds s' 1 [0; 2; 3; 5] /\ increasing_below 6 [1; 4].
Proof. eexists. split; [vm_compute; reflexivity|]. split; [reflexivity|]. split; repeat constructor. Qed.
Example C18_example_unsorted : complement 1 6 0 (demo_vars [4; 1]) = Ub UbOutOfBounds.
Proof. vm_compute. reflexivity. Qed.
Print Assumptions C18_complement.
Example C18_example_twice : exists s' s'', complement 1 6 0 (demo_vars [1; 4]) = Ret tt s' /\ holds s' 1 [0; 2; 3; 5] /\
  complement 1 6 0 (demo_vars [0; 2; 3; 5]) = Ret tt s'' /\ holds s'' 1 [1; 4].
Proof. do 2 eexists. repeat (split; [vm_compute; reflexivity|]). reflexivity. Qed.
Print Assumptions C18_complement_otherwise.
Print Assumptions C18_twice.
