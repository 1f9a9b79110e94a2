(** HandleProps.v -- the properties C52-C55 and C74 of Handle.  Statements only; the lemmas are in HandleProofs.v. *)
From Verif Require Import Base HandleModel HandleSpec HandleProofs.

(** ** C52: every program of handle operations behaves like a program over independent variables
    holding values ([sexec]): the outputs are the same, also when allocations fail; undefined behaviour
    occurs only where the program itself uses a variable out of scope or a null handle; and at any time
    every object still alive is owned by some handle. *)
Theorem C52_handles_are_values :
  forall (V Ty : Type) (clone : V -> V) (dyn : V -> Ty) (subobjs : Ty -> Ty -> list nat) (wrapper : Ty -> Ty) (inner : Ty -> nat),
  (forall v, clone v = v) ->
  forall (n : nat) (sc : list bool) (p : list (hop V Ty)),
  let provides := unique_base dyn subobjs in
  let provides_w := unique_base_or_wrapper dyn subobjs wrapper in
  match run clone dyn subobjs wrapper inner (map H p) (hinit n sc) with
  | (l, inl s') => exists m, sexec provides provides_w (vinit n sc) p l m /\ no_leak s'
  | (l, inr _) => ill_formed provides provides_w (vinit n sc) p l
  end.
Proof. exact @run_values. Qed.
Print Assumptions C52_handles_are_values.

(** A program with sharing, a write through one of the sharers, a failed allocation and a self-assignment. *)
Example C52_example :
  fst (run (fun v : nat => v) (fun v => v) (fun D T => if Nat.eqb D T then [0] else []) (fun t => t + 100) (fun _ => 0)
    (map H [OpNew 0 5; OpCopy 1 0; OpWrite 1 (fun v => v + 1); OpRead 0; OpRead 1; OpAssign 1 1; OpWrite 0 (fun v => v * 2);
            OpRead 0; OpMove 2 0; OpRead 2; OpDestroy 1; OpDestroy 2; OpDestroy 0])
    (hinit 3 [false; false; true])) =
  [ODone; ODone; ODone; OVal 5; OVal 6; ODone; OExc EBadAlloc; OVal 5; ODone; OVal 5; ODone; ODone; ODone].
Proof. reflexivity. Qed.

(** ** C53: false of the code.  Whenever a reference is taken from a handle twice, the first one dangles,
    because every non-const access replaces the object by a clone. *)
Theorem C53_second_access_refuted :
  forall (V Ty : Type) (clone : V -> V) (dyn : V -> Ty) (subobjs : Ty -> Ty -> list nat) (wrapper : Ty -> Ty) (inner : Ty -> nat),
  (forall v, clone v = v) ->
  let step := step clone dyn subobjs wrapper inner in
  forall (s s1 s2 : hst V) (r1 r2 h : nat) (x1 x2 : out V),
  reachable clone dyn subobjs wrapper inner s -> r1 <> r2 ->
  step (R (RefGet r1 h)) s = Ret x1 s1 -> step (R (RefGet r2 h)) s1 = Ret x2 s2 ->
  step (R (RefRead r1)) s2 = Ub UbDangling.
Proof. exact @second_access_dangles. Qed.
Print Assumptions C53_second_access_refuted.
Example C53_refuted_example :
  run (fun v : nat => v) (fun v => v) (fun D T => if Nat.eqb D T then [0] else []) (fun t => t + 100) (fun _ => 0)
    [H (OpNew 0 5); R (RefGet 0 0); R (RefGet 1 0); R (RefRead 1); R (RefRead 0)] (hinit 1 []) =
  ([ODone; ODone; ODone; OVal 5], inr UbDangling).
Proof. reflexivity. Qed.

(** What holds: the reference refers to the handle's current value as long as, besides not being
    assigned, moved from or destroyed, the handle is not accessed non-const again.  The handle may be read
    and copied from, and everything may happen to other handles and references. *)
Theorem C53_held_reference_partial :
  forall (V Ty : Type) (clone : V -> V) (dyn : V -> Ty) (subobjs : Ty -> Ty -> list nat) (wrapper : Ty -> Ty) (inner : Ty -> nat),
  (forall v, clone v = v) ->
  let step := step clone dyn subobjs wrapper inner in
  let run := run clone dyn subobjs wrapper inner in
  forall (s s1 s2 : hst V) (r h : nat) (x : out V) (p : list (op V Ty)) (l : list (out V)),
  reachable clone dyn subobjs wrapper inner s ->
  step (R (RefGet r h)) s = Ret x s1 -> Forall (keeps h r) p -> run p s1 = (l, inl s2) ->
  exists v, step (R (RefRead r)) s2 = Ret (OVal v) s2 /\ step (H (OpRead h)) s2 = Ret (OVal v) s2.
Proof. exact @held_reference. Qed.
Print Assumptions C53_held_reference_partial.
Example C53_partial_example :
  let p := [H (OpCopy 1 0); R (RefWrite 0 (fun v => v + 1)); R (RefGet 1 1); R (RefWrite 1 (fun v => v + 7)); H (OpDestroy 1)] in
  Forall (@keeps nat nat 0 0) p /\
  fst (run (fun v : nat => v) (fun v => v) (fun D T => if Nat.eqb D T then [0] else []) (fun t => t + 100) (fun _ => 0)
    ([H (OpNew 0 5); R (RefGet 0 0)] ++ p ++ [R (RefRead 0); H (OpRead 0)]) (hinit 2 [])) =
  [ODone; ODone; ODone; ODone; ODone; ODone; ODone; OVal 6; OVal 6].
Proof. split; [repeat constructor; discriminate|reflexivity]. Qed.

(** ** C54: false of the code in both ways.  Whatever the state: a copy made after taking the reference sees the write; *)
Theorem C54_write_seen_by_copy_refuted :
  forall (V Ty : Type) (clone : V -> V) (dyn : V -> Ty) (subobjs : Ty -> Ty -> list nat) (wrapper : Ty -> Ty) (inner : Ty -> nat),
  (forall v, clone v = v) ->
  let step := step clone dyn subobjs wrapper inner in
  let reads := reads clone dyn subobjs wrapper inner in
  forall (s s1 s2 s3 : hst V) (r h k : nat) (f : V -> V) (x1 x2 x3 : out V),
  reachable clone dyn subobjs wrapper inner s ->
  step (R (RefGet r h)) s = Ret x1 s1 -> step (H (OpCopy k h)) s1 = Ret x2 s2 -> step (R (RefWrite r f)) s2 = Ret x3 s3 ->
  exists v, reads s2 h = Some (OVal v) /\ reads s2 k = Some (OVal v) /\ reads s3 k = Some (OVal (f v)).
Proof. exact @held_write_seen_by_copy. Qed.
Print Assumptions C54_write_seen_by_copy_refuted.
(** and a write through dynamic_handle_extract is seen by copies made before. *)
Theorem C54_extracted_write_refuted :
  forall (V Ty : Type) (clone : V -> V) (dyn : V -> Ty) (subobjs : Ty -> Ty -> list nat) (wrapper : Ty -> Ty) (inner : Ty -> nat),
  (forall v, clone v = v) ->
  let step := step clone dyn subobjs wrapper inner in
  let reads := reads clone dyn subobjs wrapper inner in
  forall (s s1 s2 s3 : hst V) (r h k : nat) (t : Ty) (f : V -> V) (x1 x2 x3 : out V) (v : V),
  reachable clone dyn subobjs wrapper inner s -> reads s h = Some (OVal v) ->
  step (H (OpCopy k h)) s = Ret x1 s1 -> step (R (RefExtract r h t)) s1 = Ret x2 s2 -> step (R (RefWrite r f)) s2 = Ret x3 s3 ->
  reads s2 k = Some (OVal v) /\ reads s3 k = Some (OVal (f v)).
Proof. exact @extracted_write_seen_by_copy. Qed.
Print Assumptions C54_extracted_write_refuted.
Example C54_refuted_example :
  fst (run (fun v : nat => v) (fun v => 3) (fun D T => if Nat.eqb D T then [0] else []) (fun t => t + 100) (fun _ => 0)
    [H (OpNew 0 5); R (RefGet 0 0); H (OpCopy 1 0); H (OpRead 1); R (RefWrite 0 (fun v => v + 1)); H (OpRead 1);
     R (RefExtract 1 1 3); R (RefWrite 1 (fun v => v + 10)); H (OpRead 0)] (hinit 2 [])) =
  [ODone; ODone; ODone; OVal 5; ODone; OVal 6; OSub 0; ODone; OVal 16].
Proof. reflexivity. Qed.

(** What holds: a write through a reference from a non-const access is seen only through its own handle,
    if the handle has neither been changed nor copied from in between. *)
Theorem C54_held_write_partial :
  forall (V Ty : Type) (clone : V -> V) (dyn : V -> Ty) (subobjs : Ty -> Ty -> list nat) (wrapper : Ty -> Ty) (inner : Ty -> nat),
  (forall v, clone v = v) ->
  let step := step clone dyn subobjs wrapper inner in
  let run := run clone dyn subobjs wrapper inner in
  let reads := reads clone dyn subobjs wrapper inner in
  forall (s s1 s2 : hst V) (r h : nat) (x : out V) (p : list (op V Ty)) (l : list (out V)) (f : V -> V),
  reachable clone dyn subobjs wrapper inner s ->
  step (R (RefGet r h)) s = Ret x s1 -> Forall (keeps_alone h r) p -> run p s1 = (l, inl s2) ->
  exists v s3, reads s2 h = Some (OVal v) /\ step (R (RefWrite r f)) s2 = Ret ODone s3 /\
    reads s3 h = Some (OVal (f v)) /\ forall k, k <> h -> reads s3 k = reads s2 k.
Proof. exact @held_write. Qed.
Print Assumptions C54_held_write_partial.
Example C54_partial_example :
  let p := [R (RefWrite 0 (fun v => v + 1)); H (OpWrite 1 (fun v => v + 7)); H (OpRead 0)] in
  Forall (@keeps_alone nat nat 0 0) p /\
  fst (run (fun v : nat => v) (fun v => v) (fun D T => if Nat.eqb D T then [0] else []) (fun t => t + 100) (fun _ => 0)
    ([H (OpNew 0 5); H (OpCopy 1 0); R (RefGet 0 0)] ++ p ++ [R (RefWrite 0 (fun v => v * 2)); H (OpRead 0); H (OpRead 1)]) (hinit 2 [])) =
  [ODone; ODone; ODone; ODone; ODone; OVal 6; ODone; OVal 12; OVal 12].
Proof. split; [repeat constructor; discriminate|reflexivity]. Qed.

(** ** C55: extraction gives a subobject of the required type of the very same object, or throws
    std::bad_cast and changes nothing.  The hypothesis on [wrapper] says that Wrapper<T,I> has a base T. *)
Theorem C55_extract_exactly :
  forall (V Ty : Type) (clone : V -> V) (dyn : V -> Ty) (subobjs : Ty -> Ty -> list nat) (wrapper : Ty -> Ty) (inner : Ty -> nat),
  (forall v, clone v = v) ->
  let step := step clone dyn subobjs wrapper inner in
  let reads := reads clone dyn subobjs wrapper inner in
  forall (s : hst V) (r h : nat) (t : Ty) (v : V),
  (forall D T o, In o (subobjs D (wrapper T)) -> In (o + inner T) (subobjs D T)) ->
  reachable clone dyn subobjs wrapper inner s -> reads s h = Some (OVal v) ->
  (unique_base_or_wrapper dyn subobjs wrapper v t ->
     exists o s', step (R (RefExtract r h t)) s = Ret (OSub o) s' /\ In o (subobjs (dyn v) t) /\
       (forall k, reads s' k = reads s k) /\
       forall f, exists s'', step (R (RefWrite r f)) s' = Ret ODone s'' /\ reads s'' h = Some (OVal (f v))) /\
  (~ unique_base_or_wrapper dyn subobjs wrapper v t -> step (R (RefExtract r h t)) s = Exc EBadCast s).
Proof. exact @extract_spec. Qed.
Print Assumptions C55_extract_exactly.
(** a cast gives a handle to the very same object, or throws std::bad_cast and changes nothing *)
Theorem C55_cast_exactly :
  forall (V Ty : Type) (clone : V -> V) (dyn : V -> Ty) (subobjs : Ty -> Ty -> list nat) (wrapper : Ty -> Ty) (inner : Ty -> nat),
  (forall v, clone v = v) ->
  let step := step clone dyn subobjs wrapper inner in
  let reads := reads clone dyn subobjs wrapper inner in
  forall (s : hst V) (d h : nat) (t : Ty) (v : V),
  reachable clone dyn subobjs wrapper inner s -> nth_error (vars s) d = Some Dead -> reads s h = Some (OVal v) ->
  (unique_base dyn subobjs v t -> exists s', step (H (OpCast d h t)) s = Ret ODone s' /\
      nth_error (vars s') d = nth_error (vars s) h /\ reads s' d = Some (OVal v) /\ forall k, k <> d -> reads s' k = reads s k) /\
  (~ unique_base dyn subobjs v t -> step (H (OpCast d h t)) s = Exc EBadCast s).
Proof. exact @cast_spec. Qed.
Print Assumptions C55_cast_exactly.

(** dynamic types: 1 has one base 3; 2 has two bases 3, one of them inside its Wrapper (103) *)
Definition ex_subobjs (D T : nat) : list nat :=
  match D, T with 1, 3 => [4] | 2, 3 => [0; 8] | 2, 103 => [8] | _, _ => [] end.
Example C55_example :
  (forall D T o, In o (ex_subobjs D (T + 100)) -> In (o + 0) (ex_subobjs D T)) /\
  fst (run (fun v : nat => v) (fun v => v) ex_subobjs (fun t => t + 100) (fun _ => 0)
    [H (OpNew 0 1); R (RefExtract 0 0 3); H (OpCast 1 0 3); H (OpNew 2 2); R (RefExtract 1 2 3); H (OpCast 3 2 3);
     H (OpPtrExtract 3 2 3); R (RefExtract 0 0 7)] (hinit 4 [])) =
  [ODone; OSub 4; ODone; ODone; OSub 8; OExc EBadCast; ODone; OExc EBadCast].
Proof.
  split; [|reflexivity]. intros D T o Ho.
  destruct (Nat.eq_dec T 3) as [->|Hne].
  - destruct D as [|[|[|D]]]; simpl in *; try contradiction. right. destruct Ho as [<-|[]]. left. reflexivity.
  - exfalso. assert (T + 100 <> 103) by lia. assert (T + 100 <> 3) by lia. unfold ex_subobjs in Ho.
    destruct D as [|[|[|D]]]; try contradiction.
    + remember (T + 100) as u. do 4 (destruct u as [|u]; try contradiction; try lia).
    + remember (T + 100) as u. do 104 (destruct u as [|u]; try contradiction; try lia).
Qed.

(** ** C74: after any program, held references included, an object is alive exactly as long as some handle
    owns it: no handle is left with a destroyed object, and an object without handles has been destroyed. *)
Theorem C74_alive_while_owned :
  forall (V Ty : Type) (clone : V -> V) (dyn : V -> Ty) (subobjs : Ty -> Ty -> list nat) (wrapper : Ty -> Ty) (inner : Ty -> nat),
  (forall v, clone v = v) -> forall (s : hst V) (a : nat) (c : cell V),
  reachable clone dyn subobjs wrapper inner s -> nth_error (heap s) a = Some c ->
  (c_live c = true <-> exists h, nth_error (vars s) h = Some (Ptr a)).
Proof. exact @live_iff_owned. Qed.
Print Assumptions C74_alive_while_owned.
(** two handles share an object; the write detaches one of them; the object of the first is destroyed with
    its last handle *)
Example C74_example :
  match run (fun v : nat => v) (fun v => v) (fun D T => if Nat.eqb D T then [0] else []) (fun t => t + 100) (fun _ => 0)
    [H (OpNew 0 5); H (OpCopy 1 0); H (OpWrite 1 S); H (OpMove 2 0); H (OpDestroy 2)] (hinit 3 []) with
  | (_, inl s) => map (fun c => c_live c) (heap s) = [false; true] /\ vars s = [Null; Ptr 1; Dead]
  | _ => False
  end.
Proof. vm_compute. split; reflexivity. Qed.
