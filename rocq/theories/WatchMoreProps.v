(** WatchMoreProps.v -- the property C143 of Stopwatch, and C61 for durations of doubles.  Statements only; the lemmas are in WatchMoreProofs.v. *)
From Coq Require Import Floats.SpecFloat.
From Verif Require Import Base StopwatchModel StopwatchSpec WatchMoreModel WatchMoreSpec WatchMoreProofs.
Local Open Scope Z_scope.

(** ** C143: if the time of day is not set while the program runs, or does not matter to the clock, then after every program over any number of
    stopwatches duration() is the real time from the last start to the last click after it, in the unit ...
    Missing: the case that the time of day is set and is the clock, where it is false. *)
Theorem C143_not_set_partial :
  forall (lib : library) (real set : nat -> Z) (D : unit_D) (p : list swop) (l : list swout) (s : swst) (k : nat) (e : Z),
  0 < cd D -> lib = Libcxx \/ not_set set ->
  swrun (high_resolution_clock lib real set) D p swinit = Ret l s -> elapsed_of k (history real 0 p) e -> fits64 e -> fits64 (e * cn D) ->
  exists q, swstep (high_resolution_clock lib real set) D (SwDuration k) s = Ret (SwCount q) s /\ truncated (e * cn D) (cd D) q.
Proof. exact unset_elapsed. Qed.
Print Assumptions C143_not_set_partial.
(** ... in libstdc++ whatever the time of day is changed by between construction and click adds to the duration ... *)
Theorem C143_set_refuted :
  forall (real set : nat -> Z) (D : unit_D), whole_ticks D ->
  let d := set 1%nat - set 0%nat in fits64 (real 1%nat - real 0%nat + d) ->
  exists s, swrun (high_resolution_clock Libstdcxx real set) D [SwNew 0; SwClick 0; SwDuration 0] swinit =
            Ret [SwUnit; SwUnit; SwCount (Z.quot (real 1%nat - real 0%nat + d) (cd D))] s.
Proof. exact (fun real set D W => set_measured real set D _ _ W eq_refl eq_refl). Qed.
Print Assumptions C143_set_refuted.
(** ... so that, whatever time passes, any duration may be read, also one below zero. *)
Theorem C143_anything_refuted :
  forall (real : nat -> Z) (D : unit_D) (q : Z), whole_ticks D -> fits64 (q * cd D) ->
  exists set s, swrun (high_resolution_clock Libstdcxx real set) D [SwNew 0; SwClick 0; SwDuration 0] swinit = Ret [SwUnit; SwUnit; SwCount q] s.
Proof. exact any_duration. Qed.
Print Assumptions C143_anything_refuted.
Example C143_example :
  let real := fun i => Z.of_nat i * 5000000 in
  (forall set, exists s, not_set (fun _ => set) /\ swrun (high_resolution_clock Libstdcxx real (fun _ => set)) Milliseconds [SwNew 0; SwClick 0] swinit = Ret [SwUnit; SwUnit] s) /\
  elapsed_of 0 (history real 0 [SwNew 0; SwClick 0]) 5000000 /\
  map_out (swrun (high_resolution_clock Libstdcxx real (fun _ => 7)) Milliseconds [SwNew 0; SwClick 0; SwDuration 0] swinit) = Some [SwUnit; SwUnit; SwCount 5] /\
  map_out (swrun (high_resolution_clock Libcxx real (fun i => - Z.of_nat i * 3600000000000)) Milliseconds [SwNew 0; SwClick 0; SwDuration 0] swinit) = Some [SwUnit; SwUnit; SwCount 5] /\
  map_out (swrun (high_resolution_clock Libstdcxx real (fun i => - Z.of_nat i * 3600000000000)) Milliseconds [SwNew 0; SwClick 0; SwDuration 0] swinit)
    = Some [SwUnit; SwUnit; SwCount (-3599995)] /\
  whole_ticks Milliseconds.
Proof.
  split. { intros set. eexists. split; [exists set; reflexivity|reflexivity]. }
  split. { exists [], (SwNew 0), 0, [(SwClick 0, 5000000)]. split; [reflexivity|]. split; [left; reflexivity|]. split.
    - constructor; [|constructor]. intros [H|H]; discriminate H.
    - right. exists [], 5000000, []. split; [reflexivity|]. split; [constructor|reflexivity]. }
  split; [vm_compute; reflexivity|]. split; [vm_compute; reflexivity|]. split; [vm_compute; reflexivity|]. split; reflexivity.
Qed.

(** ** C61: with std::chrono::duration<double> for unit, elapsed_seconds() is the double next to the time in the clock's precision, for less than
    2^53 nanoseconds (some hundred days).
    Missing: the units of whole numbers, where it is false. *)
Theorem C61_double_partial :
  forall (clock : nat -> Z) (D : unit_D) (p : list swop) (l : list swout) (s : swst) (k : nat),
  steady clock -> whole_ticks D -> swrun clock D p swinit = Ret l s -> watches s k <> None ->
  exists e, elapsed_of k (history clock 0 p) e /\ 0 <= e /\
    (e < 2 ^ 53 -> exists x, elapsed_double k s = Ret x s /\ rounded_quotient e (10 ^ 9) x).
Proof. exact double_seconds. Qed.
Print Assumptions C61_double_partial.
Example C61_double_example :
  let clock := fun i => if Nat.ltb i 2 then Z.of_nat i * 1500000001 else 1500000001 in
  exists s, steady clock /\ swrun clock Milliseconds [SwNew 0; SwClick 0] swinit = Ret [SwUnit; SwUnit] s /\ watches s 0%nat <> None /\
    elapsed_double 0 s = Ret (S754_finite false 6755399445559344 (-52)) s /\
    2 * Z.abs (6755399445559344 * 10 ^ 9 - 1500000001 * 2 ^ 52) <= 10 ^ 9.
Proof.
  eexists. split.
  - split; intros [|[|i]]; cbn; lia.
  - split; [reflexivity|]. split; [discriminate|]. split; [vm_compute; reflexivity|vm_compute; discriminate].
Qed.
