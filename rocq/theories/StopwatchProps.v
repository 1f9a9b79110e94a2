(** StopwatchProps.v -- the properties C59-C61 of Stopwatch.  Statements only; the lemmas are in StopwatchProofs.v. *)
From Coq Require Import Floats.SpecFloat.
From Verif Require Import Base StopwatchModel StopwatchSpec StopwatchProofs.
Local Open Scope Z_scope.

(** ** C59: after every program over any number of stopwatches and for all clock readings, duration() is the
    time from the last restart or construction to the last click after it, truncated towards zero to the unit,
    provided that it fits 64 bits ... *)
Theorem C59_last_restart_to_last_click :
  forall (clock : nat -> Z) (D : unit_D), 0 < cd D ->
  forall (p : list swop) (l : list swout) (s : swst) (k : nat) (e : Z),
  swrun clock D p swinit = Ret l s -> elapsed_of k (history clock 0 p) e ->
  fits64 e -> fits64 (e * cn D) ->
  exists q, swstep clock D (SwDuration k) s = Ret (SwCount q) s /\ truncated (e * cn D) (cd D) q.
Proof. exact duration_exact. Qed.
Print Assumptions C59_last_restart_to_last_click.
(** ... there is such a time, a unique one, for every stopwatch that has been constructed ... *)
Theorem C59_always_measured :
  forall (clock : nat -> Z) (D : unit_D) (p : list swop) (l : list swout) (s : swst) (k : nat),
  swrun clock D p swinit = Ret l s ->
  ((exists e, elapsed_of k (history clock 0 p) e) <-> watches s k <> None) /\
  forall e1 e2, elapsed_of k (history clock 0 p) e1 -> elapsed_of k (history clock 0 p) e2 -> e1 = e2.
Proof. exact (fun clock D p l s k H => conj (duration_defined clock D p l s k H) (elapsed_unique k _)). Qed.
Print Assumptions C59_always_measured.
(** ... and reading has no effect. *)
Theorem C59_reading_has_no_effect :
  forall (clock : nat -> Z) (D : unit_D) (o : swop) (s : swst) (x : swout) (s' : swst),
  reads o = false -> swstep clock D o s = Ret x s' -> s' = s.
Proof. exact reading_pure. Qed.
Print Assumptions C59_reading_has_no_effect.
Example C59_example :
  let clock := fun i => nth i [1000000; 2500000; 4000000; 9999999; 3000000] 0 in
  swrun clock Milliseconds
    [SwNew 0; SwDuration 0; SwClick 0; SwNew 1; SwDuration 0; SwClick 0; SwDuration 0; SwDuration 1; SwClick 1; SwDuration 1] swinit =
  Ret [SwUnit; SwCount 0; SwUnit; SwUnit; SwCount 1; SwUnit; SwCount 8; SwCount 0; SwUnit; SwCount (-1)]
      (mkSw (set_var (set_var (set_var (set_var (set_var (fun _ => None) 0%nat (Some (1000000, 1000000)))
          0%nat (Some (1000000, 2500000))) 1%nat (Some (4000000, 4000000))) 0%nat (Some (1000000, 9999999)))
          1%nat (Some (4000000, 3000000))) 5).
Proof. reflexivity. Qed.

(** ** C60: with a steady clock, and a unit of a whole number of ticks, every duration read is non-negative
    and less than one unit below the elapsed time (no overflow occurs) ... *)
Theorem C60_within_one_unit :
  forall (clock : nat -> Z) (D : unit_D), 0 < cd D -> steady clock -> whole_ticks D ->
  forall (p : list swop) (l : list swout) (s : swst) (k : nat),
  swrun clock D p swinit = Ret l s -> watches s k <> None ->
  exists e q, elapsed_of k (history clock 0 p) e /\ swstep clock D (SwDuration k) s = Ret (SwCount q) s /\
    0 <= q /\ q * cd D <= e < (q + 1) * cd D.
Proof. exact steady_duration. Qed.
Print Assumptions C60_within_one_unit.
(** ... and durations do not decrease until the stopwatch is restarted. *)
Theorem C60_non_decreasing :
  forall (clock : nat -> Z) (D : unit_D), 0 < cd D -> steady clock -> whole_ticks D ->
  forall (p : list swop) (l : list swout) (s : swst) (k : nat) (q : Z) (p2 : list swop) (l2 : list swout) (s2 : swst) (q2 : Z),
  swrun clock D p swinit = Ret l s -> swstep clock D (SwDuration k) s = Ret (SwCount q) s ->
  Forall (fun o => o <> SwNew k /\ o <> SwRestart k) p2 -> swrun clock D p2 s = Ret l2 s2 ->
  swstep clock D (SwDuration k) s2 = Ret (SwCount q2) s2 -> q <= q2.
Proof. exact durations_grow. Qed.
Print Assumptions C60_non_decreasing.
(** The units with the names of std::chrono meet the hypotheses of C59-C61. *)
Theorem C60_units : Forall (fun D => 0 < cd D /\ whole_ticks D /\ sn D = 1 /\ 0 < sd D < 2 ^ 53 /\ cd D * sd D = 10 ^ 9)
                           [Seconds; Milliseconds; Microseconds; Nanoseconds].
Proof. exact units_ok. Qed.
Print Assumptions C60_units.
Example C60_example :
  steady (fun i => if Nat.leb i 10 then Z.of_nat i * 700000 else 7000000) /\ whole_ticks Milliseconds /\
  swrun (fun i => if Nat.leb i 10 then Z.of_nat i * 700000 else 7000000) Milliseconds
    [SwNew 0; SwClick 0; SwDuration 0; SwClick 0; SwDuration 0; SwClick 0; SwDuration 0] swinit =
  Ret [SwUnit; SwUnit; SwCount 0; SwUnit; SwCount 1; SwUnit; SwCount 2]
    (mkSw (set_var (set_var (set_var (set_var (fun _ => None) 0%nat (Some (0, 0))) 0%nat (Some (0, 700000))) 0%nat (Some (0, 1400000)))
             0%nat (Some (0, 2100000))) 4).
Proof.
  split; [|split; [split; reflexivity|reflexivity]]. split; intros i;
    destruct (Nat.leb_spec i 10); try destruct (Nat.leb_spec (S i) 10); lia.
Qed.

(** ** C61: false of the code.  For every unit D of a whole number of ticks, elapsed_seconds() gives the same number
    for all elapsed times a, b within the same unit; such a and b can be cd D - 1 ticks apart, so nothing
    finer than the unit can be told from it. *)
Theorem C61_precision_refuted :
  forall (D : unit_D) (a b : Z), whole_ticks D -> 0 <= a -> 0 <= b -> a / cd D = b / cd D -> fits64 a -> fits64 b ->
  exists x, forall (clock : nat -> Z) (t : Z),
    clock 0%nat = t -> clock 1%nat = t + a \/ clock 1%nat = t + b ->
    exists s, swrun clock D [SwNew 0; SwClick 0; SwElapsed 0] swinit = Ret [SwUnit; SwUnit; SwSeconds x] s.
Proof. exact seconds_imprecise. Qed.
Print Assumptions C61_precision_refuted.
(** Stopwatch<Seconds> reports 1.0 s (2^52 * 2^-52) after 1999999999 ns, although the clock ticks in ns. *)
Example C61_refuted_example :
  match swrun (fun i => if Nat.eqb i 0 then 5 else 2000000004) Seconds [SwNew 0; SwClick 0; SwElapsed 0] swinit with
  | Ret l _ => l = [SwUnit; SwUnit; SwSeconds (S754_finite false 4503599627370496 (-52))]
  | _ => False
  end.
Proof. reflexivity. Qed.

(** What holds: with a steady clock, elapsed_seconds() is the truncated duration -- within one unit D of the elapsed
    time, equal to it if D is the tick of the clock -- divided by the number of units in a second and
    rounded to the nearest double. *)
Theorem C61_unit_precision_partial :
  forall (clock : nat -> Z) (D : unit_D) (p : list swop) (l : list swout) (s : swst) (k : nat),
  steady clock -> whole_ticks D -> sn D = 1 -> 0 < sd D < 2 ^ 53 ->
  swrun clock D p swinit = Ret l s -> watches s k <> None ->
  exists e q, elapsed_of k (history clock 0 p) e /\ q * cd D <= e < (q + 1) * cd D /\
    (q < 2 ^ 53 -> exists x, swstep clock D (SwElapsed k) s = Ret (SwSeconds x) s /\ rounded_quotient q (sd D) x).
Proof. exact elapsed_rounded. Qed.
Print Assumptions C61_unit_precision_partial.
(** 1999999999 ns as a Stopwatch<Nanoseconds> and a Stopwatch<Milliseconds>: 1.999999999 and 1.999 *)
Example C61_partial_example :
  seconds_of Nanoseconds 1999999999 = S754_finite false 9007199250237392 (-52) /\
  seconds_of Milliseconds 1999 = S754_finite false 9002695655113622 (-52) /\
  2 * Z.abs (9007199250237392 * 1000000000 - 1999999999 * 2 ^ 52) <= 1000000000 /\
  2 * Z.abs (9002695655113622 * 1000 - 1999 * 2 ^ 52) <= 1000.
Proof. repeat split; reflexivity || discriminate. Qed.
