(** StopwatchModel.v -- model of include/stopwatch.hpp:44-64.  Definitions only.

    The clock is an arbitrary sequence of readings, in ticks of the clock (libstdc++: signed 64-bit
    counts of nanoseconds): [clock i] is the i-th reading taken by the program.
    A unit D with a 64-bit integral representation is given by the reduced fraction cn/cd of units per
    tick (seconds: 1/10^9, milliseconds: 1/10^6, microseconds: 1/1000, nanoseconds: 1/1) and
    by its length sn/sd in seconds (seconds: 1/1, milliseconds: 1/1000).
    Not modelled: units with a floating-point (see WatchMoreModel.v for seconds) or narrower representation. *)
From Coq Require Import Floats.SpecFloat.
From Verif Require Import Base.
Local Open Scope Z_scope.
Local Open Scope monad_scope.

Definition in64 (z : Z) : bool := (- 2 ^ 63 <=? z) && (z <? 2 ^ 63).
Record unit_D := mkUnit { cn : Z; cd : Z; sn : Z; sd : Z }.
Definition Seconds : unit_D := mkUnit 1 1000000000 1 1.
Definition Milliseconds : unit_D := mkUnit 1 1000000 1 1000.
Definition Microseconds : unit_D := mkUnit 1 1000 1 1000000.
Definition Nanoseconds : unit_D := mkUnit 1 1 1 1000000000.

(** the watches of a program (initial and clicked time) and the number of clock readings so far *)
Record swst := mkSw { watches : nat -> option (Z * Z); ticks : nat }.
Definition swinit : swst := mkSw (fun _ => None) 0.

(** conversion of an integer to double, rounded to nearest even *)
Definition to_double (z : Z) : spec_float := binary_normalize 53 1024 z 0 false.

Section Stopwatch.
  Variable clock : nat -> Z.
  Variable D : unit_D.

  (** ResolutionType::now() *)
  Definition now : M swst Z := fun s => Ret (clock (ticks s)) (mkSw (watches s) (S (ticks s))).
  Definition get_watch (k : nat) : M swst (Z * Z) := fun s =>
    match watches s k with Some w => Ret w s | None => Ub UbUninit end.
  Definition put_watch (k : nat) (w : Z * Z) : M swst unit := fun s =>
    Ret tt (mkSw (set_var (watches s) k (Some w)) (ticks s)).

  (** 57: _initial = now(); _clicked = _initial *)
  Definition restart (k : nat) : M swst unit := t <- now ;; put_watch k (t, t).
  (** 59: _clicked = now() *)
  Definition click (k : nat) : M swst unit := t <- now ;; w <- get_watch k ;; put_watch k (fst w, t).
  (** 49: Stopwatch() *)
  Definition construct (k : nat) : M swst unit := restart k.

  (** std::chrono::duration_cast between 64-bit durations: count*cn/cd in intmax_t, division truncating *)
  Definition duration_cast (c : Z) : M swst Z :=
    if in64 (c * cn D) then ret (Z.quot (c * cn D) (cd D)) else undefined UbOverflow.
  (** 52: duration_cast<D>(_clicked-_initial) *)
  Definition duration (k : nat) : M swst Z :=
    w <- get_watch k ;;
    if in64 (snd w - fst w) then duration_cast (snd w - fst w) else undefined UbOverflow.
  (** 54: duration_cast<duration<double>>(duration()).count(), in double arithmetic *)
  Definition seconds_of (q : Z) : spec_float :=
    let x := to_double q in
    let x := if sn D =? 1 then x else SFmul 53 1024 x (to_double (sn D)) in
    if sd D =? 1 then x else SFdiv 53 1024 x (to_double (sd D)).
  Definition elapsed_seconds (k : nat) : M swst spec_float := q <- duration k ;; ret (seconds_of q).

  Inductive swop := SwNew (k : nat) | SwRestart (k : nat) | SwClick (k : nat) | SwDuration (k : nat) | SwElapsed (k : nat).
  Inductive swout := SwUnit | SwCount (q : Z) | SwSeconds (x : spec_float).
  Definition swstep (o : swop) : M swst swout :=
    match o with
    | SwNew k => construct k ;;; ret SwUnit
    | SwRestart k => get_watch k ;;; restart k ;;; ret SwUnit
    | SwClick k => get_watch k ;;; click k ;;; ret SwUnit
    | SwDuration k => q <- duration k ;; ret (SwCount q)
    | SwElapsed k => x <- elapsed_seconds k ;; ret (SwSeconds x)
    end.
  Fixpoint swrun (p : list swop) (s : swst) : res swst (list swout) :=
    match p with
    | [] => Ret [] s
    | o :: p' => (x <- swstep o ;; l <- swrun p' ;; ret (x :: l)) s
    end.
End Stopwatch.
