(** WatchMoreModel.v -- stopwatches whose unit is std::chrono::duration<double>, and the clock they read: include/stopwatch.hpp:46-64.
    Definitions only; the watches are those of StopwatchModel.v.

    - std::chrono::high_resolution_clock is another name of std::chrono::system_clock in libstdc++ and of steady_clock in libc++; the former
      shows the time of day, which may be set while the program runs.
    - [real i]: nanoseconds since some moment at the i-th reading; [set i]: by how much the time of day then differs from it. *)
From Coq Require Import Floats.SpecFloat.
From Verif Require Import Base StopwatchModel.
Local Open Scope Z_scope.
Local Open Scope monad_scope.

(** 46 ResolutionType::now() *)
Inductive library := Libstdcxx | Libcxx.
Definition high_resolution_clock (lib : library) (real set : nat -> Z) (i : nat) : Z :=
  match lib with Libstdcxx => real i + set i | Libcxx => real i end.

(** 52 for D = std::chrono::duration<double>: the count is converted first, then divided (libstdc++ __duration_cast_impl for a numerator of 1) *)
Definition duration_double (k : nat) : M swst spec_float :=
  w <- get_watch k ;;
  if in64 (snd w - fst w) then ret (SFdiv 53 1024 (to_double (snd w - fst w)) (to_double 1000000000)) else undefined UbOverflow.
(** 54: nothing is left to convert *)
Definition elapsed_double (k : nat) : M swst spec_float := duration_double k.
