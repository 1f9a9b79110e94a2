(** FpioSpec.v -- numbers with few binary and with few decimal digits; n stands for n/2^E. *)
From Verif Require Import Base.
Open Scope Z_scope.

(** a value of the floating-point type *)
Definition value_of (b emax : Z) (E : nat) (n : Z) : Prop :=
  Z.abs n < 2 ^ (emax + Z.of_nat E) /\ exists m k, 0 <= k /\ Z.abs m < 2 ^ b /\ n = m * 2 ^ k.
(** n/2^E = d * 10^(i-j): at most p significant decimal digits *)
Definition significant (E p : nat) (n : Z) : Prop :=
  exists d i j, 0 <= i /\ 0 <= j /\ Z.abs d < 10 ^ Z.of_nat p /\ n * 10 ^ j = d * 10 ^ i * 2 ^ Z.of_nat E.
(** the value of the type closest to some number with at most p significant decimal digits *)
Definition closest (b : Z) (E p : nat) (n : Z) : Prop :=
  exists d i j, 0 <= i /\ 0 <= j /\ Z.abs d < 10 ^ Z.of_nat p /\
    forall m k, 0 <= k -> Z.abs m < 2 ^ b -> m * 2 ^ k <> n ->
      Z.abs (n * 10 ^ j - d * 10 ^ i * 2 ^ Z.of_nat E) < Z.abs (m * 2 ^ k * 10 ^ j - d * 10 ^ i * 2 ^ Z.of_nat E).
