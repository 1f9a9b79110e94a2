(** NumStrSpec.v -- decimal numerals, and how far they are from a number n/2^E. *)
From Coq Require Import Ascii.
From Verif Require Import Base.
Open Scope list_scope.
Open Scope Z_scope.

Definition digit (c : ascii) (d : Z) : Prop := 0 <= d <= 9 /\ c = ascii_of_nat (48 + Z.to_nat d).
(** digits and their value *)
Inductive digits : list ascii -> Z -> Prop :=
| D_first c d : digit c d -> digits [c] d
| D_next t v c d : digits t v -> digit c d -> digits (t ++ [c]) (10 * v + d).
(** the text stands for m * 10^e *)
Inductive plain : list ascii -> Z -> Z -> Prop :=
| P_whole t v : digits t v -> plain t v 0
| P_point t v u w : digits t v -> digits u w -> plain (t ++ "."%char :: u) (v * 10 ^ Z.of_nat (List.length u) + w) (- Z.of_nat (List.length u)).
Inductive scaled : list ascii -> Z -> Z -> Prop :=
| S_plain t m e : plain t m e -> scaled t m e
| S_plus t m e u x : plain t m e -> digits u x -> scaled (t ++ "e"%char :: "+"%char :: u) m (e + x)
| S_minus t m e u x : plain t m e -> digits u x -> scaled (t ++ "e"%char :: "-"%char :: u) m (e - x).
Inductive numeral : list ascii -> Z -> Z -> Prop :=
| N_plus t m e : scaled t m e -> numeral t m e
| N_minus t m e : scaled t m e -> numeral ("-"%char :: t) (- m) e.

(** m * 10^e = n/2^E *)
Definition exactly (E : nat) (n m e : Z) : Prop := forall i j, 0 <= i -> 0 <= j -> e = i - j -> m * 10 ^ i * 2 ^ Z.of_nat E = n * 10 ^ j.
(** m * 10^e differs from n/2^E by at most one part in 200000 of it *)
Definition nearly (E : nat) (n m e : Z) : Prop := forall i j, 0 <= i -> 0 <= j -> e = i - j ->
  200000 * Z.abs (m * 10 ^ i * 2 ^ Z.of_nat E - n * 10 ^ j) <= Z.abs (n * 10 ^ j).
(** no d * 10^(k-l) with at most p digits is closer to n/2^E than m * 10^e *)
Definition best (E p : nat) (n m e : Z) : Prop := forall i j, 0 <= i -> 0 <= j -> e = i - j ->
  forall d k l, 0 <= k -> 0 <= l -> Z.abs d < 10 ^ Z.of_nat p ->
  Z.abs (m * 10 ^ i * 2 ^ Z.of_nat E - n * 10 ^ j) * 10 ^ l <= Z.abs (d * 10 ^ k * 2 ^ Z.of_nat E - n * 10 ^ l) * 10 ^ j.
