(** NumeralSpec.v -- decimal numerals, digits and blanks of the "C" locale, independent of StreamModel.v.  Definitions only. *)
From Verif Require Import Base StreamModel.

Definition digit_list : text := chars "0123456789".
(** character [c] is the digit [d] *)
Definition digit (c : ascii) (d : nat) : Prop := nth_error digit_list d = Some c.
(** [t] denotes [n] in base ten: the last digit counts 1, the one before it 10, and so on *)
Inductive denotes : text -> Z -> Prop :=
| denotes_nil : denotes [] 0
| denotes_last t n c d : denotes t n -> digit c d -> denotes (t ++ [c]) (10 * n + Z.of_nat d).
(** the numeral of a number: a minus sign if it is negative, then its digits without superfluous zeros *)
Definition digits_of (n : Z) (t : text) : Prop := t <> [] /\ denotes t n /\ (forall t', t = "0"%char :: t' -> t' = []).
Definition numeral (z : Z) (t : text) : Prop :=
  (0 <= z)%Z /\ digits_of z t \/ (z < 0)%Z /\ exists t', t = "-"%char :: t' /\ digits_of (- z) t'.
(** tab, newline, vertical tab, form feed, carriage return, space *)
Definition blanks : list nat := [9; 10; 11; 12; 13; 32].
