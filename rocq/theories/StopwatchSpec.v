(** StopwatchSpec.v -- what a stopwatch measures, in terms of the history of calls and clock readings. *)
From Coq Require Import Floats.SpecFloat.
From Verif Require Import Base StopwatchModel.
Local Open Scope Z_scope.

(** the history of a program: every call that reads the clock, with its reading *)
Definition reads (o : swop) : bool := match o with SwNew _ | SwRestart _ | SwClick _ => true | _ => false end.
Fixpoint history (clock : nat -> Z) (n : nat) (p : list swop) : list (swop * Z) :=
  match p with
  | [] => []
  | o :: p' => if reads o then (o, clock n) :: history clock (S n) p' else history clock n p'
  end.

Definition starts (k : nat) (x : swop * Z) : Prop := fst x = SwNew k \/ fst x = SwRestart k.
Definition clicks (k : nat) (x : swop * Z) : Prop := fst x = SwClick k.

(** [e] ticks lie between the last start of watch [k] and the last click after it; zero without a click *)
Definition elapsed_of (k : nat) (h : list (swop * Z)) (e : Z) : Prop :=
  exists h1 o t0 h2, h = h1 ++ (o, t0) :: h2 /\ starts k (o, t0) /\ Forall (fun x => ~ starts k x) h2 /\
    ((Forall (fun x => ~ clicks k x) h2 /\ e = 0) \/
     exists h3 t1 h4, h2 = h3 ++ (SwClick k, t1) :: h4 /\ Forall (fun x => ~ clicks k x) h4 /\ e = t1 - t0).

(** [q] is a/b rounded towards zero *)
Definition truncated (a b q : Z) : Prop :=
  Z.abs q * b <= Z.abs a < (Z.abs q + 1) * b /\ (0 <= a -> 0 <= q) /\ (a <= 0 -> q <= 0).

Definition fits64 (z : Z) : Prop := - 2 ^ 63 <= z < 2 ^ 63.

(** a steady clock *)
Definition steady (clock : nat -> Z) : Prop := (forall i, clock i <= clock (S i)) /\ forall i, 0 <= clock i < 2 ^ 63.
(** a unit that is a whole number of ticks *)
Definition whole_ticks (D : unit_D) : Prop := cn D = 1 /\ 0 < cd D.

(** the double [x] = m * 2^-n is q/d up to half a unit in the last place *)
Definition rounded_quotient (q d : Z) (x : spec_float) : Prop :=
  if q =? 0 then x = S754_zero false
  else exists m n, x = S754_finite false m (- n) /\ 0 <= n /\ 2 ^ 52 <= Zpos m < 2 ^ 53 /\
         2 * Z.abs (Zpos m * d - q * 2 ^ n) <= d.
