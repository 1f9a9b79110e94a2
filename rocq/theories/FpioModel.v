(** FpioModel.v -- lists of floating-point numbers printed (include/container.hpp:127-135) and read (include/stlio.hpp:144-190,
    278-283).  Definitions only.

    Nothing in the code of /repo depends on the elements being floating-point: what they are printed as and read from is determined by the
    standard library, and by the precision of the stream, which the code of /repo does not set.  Modelled here are the inserter
    (printf %.*g) and extractor (strtod) of std::num_put and std::num_get; the latter knows no infinities and no NaN.

    - The type has [b] bits of significand, values below 2^[emax], and the least positive value 2^-[E]: 24, 128 and 149 for float, 53, 1024 and
      1074 for double, 64, 16384 and 16445 for long double.  The number n/2^E is given by the integer n.
    - The stream has no format flags; conversions round to nearest, ties to even.
    - Simplified: no negative zero. *)
From Verif Require Import Base StreamModel StlioModel.
Open Scope list_scope.
Open Scope Z_scope.

(** a/d for a>=0 and d>0, to the nearest integer, ties to even *)
Definition half_even (a d : Z) : Z :=
  let q := a / d in
  match 2 * (a mod d) ?= d with Lt => q | Gt => q + 1 | Eq => if Z.even q then q else q + 1 end.

(** ** printing *)
(** the exponent of the first decimal digit *)
Fixpoint exponent_loop (fuel : nat) (a : Z) : nat :=
  match fuel with O => O | S f => if a <? 10 then O else S (exponent_loop f (a / 10)) end.
Definition exponent10 (a : Z) : nat := exponent_loop (Z.to_nat (Z.log2 a)) a.
Definition digit_char (d : Z) : ascii := ascii_of_nat (48 + Z.to_nat d).
(** exactly [f] digits *)
Fixpoint fixed (f : nat) (r : Z) : text :=
  match f with O => [] | S f' => fixed f' (r / 10) ++ [digit_char (r mod 10)] end.
(** removes trailing zeros from a number with [f] digits after the point *)
Fixpoint strip (f : nat) (d : Z) : nat * Z :=
  match f with O => (O, d) | S f' => if d mod 10 =? 0 then strip f' (d / 10) else (f, d) end.
(** %f without trailing zeros, for d * 10^-f *)
Definition decimal (f : nat) (d : Z) : text :=
  let '(g, d') := strip f d in
  int_text (d' / 10 ^ Z.of_nat g) ++ (if (g =? 0)%nat then [] else chars "." ++ fixed g (d' mod 10 ^ Z.of_nat g)).
(** the exponent of %e: at least two digits *)
Definition exponent_text (x : Z) : text :=
  (if x <? 0 then chars "e-" else chars "e+") ++ (if Z.abs x <? 10 then chars "0" else []) ++ int_text (Z.abs x).
(** a to [P] significant digits: d * 10^(y-(P-1)), where d has P digits *)
Definition rounded (P : nat) (a : Z) : Z * nat :=
  let x := exponent10 a in
  if (x <? P)%nat then (a * 10 ^ Z.of_nat (P - 1 - x), x)
  else
    let d := half_even a (10 ^ Z.of_nat (x - (P - 1))) in
    if d =? 10 ^ Z.of_nat P then (d / 10, S x) else (d, x).
(** %.[p]g *)
Definition float_text (E p : nat) (n : Z) : text :=
  let P := Nat.max 1 p in
  let a := Z.abs n * 5 ^ Z.of_nat E in                                         (* |n|/2^E = a/10^E *)
  (if n <? 0 then chars "-" else []) ++
  if n =? 0 then chars "0"
  else
    let '(d, y) := rounded P a in
    let x := Z.of_nat y - Z.of_nat E in
    if (x <? -4) || (Z.of_nat P <=? x) then decimal (P - 1) d ++ exponent_text x else decimal (Z.to_nat (Z.of_nat P - 1 - x)) d.
(** os << n, for a stream with precision [p] *)
Definition print_float (E p : nat) (n : Z) (o : ostream) : ostream := put_text (float_text E p n) o.
(** the numbers of the type *)
Inductive number := Finite (n : Z) | Infinite (neg : bool) | NaN (neg : bool).
Definition number_text (E p : nat) (x : number) : text :=
  match x with
  | Finite n => float_text E p n
  | Infinite neg => (if neg then chars "-" else []) ++ chars "inf"
  | NaN neg => (if neg then chars "-" else []) ++ chars "nan"
  end.
Definition print_number (E p : nat) (x : number) (o : ostream) : ostream := put_text (number_text E p x) o.

(** ** reading *)
Section Type_.
  Context (b emax : Z) (E : nat).
  (** the value of the type nearest to a/c >= 0, for an unbounded exponent *)
  Definition nearest (a c : Z) : Z :=
    let k := Z.max 0 (Z.log2 (a / c) + 1 - b) in
    half_even a (c * 2 ^ k) * 2 ^ k.
  (** that of m * 10^e *)
  Definition converted (m e : Z) : Z :=
    if 0 <=? e then nearest (m * 10 ^ e * 2 ^ Z.of_nat E) 1 else nearest (m * 2 ^ Z.of_nat E) (10 ^ (- e)).
  (** [e|E [+|-] digits]: the characters, and the exponent if it is complete *)
  Definition take_exponent (t : text) : text * option Z * text :=
    match t with
    | c :: q =>
        if Ascii.eqb c "e" || Ascii.eqb c "E" then
          let '(sg, neg, q') := take_sign q in
          let '(ds, r) := span is_digit q' in
          (c :: sg ++ ds, match ds with [] => None | _ => Some (if neg then - digits_value ds else digits_value ds) end, r)
        else ([], Some 0, t)
    | [] => ([], Some 0, [])
    end.
  Definition take_fraction (t : text) : text * text * text :=
    match t with
    | c :: q => if Ascii.eqb c "." then let '(fp, r) := span is_digit q in ([c], fp, r) else ([], [], t)
    | [] => ([], [], [])
    end.
  (** is >> x *)
  Definition read_float : M istream Z := fun s =>
    let '(ok, s1) := sentry false s in
    if ok then
      let '(sg, neg, r) := take_sign (i_after s1) in
      let '(ip, r1) := span is_digit r in
      let '(pt, fp, r2) := take_fraction r1 in
      match ip ++ fp with
      | [] => Ret 0 (set_fail (if_eof (advance (sg ++ ip ++ pt ++ fp) r2 s1)))
      | m =>
          let '(et, ex, r3) := take_exponent r2 in
          let s2 := if_eof (advance (sg ++ ip ++ pt ++ fp ++ et) r3 s1) in
          match ex with
          | None => Ret 0 (set_fail s2)
          | Some e =>
              let x := converted (digits_value m) (e - Z.of_nat (List.length fp)) in
              let signed y := if neg then - y else y in
              if 2 ^ (emax + Z.of_nat E) <=? x
              then Ret (signed ((2 ^ b - 1) * 2 ^ (emax + Z.of_nat E - b))) (set_fail s2)            (* out of range *)
              else Ret (signed x) s2
          end
      end
    else Ret 0 s1.
End Type_.
