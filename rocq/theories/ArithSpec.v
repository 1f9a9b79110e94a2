(** ArithSpec.v -- what C155 says.  Definitions only. *)
From Verif Require Import Base ArithModel.

(** what the language requires of the widths *)
Definition conforming (m : impl) : Prop := w_char m <= w_short m /\ w_short m <= w_int m /\ w_int m <= w_long m /\ w_long m <= w_llong m.
Fixpoint leaves (e : aexp) : list arith :=
  match e with XLeaf t => [t] | XNeg e => leaves e | XBin _ e1 e2 => leaves e1 ++ leaves e2 end.
Definition has_operator (e : aexp) : bool := match e with XLeaf _ => false | _ => true end.

(** the integers a type has: [w] bits without and with sign *)
Definition bits_unsigned (w : nat) (z : Z) : Prop := (0 <= z < 2 ^ Z.of_nat w)%Z.
Definition bits_signed (w : nat) (z : Z) : Prop := (- 2 ^ Z.of_nat w <= 2 * z < 2 ^ Z.of_nat w)%Z.
Definition holds (m : impl) (t : arith) (z : Z) : Prop :=
  match t with
  | ABool => (0 <= z <= 1)%Z
  | AChar => if char_signed m then bits_signed (w_char m) z else bits_unsigned (w_char m) z
  | ASChar => bits_signed (w_char m) z | AUChar => bits_unsigned (w_char m) z
  | AShort => bits_signed (w_short m) z | AUShort => bits_unsigned (w_short m) z
  | AInt => bits_signed (w_int m) z | AUInt => bits_unsigned (w_int m) z
  | ALong => bits_signed (w_long m) z | AULong => bits_unsigned (w_long m) z
  | ALLong => bits_signed (w_llong m) z | AULLong => bits_unsigned (w_llong m) z
  | _ => False
  end.
Definition floating (t : arith) : Prop := t = AFloat \/ t = ADouble \/ t = ALDouble.
(** [r] has all values of [t1] and of [t2]; or it has none below 0, but all others of theirs, and needs its upper half for them *)
Definition room (m : impl) (t1 t2 r : arith) : Prop :=
  (forall z, holds m t1 z \/ holds m t2 z -> holds m r z) \/
  ((forall z, holds m r z -> (0 <= z)%Z) /\
   (forall z, (0 <= z)%Z -> holds m t1 z \/ holds m t2 z -> holds m r z) /\
   (exists z, (holds m t1 z \/ holds m t2 z) /\ forall z', holds m r z' -> (z' <= 2 * z + 1)%Z)).
