(** OverSpec.v -- narrowing conversions between arithmetic types, stated by the values of the types. *)
From Verif Require Import Base OverModel.

(** the least and the greatest value of an integer type of an LP64 platform on x86-64; [None]: not an integer type *)
Definition int_range (t : ty) : option (Z * Z) :=
  match t with
  | TBool => Some (0, 1)
  | TChar => Some (-128, 127)
  | TInt => Some (-2147483648, 2147483647)
  | TUInt => Some (0, 4294967295)
  | TLong => Some (-9223372036854775808, 9223372036854775807)
  | TSize => Some (0, 18446744073709551615)
  | TFloat | TDouble | TClass _ => None
  end%Z.
Definition value_of (t : ty) (z : Z) : Prop := match int_range t with Some (lo, hi) => (lo <= z <= hi)%Z | None => False end.

(** [dcl.init.list], for values that are not constant expressions *)
Inductive narrowing : ty -> ty -> Prop :=
| N_integer X T z : value_of X z -> ~ value_of T z -> int_range T <> None -> narrowing X T
| N_to_integer X T : X = TFloat \/ X = TDouble -> int_range T <> None -> narrowing X T
| N_from_integer X T : int_range X <> None -> T = TFloat \/ T = TDouble -> narrowing X T
| N_smaller : narrowing TDouble TFloat.

(** [conv.prom], [conv.fpprom]: an integer type other than int, all of whose values are values of int, is promoted to int; float to double *)
Inductive promotion : ty -> ty -> Prop :=
| P_integer X : X <> TInt -> int_range X <> None -> (forall z, value_of X z -> value_of TInt z) -> promotion X TInt
| P_float : promotion TFloat TDouble.
