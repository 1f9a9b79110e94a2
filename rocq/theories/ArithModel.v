(** ArithModel.v -- NegationType, SumType, DifferenceType, ProductType, QuotientType, ArithmeticType, the types of comparisons and the Inplace
    types (include/metaprogramming.hpp:89-113) for the built-in arithmetic types.  Definitions only.

    - An implementation is given by the widths of its integer types and the signedness of char.
    - [promote], [usual]: integral promotion and the usual arithmetic conversions of the language, which all the operators apply.
    - Not modelled: wchar_t, charN_t, enumerations, extended types. *)
From Verif Require Import Base.

Inductive arith := ABool | AChar | ASChar | AUChar | AShort | AUShort | AInt | AUInt | ALong | AULong | ALLong | AULLong | AFloat | ADouble | ALDouble.
Definition arith_eqb (a b : arith) : bool :=
  match a, b with
  | ABool, ABool | AChar, AChar | ASChar, ASChar | AUChar, AUChar | AShort, AShort | AUShort, AUShort | AInt, AInt | AUInt, AUInt | ALong, ALong
  | AULong, AULong | ALLong, ALLong | AULLong, AULLong | AFloat, AFloat | ADouble, ADouble | ALDouble, ALDouble => true
  | _, _ => false
  end.
Record impl := mkImpl { char_signed : bool; w_char : nat; w_short : nat; w_int : nat; w_long : nat; w_llong : nat }.

Section Arith.
  Context (m : impl).
  (** integral promotion: a type whose unsigned values have [w] bits becomes int if int has room for them *)
  Definition promote_unsigned (w : nat) : arith := if w <? w_int m then AInt else AUInt.
  Definition promote (t : arith) : arith :=
    match t with
    | ABool | ASChar | AShort => AInt
    | AChar => if char_signed m then AInt else promote_unsigned (w_char m)
    | AUChar => promote_unsigned (w_char m)
    | AUShort => promote_unsigned (w_short m)
    | _ => t
    end.
  Definition is_unsigned (t : arith) : bool := match t with AUInt | AULong | AULLong => true | _ => false end.
  Definition rank (t : arith) : nat := match t with AInt | AUInt => 1 | ALong | AULong => 2 | ALLong | AULLong => 3 | _ => 0 end.
  Definition width (t : arith) : nat := match t with AInt | AUInt => w_int m | ALong | AULong => w_long m | ALLong | AULLong => w_llong m | _ => 0 end.
  Definition to_unsigned (t : arith) : arith := match t with AInt => AUInt | ALong => AULong | ALLong => AULLong | _ => t end.
  Definition wider (s u : arith) : bool := width u <? width s.
  (** signed [s], unsigned [u] *)
  Definition mixed_sign (s u : arith) : arith :=
    if rank s <=? rank u then u else if wider s u then s else to_unsigned s.
  Definition usual_promoted (a b : arith) : arith :=
    if arith_eqb a b then a
    else if Bool.eqb (is_unsigned a) (is_unsigned b) then (if rank a <? rank b then b else a)
    else if is_unsigned a then mixed_sign b a else mixed_sign a b.
  Definition is t (a b : arith) : bool := arith_eqb a t || arith_eqb b t.
  Definition usual (a b : arith) : arith :=
    if is ALDouble a b then ALDouble else if is ADouble a b then ADouble else if is AFloat a b then AFloat
    else usual_promoted (promote a) (promote b).

  (** 93-98: decltype(declval<X1>()+declval<X2>()) and so on *)
  Definition NegationType (x : arith) : arith := promote x.
  Definition SumType (x1 x2 : arith) : arith := usual x1 x2.
  Definition DifferenceType (x1 x2 : arith) : arith := usual x1 x2.
  Definition ProductType (x1 x2 : arith) : arith := usual x1 x2.
  Definition QuotientType (x1 x2 : arith) : arith := usual x1 x2.
  Definition ArithmeticType (x1 x2 : arith) : arith := SumType (ProductType x1 x2) (ProductType x1 x2).

  (** expressions and their types *)
  Inductive bop := BAdd | BSub | BMul | BDiv.
  Inductive aexp := XLeaf (t : arith) | XNeg (e : aexp) | XBin (o : bop) (e1 e2 : aexp).
  Fixpoint type_of (e : aexp) : arith :=
    match e with
    | XLeaf t => t
    | XNeg e => NegationType (type_of e)
    | XBin BAdd e1 e2 => SumType (type_of e1) (type_of e2)
    | XBin BSub e1 e2 => DifferenceType (type_of e1) (type_of e2)
    | XBin BMul e1 e2 => ProductType (type_of e1) (type_of e2)
    | XBin BDiv e1 e2 => QuotientType (type_of e1) (type_of e2)
    end.
End Arith.
