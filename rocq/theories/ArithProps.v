(** ArithProps.v -- C155: the types of arithmetic expressions. *)
From Verif Require Import Base ArithModel ArithSpec ArithProofs.

(** C155: the type of an expression with at least one operator depends only on which types its operands have, not on the operators, the
    order, the grouping or the number of them. *)
Theorem C155_order_and_grouping :
  forall m : impl, conforming m -> forall e1 e2, has_operator e1 = true -> has_operator e2 = true ->
  (forall t, In t (leaves e1) <-> In t (leaves e2)) -> type_of m e1 = type_of m e2.
Proof. exact same_leaves. Qed.
Print Assumptions C155_order_and_grouping.

(** C155: in particular every expression over values of X1 and X2, in which both occur, has the type ArithmeticType<X1,X2>. *)
Theorem C155_arithmetic_type :
  forall m : impl, conforming m -> forall e x1 x2, has_operator e = true ->
  (forall t, In t (leaves e) <-> t = x1 \/ t = x2) -> type_of m e = ArithmeticType m x1 x2.
Proof. exact arithmetic_type. Qed.
Print Assumptions C155_arithmetic_type.

(** C155: and its values can be negated, added, subtracted, multiplied and divided without leaving it. *)
Theorem C155_closed :
  forall (m : impl) x1 x2, let A := ArithmeticType m x1 x2 in
  SumType m A A = A /\ DifferenceType m A A = A /\ ProductType m A A = A /\ QuotientType m A A = A /\ NegationType m A = A.
Proof. exact closed. Qed.
Print Assumptions C155_closed.

(** C155: it is a floating type if X1 or X2 is; otherwise it has all values of both, unless it is unsigned because the upper half of an
    unsigned type is needed for the values of one of them -- then it has all their values that are not negative. *)
Theorem C155_room :
  forall m : impl, conforming m -> 8 <= w_char m -> forall x1 x2,
  (floating x1 \/ floating x2 -> floating (ArithmeticType m x1 x2)) /\
  (~ floating x1 -> ~ floating x2 -> room m x1 x2 (ArithmeticType m x1 x2)).
Proof. exact arithmetic_room. Qed.
Print Assumptions C155_room.
(** -1 and 4294967295 have room together in long of 64 bits, but not in long of 32 bits, where the type is unsigned long *)
Example C155_example_room :
  (let m := mkImpl true 8 16 32 64 64 in conforming m /\ ArithmeticType m ALong AUInt = ALong /\
     holds m ALong (-1) /\ holds m AUInt 4294967295 /\ holds m ALong 4294967295) /\
  (let m := mkImpl true 8 16 32 32 64 in conforming m /\ ArithmeticType m ALong AUInt = AULong /\
     holds m ALong (-1) /\ holds m AUInt 4294967295 /\ ~ holds m ALong 4294967295 /\ ~ holds m AULong (-1)).
Proof. unfold conforming, holds, bits_signed, bits_unsigned. cbn [w_char w_short w_int w_long w_llong]. vm_compute. repeat split; try lia; try discriminate; intros [H1 H2]; try (apply H1; reflexivity); try discriminate. Qed.

(** the usual 64-bit implementations: (c*i)-u/l and l+(-c)*u-i with char, int, unsigned, long *)
Example C155_lp64 : let m := mkImpl true 8 16 32 64 64 in conforming m /\
  type_of m (XBin BSub (XBin BMul (XLeaf AChar) (XLeaf AInt)) (XBin BDiv (XLeaf AUInt) (XLeaf ALong))) = ALong /\
  type_of m (XBin BAdd (XLeaf ALong) (XBin BSub (XBin BMul (XNeg (XLeaf AChar)) (XLeaf AUInt)) (XLeaf AInt))) = ALong.
Proof. vm_compute. repeat split; lia. Qed.
(** the same with 32-bit long *)
Example C155_llp64 : let m := mkImpl true 8 16 32 32 64 in conforming m /\
  type_of m (XBin BSub (XBin BMul (XLeaf AChar) (XLeaf AInt)) (XBin BDiv (XLeaf AUInt) (XLeaf ALong))) = AULong /\ SumType m AUInt ALLong = ALLong.
Proof. vm_compute. repeat split; lia. Qed.
(** a value on its own is not promoted; short as wide as int *)
Example C155_leaf : let m := mkImpl false 8 16 16 32 64 in conforming m /\ type_of m (XLeaf AUShort) = AUShort /\ ArithmeticType m AUShort AUShort = AUInt
  /\ ArithmeticType m AChar ABool = AInt /\ ArithmeticType m AULLong AFloat = AFloat.
Proof. vm_compute. repeat split; lia. Qed.
