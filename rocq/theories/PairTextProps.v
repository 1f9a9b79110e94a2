(** PairTextProps.v -- C169: the text of a PairIterator tells where it points.  Statements only; the lemmas are in
    PairTextProofs.v. *)
From Verif Require Import Base StreamModel PairTextModel PairTextSpec PairTextProofs.

(** ** C169: pointers to objects other than characters: the text is the pair of their addresses *)
Theorem C169_addresses_partial :
  forall (b1 z1 i1 b2 z2 i2 : N) (o : text), exists t1 t2,
  print_pair_iterator (PObject b1 z1 i1, PObject b2 z2 i2) o =
    Ret tt (o ++ chars "{" ++ t1 ++ chars "," ++ t2 ++ chars "}") /\
  hex_number t1 = Some (b1 + z1 * i1)%N /\ hex_number t2 = Some (b2 + z2 * i2)%N.
Proof. exact objects_text. Qed.
Print Assumptions C169_addresses_partial.

(** and two of them over the same arrays have the same text exactly if they are at the same positions *)
Theorem C169_distinct_partial :
  forall (b1 z1 i1 j1 b2 z2 i2 j2 : N) (o : text), z1 <> 0%N -> z2 <> 0%N ->
  (print_pair_iterator (PObject b1 z1 i1, PObject b2 z2 i2) o =
   print_pair_iterator (PObject b1 z1 j1, PObject b2 z2 j2) o <-> i1 = j1 /\ i2 = j2).
Proof. exact objects_distinct. Qed.
Print Assumptions C169_distinct_partial.

Example C169_example :
  print_pair_iterator (PObject 4096 4 3, PObject 48879 8 0) (chars "at ") = Ret tt (chars "at {0x100c,0xbeef}") /\
  hex_number (chars "0x100c") = Some (4096 + 4 * 3)%N.
Proof. split; vm_compute; reflexivity. Qed.

(** A pointer to characters prints these, up to the next NUL, and not its address; without one, printing is undefined. *)
Theorem C169_characters_refuted :
  forall (cells : text) (i : nat) (b z k : N) (o : text),
  (forall j, next_nul cells i j ->
     exists t, hex_number t = Some (b + z * k)%N /\
       print_pair_iterator (PChars cells i, PObject b z k) o =
       Ret tt (o ++ chars "{" ++ firstn (j - i) (skipn i cells) ++ chars "," ++ t ++ chars "}")) /\
  ((~ exists j, next_nul cells i j) -> print_pair_iterator (PChars cells i, PObject b z k) o = Ub UbOutOfBounds).
Proof. exact chars_text. Qed.
Print Assumptions C169_characters_refuted.

(** so the end of an array of characters can never be printed *)
Theorem C169_end_refuted :
  forall (cells : text) (i : nat) (q : pointer) (o : text), length cells <= i ->
  print_pair_iterator (PChars cells i, q) o = Ub UbOutOfBounds.
Proof. exact end_undefined. Qed.
Print Assumptions C169_end_refuted.

(** and all positions in an array of volatile objects have the same text *)
Theorem C169_volatile_refuted :
  forall (b z i j : N) (q : pointer) (o : text), b <> 0%N ->
  print_pair_iterator (PVolatile b z i, q) o = print_pair_iterator (PVolatile b z j, q) o.
Proof. exact volatile_same. Qed.
Print Assumptions C169_volatile_refuted.

(** different positions with one text; no NUL *)
Example C169_refuted_example :
  let word := chars "ab" ++ ["000"%char] ++ chars "ab" ++ ["000"%char] in
  print_pair_iterator (PChars word 0, PObject 16 4 1) [] = Ret tt (chars "{ab,0x14}") /\
  print_pair_iterator (PChars word 3, PObject 16 4 1) [] = Ret tt (chars "{ab,0x14}") /\
  print_pair_iterator (PChars word 6, PObject 16 4 1) [] = Ub UbOutOfBounds /\
  print_pair_iterator (PChars (chars "ab") 0, PObject 16 4 1) [] = Ub UbOutOfBounds /\
  print_pair_iterator (PVolatile 16 4 1, PVolatile 32 4 7) [] = Ret tt (chars "{1,1}").
Proof. vm_compute. repeat split. Qed.
