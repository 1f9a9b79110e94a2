(** NumeralProps.v -- what integers look like (C34) and what blanks, digits and their value are (C36). *)
From Verif Require Import Base StreamModel StlioModel StlioSpec NumeralSpec NumeralProofs.

(** C34: an integer is printed as its decimal numeral, and no other text is one for it. *)
Theorem C34_integer_format :
  forall (z : Z) (o : ostream) (t : text), print_int z o = put_text t o <-> numeral z t.
Proof. exact int_format. Qed.
Print Assumptions C34_integer_format.

(** C36: the blanks, the digits and the values by which int_token and layout describe the texts read. *)
Theorem C36_characters_partial :
  (forall c, is_space c = true <-> In (nat_of_ascii c) blanks) /\
  (forall c, is_digit c = true <-> exists d, digit c d) /\
  (forall t n, forallb is_digit t = true /\ digits_value t = n <-> denotes t n).
Proof. exact characters. Qed.
Print Assumptions C36_characters_partial.

Example C34_example_integers :
  numeral 0 (chars "0") /\ numeral (-205) (chars "-205") /\ ~ numeral 7 (chars "07") /\ denotes (chars "0042") 42.
Proof.
  split; [|split; [|split]].
  - apply numeral_iff. reflexivity.
  - apply numeral_iff. reflexivity.
  - intros H. apply numeral_iff in H. discriminate H.
  - apply denotes_iff. split; reflexivity.
Qed.
