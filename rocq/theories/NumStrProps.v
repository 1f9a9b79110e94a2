(** NumStrProps.v -- C167: to_string of floating-point numbers.  Statements only; the lemmas are in NumStrProofs.v. *)
From Coq Require Import Ascii.
From Verif Require Import Base StreamModel FpioModel FpioSpec FpioProofs NumStrModel NumStrSpec NumStrProofs.
Open Scope list_scope.
Open Scope Z_scope.

(** ** C167
    intended: to_string(x) is a decimal numeral for x, different numbers have different texts, and os << x appends to_string(x) *)
(** the text of a finite number is a numeral that differs from it by at most one part in 200000, by no more than any other number with 6
    digits, and not at all exactly if the number has at most 6 significant digits *)
Theorem C167_numeral_partial :
  forall (E : nat) (n : Z),
  (exists m e, numeral (number_to_string E (Finite n)) m e) /\
  forall m e, numeral (number_to_string E (Finite n)) m e -> nearly E n m e /\ best E 6 n m e /\ (exactly E n m e <-> significant E 6 n).
Proof. exact stands_for_all. Qed.
Print Assumptions C167_numeral_partial.
(** a stream whose precision has not been changed prints the same, and so does to_str *)
Theorem C167_stream_partial :
  forall (E : nat) (x : number) (t : text), insert_number E 6 x t = t ++ number_to_string E x /\ number_to_str E x = number_to_string E x.
Proof. exact inserted. Qed.
Print Assumptions C167_stream_partial.
(** violated for every integer below 2^(b-1) with more than 6 significant digits: there is another integer of the type with the same text *)
Theorem C167_distinct_refuted :
  forall (b emax : Z) (E : nat) (n : Z), 0 < b -> b <= emax -> Z.abs n < 2 ^ (b - 1) -> ~ significant E 6 (n * 2 ^ Z.of_nat E) ->
  exists n', n' <> n /\ value_of b emax E (n' * 2 ^ Z.of_nat E) /\
    number_to_string E (Finite (n' * 2 ^ Z.of_nat E)) = number_to_string E (Finite (n * 2 ^ Z.of_nat E)).
Proof. exact integers_share. Qed.
Print Assumptions C167_distinct_refuted.
(** for infinities and NaN, whose texts are no numerals, *)
Theorem C167_nonfinite_refuted :
  forall (E : nat) (x : number) (m e : Z), (forall n, x <> Finite n) -> ~ numeral (number_to_string E x) m e.
Proof. exact no_numeral. Qed.
Print Assumptions C167_nonfinite_refuted.
(** and for streams with another precision: the float 1/3 *)
Theorem C167_stream_refuted :
  let third := 11184811 * 2 ^ 124 in
  value_of 24 128 149 third /\ insert_number 149 9 (Finite third) [] <> number_to_string 149 (Finite third).
Proof. split; [split; [reflexivity|]; exists 11184811, 124; split; [discriminate|]; split; reflexivity|]. vm_compute. discriminate. Qed.
Print Assumptions C167_stream_refuted.

Example C167_example :
  let int n := Finite (n * 2 ^ 149) in
  number_to_string 149 (int 1000000) = chars "1e+06" /\ number_to_string 149 (int 1000001) = chars "1e+06" /\
  number_to_string 149 (int (-123456)) = chars "-123456" /\ number_to_str 149 (Finite (11184811 * 2 ^ 124)) = chars "0.333333" /\
  number_to_string 149 (Finite 1) = chars "1.4013e-45" /\ number_to_string 149 (Infinite true) = chars "-inf" /\
  insert_number 149 9 (Finite (11184811 * 2 ^ 124)) (chars "x=") = chars "x=0.333333343".
Proof. vm_compute. repeat split. Qed.
Example C167_numeral_example : numeral (chars "-1.25e+06") (-125) 4 /\ numeral (chars "1e-05") 1 (-5) /\ exactly 2 (-5) (-125) (-2).
Proof.
  assert (D : forall c d, 0 <= d <= 9 -> c = ascii_of_nat (48 + Z.to_nat d) -> digit c d) by (unfold digit; auto).
  assert (D0 : digit "0" 0) by (apply D; [lia|reflexivity]). assert (D1 : digit "1" 1) by (apply D; [lia|reflexivity]).
  assert (D2 : digit "2" 2) by (apply D; [lia|reflexivity]). assert (D5 : digit "5" 5) by (apply D; [lia|reflexivity]).
  assert (D6 : digit "6" 6) by (apply D; [lia|reflexivity]).
  split; [|split].
  - apply (N_minus (chars "1.25e+06") 125 4). apply (S_plus (chars "1.25") 125 (-2) (chars "06") 6).
    + apply (P_point ["1"%char] 1 (chars "25") 25); [now constructor|]. apply (D_next ["2"%char] 2 "5" 5); [now constructor|assumption].
    + apply (D_next ["0"%char] 0 "6" 6); [now constructor|assumption].
  - apply N_plus. apply (S_minus ["1"%char] 1 0 (chars "05") 5); [now do 2 constructor|]. apply (D_next ["0"%char] 0 "5" 5); [now constructor|assumption].
  - intros i j I J EJ. replace j with (i + 2) by lia. rewrite Z.pow_add_r by lia. change (2 ^ Z.of_nat 2) with 4. change (10 ^ 2) with 100. ring.
Qed.
Example C167_hypotheses : Z.abs 1000001 < 2 ^ (24 - 1) /\ ~ significant 149 6 (1000001 * 2 ^ Z.of_nat 149) /\ significant 149 6 (5 * 2 ^ 147).
Proof.
  split; [reflexivity|]. split.
  - intros H. apply (printed_significant 149 6 (1000001 * 2 ^ Z.of_nat 149)) in H; [vm_compute in H; discriminate|repeat constructor].
  - exists 125, 0, 2. split; [discriminate|]. split; [discriminate|]. split; vm_compute; reflexivity.
Qed.
