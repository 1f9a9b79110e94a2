(** FpioProps.v -- C166: lists of floating-point numbers printed and read.  Statements only; the lemmas are in FpioProofs.v. *)
From Verif Require Import Base StreamModel StlioModel FpioModel FpioSpec FpioProofs.
Open Scope list_scope.
Open Scope Z_scope.

(** ** C166
    intended: a printed list of floating-point numbers reads back as the same list, whatever the precision p of the stream *)
(** holds for numbers with at most p significant decimal digits, *)
Theorem C166_few_digits_partial :
  forall (b emax : Z) (E : nat), 0 < b -> forall (p : nat) (alpha : bool) (v : list Z) (s : istream) (rest : text),
  (1 <= p)%nat -> Forall (fun n => value_of b emax E n /\ significant E p n) v ->
  i_good s = true -> i_boolalpha s = alpha -> i_after s = o_text (print_vector (print_float E p) v (mkO [] alpha)) ++ rest ->
  exists s', read_vector (read_float b emax E) s = Ret v s' /\ i_good s' = true /\ i_after s' = rest.
Proof. exact few_digits_read_back. Qed.
Print Assumptions C166_few_digits_partial.
(** for those closest to such numbers, if p is at most 6 for float, 15 for double, 18 for long double, except for the subnormal ones, *)
Theorem C166_decimals_partial :
  forall (b emax : Z) (E : nat), 0 < b -> forall (p : nat) (alpha : bool) (v : list Z) (s : istream) (rest : text),
  (1 <= p)%nat -> 10 ^ Z.of_nat p <= 2 ^ (b - 1) ->
  Forall (fun n => value_of b emax E n /\ (significant E p n \/ 2 ^ (b - 1) <= Z.abs n /\ closest b E p n)) v ->
  i_good s = true -> i_boolalpha s = alpha -> i_after s = o_text (print_vector (print_float E p) v (mkO [] alpha)) ++ rest ->
  exists s', read_vector (read_float b emax E) s = Ret v s' /\ i_good s' = true /\ i_after s' = rest.
Proof. exact decimals_read_back. Qed.
Print Assumptions C166_decimals_partial.
(** and for all numbers if the precision has been set high enough: to 9 for float, 17 for double, 21 for long double *)
Theorem C166_precision_partial :
  forall (b emax : Z) (E : nat), 0 < b -> forall (p : nat) (alpha : bool) (v : list Z) (s : istream) (rest : text),
  (1 <= p)%nat -> 2 ^ b < 10 ^ Z.of_nat (p - 1) -> Forall (value_of b emax E) v ->
  i_good s = true -> i_boolalpha s = alpha -> i_after s = o_text (print_vector (print_float E p) v (mkO [] alpha)) ++ rest ->
  exists s', read_vector (read_float b emax E) s = Ret v s' /\ i_good s' = true /\ i_after s' = rest.
Proof. exact enough_digits_read_back. Qed.
Print Assumptions C166_precision_partial.
(** violated for every list with an integer below 2^b that has more than p significant digits (p is 6 by default, and in to_string): the list
    that is read differs from a printed list of integers exactly in these, and no error is reported *)
Theorem C166_refuted :
  forall (b emax : Z) (E : nat), 0 < b -> forall (p : nat) (alpha : bool) (v : list Z) (s : istream) (rest : text),
  (1 <= p)%nat -> b + 2 <= emax -> Forall (fun n => Z.abs n < 2 ^ b) v ->
  i_good s = true -> i_boolalpha s = alpha ->
  i_after s = o_text (print_vector (print_float E p) (map (fun n => n * 2 ^ Z.of_nat E) v) (mkO [] alpha)) ++ rest ->
  exists s' w, read_vector (read_float b emax E) s = Ret w s' /\ i_good s' = true /\ i_after s' = rest /\
    Forall2 (fun n x => x = n * 2 ^ Z.of_nat E <-> significant E p (n * 2 ^ Z.of_nat E)) v w.
Proof. exact others_change. Qed.
Print Assumptions C166_refuted.
(** the largest float, printed with 4 digits, is not read at all *)
Theorem C166_range_refuted :
  let n := (2 ^ 24 - 1) * 2 ^ 253 in
  exists s', value_of 24 128 149 n /\
    read_vector (read_float 24 128 149) (of_text (o_text (print_vector (print_float 149 4) [n] (mkO [] false)))) = Exc EIosFailure s'.
Proof.
  eexists. split; [|vm_compute; reflexivity]. split; [reflexivity|]. exists (2 ^ 24 - 1), 253. repeat split. discriminate.
Qed.
Print Assumptions C166_range_refuted.

(** and no list with an infinity or a NaN is *)
Theorem C166_nonfinite_refuted :
  forall (b emax : Z) (E p : nat) (alpha : bool) (v : list number) (s : istream) (rest : text),
  Exists (fun x => forall n, x <> Finite n) v ->
  i_good s = true -> i_boolalpha s = alpha -> i_after s = o_text (print_vector (print_number E p) v (mkO [] alpha)) ++ rest ->
  exists s', read_vector (read_float b emax E) s = Exc EIosFailure s'.
Proof. exact nonfinite_unread. Qed.
Print Assumptions C166_nonfinite_refuted.

(** for float: 1/10, 1/3, 2^-149 *)
Definition tenth : Z := 13421773 * 2 ^ 122.
Definition third : Z := 11184811 * 2 ^ 124.
Example C166_example :
  let int n := n * 2 ^ 149 in
  let show p v := o_text (print_vector (print_float 149 p) v (mkO [] false)) in
  let read t := match read_vector (read_float 24 128 149) (of_text t) with Ret w s => Some (w, i_good s) | _ => None end in
  show 6%nat (map int [0; -12; 999999; 1000000; 1000015; 9999995; 123456784]) = chars "[0,-12,999999,1e+06,1.00002e+06,1e+07,1.23457e+08]" /\
  show 6%nat [tenth; - third; 1; 5 * 2 ^ 147; 2 ^ 135; 2 ^ 136] = chars "[0.1,-0.333333,1.4013e-45,1.25,6.10352e-05,0.00012207]" /\
  show 9%nat [tenth; third; 1] = chars "[0.100000001,0.333333343,1.40129846e-45]" /\
  read (chars "[0,-12,1.00002e+06, 1e-1 ,.25,2.5E1]") = Some ([0; int (-12); int 1000020; tenth; 2 ^ 147; int 25], true) /\
  read (show 6%nat [int 1000001; tenth; third]) = Some ([int 1000000; tenth; 11184799 * 2 ^ 124], true) /\
  read (show 9%nat [- tenth; third; 1]) = Some ([- tenth; third; 1], true) /\
  read (chars "[12.5,1e]") = None /\ read (chars "[3.5e+38]") = None /\ read (chars "[16777217,1e-99]") = Some ([int 16777216; 0], true).
Proof. vm_compute. repeat split. Qed.
Example C166_nonfinite_example :
  let v := [Finite tenth; Infinite true; NaN false] in
  Exists (fun x => forall n, x <> Finite n) v /\ o_text (print_vector (print_number 149 6) v (mkO [] false)) = chars "[0.1,-inf,nan]" /\
  exists s', read_vector (read_float 24 128 149) (of_text (chars "[0.1,-inf,nan]")) = Exc EIosFailure s' /\ i_after s' = chars "inf,nan]".
Proof.
  split; [apply Exists_cons_tl, Exists_cons_hd; discriminate|]. split; [vm_compute; reflexivity|]. eexists. split; vm_compute; reflexivity.
Qed.
Example C166_hypotheses :
  2 ^ 24 < 10 ^ Z.of_nat (9 - 1) /\ 2 ^ 53 < 10 ^ Z.of_nat (17 - 1) /\ 2 ^ 64 < 10 ^ Z.of_nat (21 - 1) /\
  10 ^ Z.of_nat 6 <= 2 ^ 23 /\ 10 ^ Z.of_nat 15 <= 2 ^ 52 /\ 10 ^ Z.of_nat 18 <= 2 ^ 63 /\
  value_of 24 128 149 tenth /\ 2 ^ 23 <= Z.abs tenth /\ closest 24 149 6 tenth /\ ~ significant 149 6 tenth /\
  significant 149 6 (-123456 * 2 ^ 149) /\ ~ significant 149 6 (1000001 * 2 ^ 149).
Proof.
  do 3 (split; [reflexivity|]). do 3 (split; [vm_compute; discriminate|]).
  split; [split; [reflexivity|]; exists 13421773, 122; split; [discriminate|]; split; reflexivity|].
  split; [vm_compute; discriminate|].
  split; [apply (closest_intro 24 149 6 13421773 122 1 0 1); [reflexivity|discriminate|split; reflexivity|discriminate|discriminate|reflexivity|vm_compute; reflexivity]|].
  split; [intros H; apply (printed_significant 149 6 tenth) in H; [vm_compute in H; discriminate|repeat constructor]|].
  split; [exists (-123456), 0, 0; split; [discriminate|]; split; [discriminate|]; split; vm_compute; reflexivity|].
  intros H. apply (printed_significant 149 6 (1000001 * 2 ^ 149)) in H; [vm_compute in H; discriminate|repeat constructor].
Qed.
