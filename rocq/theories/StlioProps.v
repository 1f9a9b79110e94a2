(** StlioProps.v -- the properties C34-C37 of printing and reading sequences.  Statements only; the
    lemmas are in StlioProofs.v. *)
From Verif Require Import Base StreamModel StlioModel StlioSpec StlioProofs.

(** ** C34: the hand-written operators agree with write_sequence for every element printer, and the
    text has the stated format for printers that append a text. *)
Theorem C34_sequence_formats :
  forall (T : Type) (pr : T -> ostream -> ostream) (l : list T) (o : ostream),
  print_array pr l o = write_sequence pr "[" "]" "," l o /\
  print_shared_array pr l o = write_sequence pr "[" "]" "," l o /\
  print_vector pr l o = write_sequence pr "[" "]" "," l o /\
  print_list pr l o = write_sequence pr "[" "]" "," l o /\
  print_set pr l o = write_sequence pr "{" "}" "," l o /\
  (forall txt, plain pr txt ->
     print_vector pr l o = put_text (chars "[" ++ separated (chars ",") (map txt l) ++ chars "]") o /\
     print_set pr l o = put_text (chars "{" ++ separated (chars ",") (map txt l) ++ chars "}") o).
Proof. exact printing_formats. Qed.
Print Assumptions C34_sequence_formats.

Theorem C34_map_formats :
  forall (K V : Type) prk prv (tk : K -> text) (tv : V -> text) (m : list (K * V)) o,
  plain prk tk -> plain prv tv ->
  print_map prk prv m o =
    put_text (chars "{" ++ (match m with [] => [] | _ => chars " " end) ++
              separated (chars ", ") (map (fun e => tk (fst e) ++ chars ":" ++ tv (snd e)) m) ++ chars " }") o /\
  forall op cl sep de,
  write_map_sequence prk prv op cl sep de m o =
    put_text ([op] ++ separated [sep] (map (fun e => tk (fst e) ++ [de] ++ tv (snd e)) m) ++ [cl]) o.
Proof. exact map_printing. Qed.
Print Assumptions C34_map_formats.

(** pairs, and tuples with at least one component *)
Theorem C34_tuple_formats :
  forall comps : list text, comps <> [] ->
  (forall o, print_tuple (map put_text comps) o =
    Some (put_text (chars "(" ++ separated (chars ",") comps ++ chars ")") o)) /\
  (forall A B (pa : A -> ostream -> ostream) pb (a : A) (b : B) ta tb o,
     pa a = put_text ta -> pb b = put_text tb ->
     print_pair pa pb (a, b) o = put_text (chars "(" ++ separated (chars ",") [ta; tb] ++ chars ")") o).
Proof. exact tuple_printing. Qed.
Print Assumptions C34_tuple_formats.

Definition printed (f : ostream -> ostream) : text := o_text (f (mkO [] false)).
Example C34_example :
  printed (print_vector print_int [12; -3; 0]%Z) = chars "[12,-3,0]" /\
  printed (print_vector print_int []) = chars "[]" /\
  printed (print_list print_int [7]%Z) = chars "[7]" /\
  printed (print_set print_int [1; 2]%Z) = chars "{1,2}" /\
  printed (print_set print_int []) = chars "{}" /\
  printed (print_map print_int print_bool [(1%Z, true); (2%Z, false)]) = chars "{ 1:1, 2:0 }" /\
  printed (print_map print_int print_bool []) = chars "{ }" /\
  printed (print_vector (print_vector print_int) [[1]; []; [2; 3]]%Z) = chars "[[1],[],[2,3]]" /\
  plain print_int int_text.
Proof. repeat split. Qed.
Example C34_example_tuple :
  option_map o_text (print_tuple (map put_text [chars "1"; chars "b"; chars "3"]) (mkO (chars "x=") true)) =
    Some (chars "x=(1,b,3)") /\
  printed (print_pair print_int print_bool (4%Z, true)) = chars "(4,1)".
Proof. split; reflexivity. Qed.

(** ** C35: for any element reader that reads an item's text when a blank, ',' or ']' follows, any
    layout of the list reads back, from any state of the stream and whatever follows. *)
Theorem C35_any_element_reader :
  forall (T : Type) (rd : M istream T) (txt : T -> text) (alpha : bool) (v : list T) (t : text),
  Forall (fun x => reads_as rd alpha list_follow x (txt x) /\ forall t', txt x <> "]"%char :: t') v ->
  layout txt list_follow "[" "]" "," v t ->
  forall s w rest, i_good s = true -> i_boolalpha s = alpha -> blank w -> i_after s = w ++ t ++ rest ->
    exists s', read_vector rd s = Ret v s' /\ i_good s' = true /\ moved s (w ++ t) s' /\ i_after s' = rest.
Proof. exact @vector_round_trip. Qed.
Print Assumptions C35_any_element_reader.

Theorem C35_printed_ints_read_back :
  forall (lo hi : Z) (v : list Z) (alpha : bool), Forall (fun z => lo <= z <= hi)%Z v ->
  (forall s rest, i_good s = true -> i_boolalpha s = alpha ->
     i_after s = o_text (print_vector print_int v (mkO [] alpha)) ++ rest ->
     exists s', read_vector (read_int lo hi) s = Ret v s' /\ i_good s' = true /\ i_after s' = rest) /\
  (forall t s w rest, layout int_text list_follow "[" "]" "," v t ->
     i_good s = true -> i_boolalpha s = alpha -> blank w -> i_after s = w ++ t ++ rest ->
     exists s', read_vector (read_int lo hi) s = Ret v s' /\ i_good s' = true /\
       i_after s' = rest /\ i_before s' = rev (w ++ t) ++ i_before s).
Proof. exact ints_read_back. Qed.
Print Assumptions C35_printed_ints_read_back.

Theorem C35_printed_bools_read_back :
  forall (v : list bool) (alpha : bool),
  (forall s rest, i_good s = true -> i_boolalpha s = alpha ->
     i_after s = o_text (print_vector print_bool v (mkO [] alpha)) ++ rest ->
     exists s', read_vector read_bool s = Ret v s' /\ i_good s' = true /\ i_after s' = rest) /\
  (forall t s w rest, layout (bool_text alpha) list_follow "[" "]" "," v t ->
     i_good s = true -> i_boolalpha s = alpha -> blank w -> i_after s = w ++ t ++ rest ->
     exists s', read_vector read_bool s = Ret v s' /\ i_good s' = true /\
       i_after s' = rest /\ i_before s' = rev (w ++ t) ++ i_before s).
Proof. exact bools_read_back. Qed.
Print Assumptions C35_printed_bools_read_back.

(** lists of lists of ... of integers, of any depth *)
Theorem C35_nested_lists_read_back :
  forall (lo hi : Z) (n : nat) (v : list (nest n)) (alpha : bool), nest_ok lo hi (S n) v ->
  forall s rest, i_good s = true -> i_boolalpha s = alpha ->
    i_after s = o_text (nest_print (S n) v (mkO [] alpha)) ++ rest ->
    exists s', nest_read lo hi (S n) s = Ret v s' /\ i_good s' = true /\ i_after s' = rest.
Proof. exact printed_nests_read_back. Qed.
Print Assumptions C35_nested_lists_read_back.

Example C35_example :
  exists s', read_vector (read_int (-128) 127) (of_text (chars " [ 12 ,-3, 0] tail")) = Ret [12; -3; 0]%Z s' /\
    i_good s' = true /\ i_after s' = chars " tail".
Proof. eexists. split; [vm_compute; reflexivity|split; reflexivity]. Qed.
Example C35_example_layout :
  layout int_text list_follow "[" "]" "," [12; -3]%Z (chars "[ 12 ,-3]").
Proof.
  apply layout_body. apply (body_cons int_text list_follow "]" "," 12%Z (chars " ") (chars " ")).
  - reflexivity.
  - reflexivity.
  - do 2 eexists; split; reflexivity.
  - apply (body_last int_text list_follow "]" "," (-3)%Z [] []); try reflexivity. do 2 eexists; split; reflexivity.
Qed.
Example C35_example_nested :
  exists s', nest_read (-128) 127 2 (of_text (chars "[[1,-2],[],[3]];")) = Ret [[1; -2]; []; [3]]%Z s' /\
    i_good s' = true /\ i_after s' = chars ";".
Proof. eexists. split; [vm_compute; reflexivity|split; reflexivity]. Qed.
(** a value outside the type's range is not accepted *)
Example C35_example_range :
  exists s', read_vector (read_int (-128) 127) (of_text (chars "[128]")) = Exc EIosFailure s'.
Proof. eexists. vm_compute. reflexivity. Qed.

(** ** C36: intended statement: on every input, read_sequence returns a list it really read or throws
    ios_base::failure.  False: when there is no character to read -- nothing but blanks left, or the
    stream not good -- the uninitialised variable c is compared. *)
Theorem C36_blank_input_refuted :
  forall (T : Type) (rd : M istream T) (op cl sep : ascii) (s : istream),
  i_good s = false \/ blank (i_after s) -> read_sequence rd op cl sep s = Ub UbUninit.
Proof. exact @read_sequence_blank. Qed.
Print Assumptions C36_blank_input_refuted.

(** The rest holds: for element readers that always return, only move forward and do not repair the
    stream, every other input is accepted only if it is a list of items, and otherwise throws; the loop
    always ends. *)
Theorem C36_read_sequence_total_partial :
  forall (T : Type) (rd : M istream T) (op cl sep : ascii), tame rd -> op <> cl -> sep <> cl ->
  forall s,
  match read_sequence rd op cl sep s with
  | Ret v s' => exists t, moved s t s' /\ accepted rd op cl sep v t
  | Exc e _ => e = EIosFailure
  | Ub r => r = UbUninit /\ (i_good s = false \/ blank (i_after s))
  | Abort | Fuel => False
  end.
Proof. exact @read_sequence_total. Qed.
Print Assumptions C36_read_sequence_total_partial.

Theorem C36_standard_readers_tame :
  (forall lo hi, tame (read_int lo hi)) /\ tame read_bool /\ tame read_string.
Proof. exact standard_readers_tame. Qed.
Print Assumptions C36_standard_readers_tame.

(** for integers: accepted texts are integer tokens in range between brackets and commas *)
Theorem C36_read_ints_partial :
  forall (lo hi : Z) (s : istream),
  match read_vector (read_int lo hi) s with
  | Ret v s' => exists w w1 u, blank w /\ blank w1 /\ i_after s = (w ++ chars "[" ++ w1 ++ u) ++ i_after s' /\
                  (v = [] /\ u = chars "]" \/ int_items lo hi v u)
  | Exc e _ => e = EIosFailure
  | Ub r => r = UbUninit /\ (i_good s = false \/ blank (i_after s))
  | Abort | Fuel => False
  end.
Proof. exact read_ints_total. Qed.
Print Assumptions C36_read_ints_partial.

Example C36_example_blank : read_vector (read_int 0 9) (of_text (chars "  ")) = Ub UbUninit.
Proof. vm_compute. reflexivity. Qed.
(** readers that are not tame pass the problem on: a list of lists cut off after the bracket *)
Example C36_example_nested : read_vector (read_vector (read_int 0 9)) (of_text (chars "[")) = Ub UbUninit.
Proof. vm_compute. reflexivity. Qed.
Example C36_example_malformed :
  (exists s, read_vector (read_int 0 9) (of_text (chars "[1,2")) = Exc EIosFailure s) /\
  (exists s, read_vector (read_int 0 9) (of_text (chars "[1;2]")) = Exc EIosFailure s) /\
  (exists s, read_vector (read_int 0 9) (of_text (chars "[1,,2]")) = Exc EIosFailure s) /\
  (exists s, read_vector (read_int 0 9) (of_text (chars "[1,]")) = Exc EIosFailure s) /\
  (exists s, read_vector (read_int 0 9) (of_text (chars "1,2]")) = Exc EIosFailure s) /\
  (exists s, read_vector (read_int 0 9) (of_text (chars "[")) = Exc EIosFailure s).
Proof. repeat split; eexists; vm_compute; reflexivity. Qed.

(** ** C37: intended statement: a printed vector of strings reads back.  False: reading a string takes
    everything up to the next blank, brackets and commas included, so every non-empty vector throws. *)
Theorem C37_printed_strings_refuted :
  forall (v : list text) (s : istream), v <> [] -> Forall list_string v -> i_good s = true ->
  i_after s = o_text (print_vector print_string v (mkO [] false)) ->
  exists s', read_vector read_string s = Exc EIosFailure s'.
Proof. exact strings_throw. Qed.
Print Assumptions C37_printed_strings_refuted.

(** What does hold: if every string is followed by a blank, the list reads back. *)
Theorem C37_spaced_strings_partial :
  forall (v : list text) (t : text), Forall list_string v -> layout (fun t => t) is_space "[" "]" "," v t ->
  forall s w rest, i_good s = true -> blank w -> i_after s = w ++ t ++ rest ->
    exists s', read_vector read_string s = Ret v s' /\ i_good s' = true /\ i_after s' = rest.
Proof. exact spaced_strings_read_back. Qed.
Print Assumptions C37_spaced_strings_partial.

Example C37_example_refuted :
  let v := [chars "ab"; chars "c"] in
  o_text (print_vector print_string v (mkO [] false)) = chars "[ab,c]" /\ Forall list_string v.
Proof. split; [reflexivity|]. repeat (constructor; [split; [discriminate|reflexivity]|]). constructor. Qed.
Example C37_example_spaced :
  exists s', read_vector read_string (of_text (chars "[ab ,c ]!")) = Ret [chars "ab"; chars "c"] s' /\
    i_after s' = chars "!".
Proof. eexists. split; vm_compute; reflexivity. Qed.

(** the characters that count as blanks: tab, newline, vertical tab, form feed, carriage return, space *)
Example C36_example_blanks :
  filter is_space (map Ascii.ascii_of_nat (seq 0 256)) = map Ascii.ascii_of_nat [9; 10; 11; 12; 13; 32].
Proof. vm_compute. reflexivity. Qed.
(** a character cannot be put back at the beginning of a stream *)
(** a bool that cannot be read is set to false *)
Example C36_example_bool :
  exists s', read_bool (mkI [] (chars "tru,") false false false true) = Ret false s' /\ i_failed s' = true.
Proof. eexists. split; vm_compute; reflexivity. Qed.
Example C36_example_putback :
  exists s', putback "a" (of_text (chars "b")) = Ret tt s' /\ i_bad s' = true /\ i_after s' = chars "b".
Proof. eexists. split; [vm_compute; reflexivity|]. split; reflexivity. Qed.
