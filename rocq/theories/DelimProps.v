(** DelimProps.v -- the property C129: write_sequence and read_sequence with the same delimiters.  Statements only; the lemmas
    are in DelimProofs.v. *)
From Verif Require Import Base StreamModel StlioModel DelimSpec DelimProofs.

(** ** C129
    intended: what write_sequence(os,first,last,opening,closing,separator) prints for integers, read_sequence(is,v,opening,closing,
    separator) reads back, whatever the three characters are:
      Forall (fun z => lo <= z <= hi) v -> i_good s = true ->
      i_after s = o_text (write_sequence print_int op cl sep v (mkO [] false)) ++ rest ->
      exists s', read_sequence (read_int lo hi) op cl sep s = Ret v s' /\ i_good s' = true /\ i_after s' = rest *)
(** it holds if the delimiters can be told from blanks and from the items, and whatever follows *)
Theorem C129_read_back_partial :
  forall (lo hi : Z) (op cl sep : ascii) v s rest, delimits op cl sep v ->
  Forall (fun z => lo <= z <= hi)%Z v -> i_good s = true ->
  i_after s = o_text (write_sequence print_int op cl sep v (mkO [] false)) ++ rest ->
  exists s', read_sequence (read_int lo hi) op cl sep s = Ret v s' /\ i_good s' = true /\ i_after s' = rest.
Proof. exact read_back. Qed.
Print Assumptions C129_read_back_partial.

(** and only then *)
Theorem C129_exactly_refuted :
  forall (lo hi : Z) (op cl sep : ascii) v, Forall (fun z => lo <= z <= hi)%Z v -> ~ delimits op cl sep v ->
  forall s', read_sequence (read_int lo hi) op cl sep (of_text (o_text (write_sequence print_int op cl sep v (mkO [] false)))) = Ret v s' ->
  i_good s' = false.
Proof.
  exact (fun lo hi op cl sep v HF HN s' E =>
    not_true_is_false _ (fun Hg => HN (read_back_only lo hi op cl sep v s' HF E Hg))).
Qed.
Print Assumptions C129_exactly_refuted.

(** a blank as separator, which looks natural, makes reading fail for all lists of two items or more *)
Theorem C129_blank_refuted :
  forall (lo hi : Z) (op cl sep : ascii) v x y s, is_space op = false -> is_space sep = true ->
  is_digit cl = false -> is_space cl = false -> cl <> "-"%char -> (lo <= x <= hi)%Z -> i_good s = true ->
  i_after s = o_text (write_sequence print_int op cl sep (x :: y :: v) (mkO [] false)) ->
  exists s', read_sequence (read_int lo hi) op cl sep s = Exc EIosFailure s'.
Proof. exact read_back_blank. Qed.
Print Assumptions C129_blank_refuted.

(** braces and semicolons work, also '-' as separator; a digit joins the items, a closing '-' ends the list early *)
Local Open Scope char_scope.
Example C129_example :
  let back op cl sep v := read_sequence (read_int (-1000) 1000) op cl sep (of_text (o_text (write_sequence print_int op cl sep v (mkO [] false)))) in
  delimits "{" "}" ";" [12; -3]%Z /\
  (exists s, back "{" "}" ";" [12; -3]%Z = Ret [12; -3]%Z s) /\
  delimits "<" ">" "-" [12; -3; 4]%Z /\
  (exists s, back "<" ">" "-" [12; -3; 4]%Z = Ret [12; -3; 4]%Z s) /\
  ~ delimits "{" "}" " " [12; -3]%Z /\
  (exists s, back "{" "}" " " [12; -3]%Z = Exc EIosFailure s) /\
  (exists s, back "{" "}" "0" [1; 2]%Z = Ret [102]%Z s) /\
  (exists s, back "|" "|" ","  [1; 2]%Z = Ret [1; 2]%Z s) /\
  (exists s, back "<" "-" "," [-1; 2]%Z = Ret [] s) /\
  (exists s, back "(" ")" ")" [1; 2]%Z = Ret [] s).
Proof.
  cbv zeta. repeat match goal with |- _ /\ _ => split end;
    try (eexists; vm_compute; reflexivity); try (unfold delimits; repeat split; try reflexivity; intros; try discriminate).
  intros (_ & _ & _ & _ & _ & H). destruct H as [H _]; [discriminate|]. vm_compute in H. discriminate.
Qed.
