(** MaskProps.v -- the properties C98 and C99: streams that throw, and what is left in the variable.  Statements
    only; the lemmas are in MaskProofs.v. *)
From Verif Require Import Base StreamModel StlioModel StlioSpec WordModel WordSpec MaskModel MaskSpec MaskProofs.

(** ** C98.  Whatever the mask, the stream, the text and the old content of the vector: reading ends with a list
    that was really read, or with ios_base::failure and the items read before the failure in the vector.  The
    undefined behaviour of C36 does not occur if the stream throws on failbit. *)
Theorem C98_reading_lists :
  forall (T : Type) (m : mask) (rd : M istream T) (s : istream) (v0 : list T), mtame rd ->
  match xread_vector m rd (s, v0) with
  | Ret _ (s', v) => exists t, moved s t s' /\ accepted rd "[" "]" "," v t
  | Exc e (s', v) => e = EIosFailure /\ exists t, moved s t s' /\ begun rd "[" "," v t
  | Ub r => r = UbUninit /\ m_fail m = false /\ (i_good s = false \/ blank (i_after s) /\ m_eof m = false)
  | Abort | Fuel => False
  end.
Proof. exact @vector_total. Qed.
Print Assumptions C98_reading_lists.
(** the readers of the standard library meet the hypothesis, and lists of lists of any depth if failbit throws *)
Theorem C98_readers :
  (forall m lo hi, mtame (mread_int m lo hi)) /\ (forall m, mtame (mread_bool m)) /\ (forall m, mtame (mread_string m)) /\
  (forall m lo hi n, m_fail m = true -> mtame (mnest_read m lo hi n)).
Proof. exact readers_mtame. Qed.
Print Assumptions C98_readers.
(** A read that succeeds without a mask gives the same list and the same position with every mask. *)
Theorem C98_success_unaffected :
  forall (T : Type) (m : mask) (rd0 rdx : M istream T) (s : istream) (v : list T) (s' : istream),
  follows rd0 rdx -> keeps_failed rd0 -> read_vector rd0 s = Ret v s' ->
  forall v0, xread_vector m rdx (s, v0) = Ret tt (s', v) /\ i_good s' = true.
Proof. exact @success_same. Qed.
Print Assumptions C98_success_unaffected.
(** So printed lists read back: lists nested to any depth over integers, lists of bool, lists of words. *)
Theorem C98_printed_lists_read_back :
  (forall (m : mask) (lo hi : Z) (n : nat) (v : list (nest n)) (alpha : bool), nest_ok lo hi (S n) v ->
   forall s rest v0, i_good s = true -> i_boolalpha s = alpha ->
     i_after s = o_text (nest_print (S n) v (mkO [] alpha)) ++ rest ->
     exists s', xread_vector m (mnest_read m lo hi n) (s, v0) = Ret tt (s', v) /\ i_good s' = true /\ i_after s' = rest) /\
  (forall (m : mask) (v : list bool) (alpha : bool),
   forall s rest v0, i_good s = true -> i_boolalpha s = alpha ->
     i_after s = o_text (print_vector print_bool v (mkO [] alpha)) ++ rest ->
     exists s', xread_vector m (mread_bool m) (s, v0) = Ret tt (s', v) /\ i_good s' = true /\ i_after s' = rest) /\
  (forall (m : mask) (v : list word) (flag alpha : bool), Forall (fun w => w <> []) v ->
   forall s rest v0, i_good s = true -> i_boolalpha s = alpha ->
     i_after s = o_text (print_vector print_word v (mkO [] flag)) ++ rest ->
     exists s', xread_vector m (local (xread_word m)) (s, v0) = Ret tt (s', v) /\ i_good s' = true /\ i_after s' = rest).
Proof. exact (conj nests_read_back (conj bools_read_back_masked words_read_back_masked)). Qed.
Print Assumptions C98_printed_lists_read_back.
(** Without a mask these are the functions of StlioModel.v and WordModel.v, so that C35, C36 and C42-C45 speak of
    the same code. *)
Theorem C98_without_mask :
  (forall (T : Type) (rd : M istream T) op cl sep s v0,
     agree (xread_sequence no_mask (chk no_mask rd) op cl sep (s, v0)) (read_sequence rd op cl sep s)) /\
  (forall s w0, agree (xread_word no_mask (s, w0)) (read_word s)).
Proof. exact no_mask_models. Qed.
Print Assumptions C98_without_mask.

Definition throwing : mask := mkMask false true false.
Definition after_read {T} (r : res (istream * list T) unit) : option (bool * list T * text) :=
  match r with
  | Ret _ (s, v) => Some (true, v, i_after s)
  | Exc EIosFailure (s, v) => Some (false, v, i_after s)
  | _ => None
  end.
Example C98_example :
  after_read (xread_vector throwing (mread_int throwing 0 99) (of_text (chars " [1, 22 ]x"), [5; 6]%Z)) =
    Some (true, [1; 22]%Z, chars "x") /\
  after_read (xread_vector throwing (mread_int throwing 0 99) (of_text (chars "[1,22;3]"), [5; 6]%Z)) =
    Some (false, [1; 22]%Z, chars "3]") /\
  after_read (xread_vector throwing (mread_int throwing 0 99) (of_text (chars "[1,220,3]"), [5; 6]%Z)) =
    Some (false, [1]%Z, chars ",3]") /\
  after_read (xread_vector throwing (mread_int throwing 0 99) (of_text (chars "  "), [5; 6]%Z)) = Some (false, [], []) /\
  after_read (xread_vector throwing (mnest_read throwing 0 99 1) (of_text (chars "[[1],["), [[5]]%Z)) =
    Some (false, [[1]]%Z, []) /\
  xread_vector no_mask (mread_int no_mask 0 99) (of_text (chars "  "), [5; 6]%Z) = Ub UbUninit /\
  after_read (xread_vector (mkMask true true true) (local (xread_word (mkMask true true true)))
               (of_text (chars "[01,1]"), [])) = Some (true, [[false; true]; [true]], []).
Proof. repeat split; vm_compute; reflexivity. Qed.

(** ** C99: intended statement: a word read from a stream that throws on failure is read as from any other stream.
    False: the end of the text, which ends the word, counts as a failure: every word at the end of the text throws. *)
Theorem C99_last_word_refuted :
  forall (m : mask) (w : word) (s : istream) (t : text) (w0 : word),
  m_eof m || m_fail m = true -> w <> [] -> i_good s = true -> blank t -> i_after s = t ++ word_text w ->
  exists s', xread_word m (s, w0) = Exc EIosFailure (s', w) /\ i_after s' = [].
Proof. exact word_ends_throws. Qed.
Print Assumptions C99_last_word_refuted.
(** What holds: a word followed by another character is read, whatever the mask. *)
Theorem C99_word_followed_partial :
  forall (m : mask) (w : word) (s : istream) (t : text) (c : ascii) (r : text) (w0 : word),
  w <> [] -> i_good s = true -> blank t -> i_after s = t ++ word_text w ++ c :: r -> is_bit c = false ->
  exists s', xread_word m (s, w0) = Ret tt (s', w) /\ i_good s' = true /\ i_after s' = c :: r.
Proof. exact word_followed. Qed.
Print Assumptions C99_word_followed_partial.
(** On any input: the bits read, or the list of bits read, are in the word; nothing of its old content is; and if
    failbit throws nothing is undefined. *)
Theorem C99_any_input_partial :
  forall (m : mask) (s : istream) (w0 : word),
  match xread_word m (s, w0) with
  | Ret _ (s', w) => exists t, moved s t s' /\ word_read m w t
  | Exc e (s', w) => e = EIosFailure /\ exists t, moved s t s' /\ word_begun m w t
  | Ub r => r = UbUninit /\ m_fail m = false /\ (i_good s = false \/ blank (i_after s) /\ m_eof m = false)
  | Abort | Fuel => False
  end.
Proof. exact word_total. Qed.
Print Assumptions C99_any_input_partial.
Example C99_example :
  after_read (xread_word throwing (of_text (chars " 011"), [true])) = Some (false, [false; true; true], []) /\
  after_read (xread_word no_mask (of_text (chars " 011"), [true])) = Some (true, [false; true; true], []) /\
  after_read (xread_word throwing (of_text (chars " 011 1"), [true])) = Some (true, [false; true; true], chars " 1") /\
  after_read (xread_word throwing (of_text (chars "[0,1,x]"), [true])) = Some (false, [false; true], chars "x]") /\
  after_read (xread_word throwing (of_text []%list, [true])) = Some (false, [], []).
Proof. repeat split; vm_compute; reflexivity. Qed.
