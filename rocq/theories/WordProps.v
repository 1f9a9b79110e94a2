(** WordProps.v -- the properties C38-C45 of BinaryWord, and the part of C35 about words.  Statements
    only; the lemmas are in WordProofs.v. *)
From Verif Require Import Base StdOrd StreamModel StlioModel StlioSpec WordModel WordSpec WordProofs.

(** ** C35 for words *)
Theorem C35_printed_words_read_back :
  forall (v : list word) (flag alpha : bool), Forall (fun w => w <> []) v ->
  (forall s rest, i_good s = true -> i_boolalpha s = alpha ->
     i_after s = o_text (print_vector print_word v (mkO [] flag)) ++ rest ->
     exists s', read_vector read_word s = Ret v s' /\ i_good s' = true /\ i_after s' = rest) /\
  (forall t s w rest, layout word_text list_follow "[" "]" "," v t ->
     i_good s = true -> i_boolalpha s = alpha -> blank w -> i_after s = w ++ t ++ rest ->
     exists s', read_vector read_word s = Ret v s' /\ i_good s' = true /\
       i_after s' = rest /\ i_before s' = rev (w ++ t) ++ i_before s).
Proof. exact printed_words_read_back. Qed.
Print Assumptions C35_printed_words_read_back.
Example C35_example_words :
  let v := [[true; false]; [false]] in
  o_text (print_vector print_word v (mkO [] false)) = chars "[10,0]" /\
  exists s', read_vector read_word (of_text (chars "[10,0]x")) = Ret v s' /\ i_good s' = true /\ i_after s' = chars "x".
Proof. split; [reflexivity|]. eexists. split; [vm_compute; reflexivity|split; reflexivity]. Qed.

(** ** C38.  The last part is what std::set and std::map require of operator<. *)
Theorem C38_word_order_lexicographic :
  (forall w v, exists r, word_less w v = Ret r tt /\ (r = true <-> lex w v)) /\
  (forall w, ~ lex w w) /\ (forall a b c, lex a b -> lex b c -> lex a c) /\
  (forall w v, lex w v \/ w = v \/ lex v w) /\
  (forall ltb : word -> word -> bool, (forall w v, word_less w v = Ret (ltb w v) tt) -> SWO ltb).
Proof. exact order_laws. Qed.
Print Assumptions C38_word_order_lexicographic.
Example C38_example :
  word_less [true; false] [true; true] = Ret true tt /\ word_less [true] [true; false] = Ret true tt /\
  word_less [true] [false; true; true] = Ret false tt /\ word_less [] [] = Ret false tt /\
  lex [true; false] [true; true] /\ lex [true] [true; false].
Proof.
  repeat split.
  - right. exists [true], [], []. split; reflexivity.
  - left. exists [false]. split; [discriminate|reflexivity].
Qed.

(** ** C39.  [Ret] excludes reading a bit outside a word. *)
Theorem C39_prefix_and_subword :
  forall w b : word,
  (exists r, is_prefix w b = Ret r tt /\ (r = true <-> prefix w b)) /\
  (exists r, is_subword w b = Ret r tt /\ (r = true <-> subword w b)).
Proof. exact (fun w b => conj (prefix_ok w b) (subword_ok w b)). Qed.
Print Assumptions C39_prefix_and_subword.
Example C39_example :
  is_prefix [true; false] [true; false; false] = Ret true tt /\ is_prefix [true; true] [true; false] = Ret false tt /\
  is_subword [true; true] [false; true; false; true; true] = Ret true tt /\
  is_subword [true; true] [true; false; true] = Ret false tt /\ is_subword [] [] = Ret true tt /\
  is_subword [true] [] = Ret false tt /\ subword [true; true] [false; true; false; true; true].
Proof. repeat split. exists [false; true; false], []. reflexivity. Qed.

(** ** C40: intended statement: erase_prefix(k) drops min(k,size) bits for every word.  False for words
    with 2^31 bits or more: size() is stored in an int, turns negative, and nothing is dropped. *)
Theorem C40_erase_prefix_refuted :
  (forall (k : Z) (w : word), (2 ^ 31 <= Z.of_nat (length w) < 2 ^ 32)%Z -> erase_prefix k w = Ret w tt) /\
  (exists w : word, (2 ^ 31 <= Z.of_nat (length w) < 2 ^ 32)%Z /\ skipn 1 w <> w).
Proof. exact erase_prefix_long_words. Qed.
Print Assumptions C40_erase_prefix_refuted.

(** Everything else holds, with the sizes the types allow. *)
Theorem C40_modifiers_partial :
  (forall (k : Z) (w : word), (Z.of_nat (length w) < 2 ^ 31)%Z ->
     erase_prefix k w = Ret (skipn (Z.to_nat k) w) tt) /\
  (forall (w : word) (x y : bool), (Z.of_nat (length w) + 1 < 2 ^ 64)%Z -> set_back x (w ++ [y]) = Ret (w ++ [x]) tt) /\
  (forall w : word, (Z.of_nat (length w) + 8 < 2 ^ 64)%Z ->
     (0 <= bytes w)%Z /\ (Z.of_nat (length w) <= 8 * bytes w)%Z /\
     forall n, (Z.of_nat (length w) <= 8 * n)%Z -> (bytes w <= n)%Z) /\
  (forall limit (st : nat -> word) d s fuel, d <> s ->
     (Z.of_nat (length (st d) + length (st s)) <= limit)%Z -> length (st s) < fuel ->
     exists st', append_word limit fuel d s st = Ret tt st' /\ st' d = st d ++ st s /\
       forall v, v <> d -> st' v = st v) /\
  (forall limit (st : nat -> word) d x, (Z.of_nat (length (st d)) < limit)%Z ->
     exists st', append_symbol limit d x st = Ret tt st' /\ st' d = st d ++ [x] /\
       forall v, v <> d -> st' v = st v).
Proof. exact (conj erase_prefix_ok (conj set_back_ok (conj bytes_least (conj append_word_ok append_symbol_ok)))). Qed.
Print Assumptions C40_modifiers_partial.
Example C40_example :
  erase_prefix 2 [true; false; true] = Ret [true] tt /\ erase_prefix 7 [true; false] = Ret [] tt /\
  erase_prefix (-1) [true; false] = Ret [true; false] tt /\ set_back false [true; true] = Ret [true; false] tt /\
  bytes [true; true; true; true; true; true; true; true; true] = 2%Z /\ bytes [] = 0%Z /\
  (* set_back needs a non-empty word *)
  set_back true [] = Ub UbOutOfBounds.
Proof. repeat split; vm_compute; reflexivity. Qed.
Example C40_example_append :
  let st := set_var (set_var (fun _ => []) 0 [true]) 1 [false; true] in
  exists st', append_word 100 10 0 1 st = Ret tt st' /\ st' 0 = [true; false; true] /\ st' 1 = [false; true].
Proof. eexists. split; [reflexivity|split; reflexivity]. Qed.

(** ** C41: intended statement: forall st d, exists fuel st', append_word fuel d d st = Ret tt st' /\
    st' d = st d ++ st d.  False for every non-empty word: size() grows with every push_back and the
    loop ends only in an exception at the size limit. *)
Theorem C41_self_append_refuted :
  forall limit (st : nat -> word) d, st d <> [] ->
  (forall fuel st', append_word limit fuel d d st <> Ret tt st') /\
  (forall fuel, (Z.of_nat (length (st d)) <= limit)%Z -> (limit - Z.of_nat (length (st d)) < Z.of_nat fuel)%Z ->
   exists st' ext, append_word limit fuel d d st = Exc ELength st' /\ st' d = st d ++ ext /\
     Z.of_nat (length (st' d)) = limit /\ forall v, v <> d -> st' v = st v).
Proof. exact append_self_refuted. Qed.
Print Assumptions C41_self_append_refuted.
Theorem C41_self_append_partial :
  forall limit (st : nat -> word) d fuel, st d = [] -> append_word limit (S fuel) d d st = Ret tt st.
Proof. exact append_self_empty. Qed.
Print Assumptions C41_self_append_partial.
Example C41_witness :
  exists st', append_word 7 100 0 0 (set_var (fun _ => []) 0 [true; false]) = Exc ELength st' /\
    st' 0 = [true; false; true; false; true; false; true].
Proof. eexists. split; reflexivity. Qed.

(** ** C42 *)
Theorem C42_printed_word_reads_back :
  forall w : word,
  (forall flag, o_text (print_word w (mkO [] flag)) = word_text w) /\
  make_binary_word (word_text w) = Ret w tt /\
  (forall t b rest, layout (bool_text false) list_follow "[" "]" "," w t -> blank b ->
     make_binary_word (b ++ t ++ rest) = Ret w tt).
Proof. exact make_word_round_trip. Qed.
Print Assumptions C42_printed_word_reads_back.
Example C42_example :
  make_binary_word (chars "0110") = Ret [false; true; true; false] tt /\
  make_binary_word (chars "e") = Ret [] tt /\
  make_binary_word (chars " [0, 1,1 ,0]") = Ret [false; true; true; false] tt /\
  make_binary_word (chars "[]") = Ret [] tt.
Proof. repeat split; vm_compute; reflexivity. Qed.

(** ** C43: intended statement: words printed with blanks between them read back one after the other,
    each read succeeding.  False: the last word, if nothing follows it, leaves the stream failed; and
    the letter e of an empty word is never consumed, so every later read gives the empty word. *)
Theorem C43_words_in_sequence_refuted :
  (forall (w : word) (s : istream) (t : text), w <> [] -> i_good s = true -> blank t ->
     i_after s = t ++ word_text w -> exists s', read_word s = Ret w s' /\ i_failed s' = true) /\
  (forall n s b r, i_good s = true -> blank b -> i_after s = b ++ word_text [] ++ r ->
     exists s', read_words n s = Ret (repeat ([], true) n) s' /\ i_good s' = true).
Proof. exact words_in_sequence_fail. Qed.
Print Assumptions C43_words_in_sequence_refuted.
(** What holds: non-empty words, each followed by a blank, whatever comes before and after. *)
Theorem C43_words_in_sequence_partial :
  forall l : list (word * text), Forall (fun p => fst p <> [] /\ snd p <> [] /\ blank (snd p)) l ->
  forall s b rest, i_good s = true -> blank b -> i_after s = b ++ spaced l ++ rest ->
  exists s', read_words (length l) s = Ret (map (fun p => (fst p, true)) l) s' /\ i_good s' = true.
Proof. exact read_words_spaced. Qed.
Print Assumptions C43_words_in_sequence_partial.
Example C43_example_refuted :
  (exists s, read_words 2 (of_text (chars "01 1")) = Ret [([false; true], true); ([true], false)] s) /\
  (exists s, read_words 3 (of_text (chars "1 e 0 ")) = Ret [([true], true); ([], true); ([], true)] s).
Proof. split; eexists; vm_compute; reflexivity. Qed.
Example C43_example :
  spaced [([false; true], chars " "); ([true], chars "  ")] = chars "01 1  " /\
  exists s, read_words 2 (of_text (chars "01 1  ")) = Ret [([false; true], true); ([true], true)] s.
Proof. split; [reflexivity|]. eexists. vm_compute. reflexivity. Qed.

(** ** C44: intended statement: printing a word does not change how the stream formats later values.
    False: boolalpha is set afterwards, whatever it was before. *)
Theorem C44_print_changes_format_refuted :
  forall (w : word) (t : text), w <> [] -> 
  o_boolalpha (print_word w (mkO t false)) = true /\
  forall b, o_text (print_bool b (print_word w (mkO t false))) <>
            o_text (print_word w (mkO t false)) ++ o_text (print_bool b (mkO [] false)).
Proof. exact print_word_flag. Qed.
Print Assumptions C44_print_changes_format_refuted.
Theorem C44_print_keeps_format_partial :
  forall (w : word) (o : ostream), w = [] \/ o_boolalpha o = true ->
  print_word w o = put_text (word_text w) o.
Proof. exact print_word_keeps. Qed.
Print Assumptions C44_print_keeps_format_partial.
Example C44_witness :
  o_text (print_bool true (put_text (chars " ") (print_word [true] (print_bool true (mkO [] false))))) = chars "11 true".
Proof. reflexivity. Qed.

(** ** C45: intended statement: make_binary_word returns a word or throws for every string.  False for
    the empty string and strings of blanks: the uninitialised variable symbol is compared. *)
Theorem C45_make_word_blank_refuted :
  forall str : text, blank str -> make_binary_word str = Ub UbUninit.
Proof. exact (fun str => proj1 (make_word_any str)). Qed.
Print Assumptions C45_make_word_blank_refuted.
(** For every other string the result is known: the leading bits, or the list in brackets, or
    ios_base::failure for a malformed list. *)
Theorem C45_make_word_total_partial :
  forall (str b : text) (c : ascii) (r : text), str = b ++ c :: r -> blank b -> is_space c = false ->
  (c <> "["%char -> make_binary_word str = Ret (leading_bits (c :: r)) tt) /\
  (c = "["%char ->
     (exists w t r', make_binary_word str = Ret w tt /\ str = t ++ r' /\ accepted read_bool "[" "]" "," w t) \/
     make_binary_word str = Exc EIosFailure tt).
Proof. exact (fun str => proj2 (make_word_any str)). Qed.
Print Assumptions C45_make_word_total_partial.
Example C45_example :
  make_binary_word [] = Ub UbUninit /\ make_binary_word (chars "  ") = Ub UbUninit /\
  make_binary_word (chars "10x") = Ret [true; false] tt /\ make_binary_word (chars "xyz") = Ret [] tt /\
  make_binary_word (chars "[1,2]") = Exc EIosFailure tt /\ make_binary_word (chars "[") = Exc EIosFailure tt.
Proof. repeat split; vm_compute; reflexivity. Qed.
