(** UniqueProps.v -- C158: the printed text determines the value. *)
From Verif Require Import Base StreamModel StlioModel WordModel UniqueSpec UniqueProofs.

(** C158: two values of one type built from numbers, truth values and binary words with arrays, lists, sets, maps, pairs and tuples, however
    nested, that print alike are equal.  (Printing a word changes how truth values after it are printed.) *)
Theorem C158_numbers :
  forall (s : shape) (x y : val s) (o : ostream), no_strings s = true -> o_text (print s x o) = o_text (print s y o) -> x = y.
Proof. exact print_unique_numbers. Qed.
Print Assumptions C158_numbers.

(** C158, refuted: not so with strings.  The list of one string with a comma in it prints as the list of the two parts; the list of an empty
    string as the empty list. *)
Theorem C158_strings_refuted :
  forall k : seq_kind,
  (forall a b o, print (PSeq k PStr) [a ++ chars "," ++ b] o = print (PSeq k PStr) [a; b] o) /\
  (forall o, print (PSeq k PStr) [[]] o = print (PSeq k PStr) [] o).
Proof. exact strings_alike. Qed.
Print Assumptions C158_strings_refuted.

(** C158, missing those: it is so if the strings are not empty and contain no comma, colon, blank or closing bracket. *)
Theorem C158_tidy_partial :
  forall (s : shape) (x y : val s) (o : ostream), tidy s x -> tidy s y -> o_text (print s x o) = o_text (print s y o) -> x = y.
Proof. exact print_unique. Qed.
Print Assumptions C158_tidy_partial.

(** C158: then also the text tells where the value ends, if a character that ends an item follows. *)
Theorem C158_followed_partial :
  forall (s : shape) (x y : val s) (o : ostream) (c : ascii) (o1 o2 : text), tidy s x -> tidy s y -> ends_item c = true ->
  o_text (put_text o1 (put_text [c] (print s x o))) = o_text (put_text o2 (put_text [c] (print s y o))) -> x = y /\ o1 = o2.
Proof. exact print_sequence. Qed.
Print Assumptions C158_followed_partial.

(** a map from pairs to lists of sets of numbers; strings *)
Example C158_example :
  let s := PMap (PPair PInt PBool) (PSeq KVector (PSeq KSet PInt)) in
  no_strings s = true /\
  o_text (print s [((-3, true), [[1; 2]; []]); ((4, false), [])]%Z (mkO [] false)) = chars "{ (-3,1):[{1,2},{}], (4,0):[] }" /\
  o_text (print s [((-3, true), [[1]; [2]]); ((4, false), [])]%Z (mkO [] false)) = chars "{ (-3,1):[{1},{2}], (4,0):[] }".
Proof. vm_compute. repeat split. Qed.
Example C158_strings :
  tidy (PMap PStr PStr) [(chars "a=b", chars "[x")] /\
  o_text (print (PMap PStr PStr) [(chars "a=b", chars "[x")] (mkO [] true)) = chars "{ a=b:[x }" /\
  print (PSeq KVector PStr) [chars "a,b"] (mkO [] true) = print (PSeq KVector PStr) [chars "a"; chars "b"] (mkO [] true).
Proof. split; [|split; reflexivity]. constructor; [|constructor]. repeat split; discriminate. Qed.
(** lists of a tuple of a word, a truth value and a number; only the first truth value prints as 0 *)
Example C158_words :
  let s := PSeq KVector (PTuple (PMore PWord (PMore PBool (POne PInt)))) in
  no_strings s = true /\
  o_text (print s [([], (false, 7)); ([true; false], (false, 7)); ([], (false, 7))]%Z (mkO [] false)) = chars "[(e,0,7),(10,false,7),(e,false,7)]" /\
  o_text (print s [([], (false, 7)); ([], (false, 7)); ([true; false], (false, 7))]%Z (mkO [] false)) = chars "[(e,0,7),(e,0,7),(10,false,7)]".
Proof. vm_compute. repeat split. Qed.
