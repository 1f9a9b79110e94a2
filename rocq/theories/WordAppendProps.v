(** WordAppendProps.v -- the property C120: what BinaryWord::append appends.  Statements only; the lemmas are in
    WordAppendProofs.v. *)
From Verif Require Import Base StreamModel StlioModel WordModel WordAppendModel WordAppendSpec WordAppendProofs.
From Coq Require Import String.
Open Scope list_scope.

(** ** C120
    intended: for every argument x that denotes symbols, w.append(x) appends them:
      denotes a d -> append_any a w = Some (w ++ d) *)
Theorem C120_symbols_partial :
  forall a d w, denotes a d -> ~ is_text a -> append_any a w = Some (w ++ d).
Proof. exact append_denoted. Qed.
Print Assumptions C120_symbols_partial.

(** a string literal appends one 1, whatever it is *)
Theorem C120_literal_refuted :
  forall t w, append_any (ALiteral t) w = Some (w ++ [true]) /\
  (forall d, denotes (ALiteral t) d -> d <> [true] -> append_any (ALiteral t) w <> Some (w ++ d)).
Proof. exact (fun t w => conj (append_literal t w) (fun d => append_literal_wrong t d w)). Qed.
Print Assumptions C120_literal_refuted.

(** so does every character but the null character, '0' included *)
Theorem C120_character_refuted :
  forall c w, c <> Ascii.zero -> append_any (AChar c) w = Some (w ++ [true]).
Proof. exact append_char. Qed.
Print Assumptions C120_character_refuted.

Theorem C120_string_refuted :
  forall t w, append_any (AString t) w = None.
Proof. exact append_string. Qed.
Print Assumptions C120_string_refuted.

Example C120_example :
  append_any (ABool false) [true] = Some [true; false] /\
  append_any (AWord [false; true]) [true] = Some [true; false; true] /\
  append_any (AInt 0) [true] = Some [true; false] /\
  append_any (ALiteral (chars "0101")) [true] = Some [true; true] /\
  append_any (AChar "0") [true] = Some [true; true] /\
  append_any (AChar Ascii.zero) [true] = Some [true; false].
Proof. repeat split. Qed.
Example C120_example_denoted : denotes (ALiteral (chars "0101")) [false; true; false; true] /\ denotes (AInt 0) [false].
Proof. split; constructor. vm_compute. reflexivity. Qed.
