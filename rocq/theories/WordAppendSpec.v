(** WordAppendSpec.v -- the symbols that an argument denotes: those of the word that BinaryWord(x) is for a text x (C42-C45), a
    digit, or a number *)
From Verif Require Import Base StreamModel StlioModel WordModel WordAppendModel.

Inductive denotes : append_arg -> word -> Prop :=
| den_bool : forall b, denotes (ABool b) [b]
| den_ref : forall b, denotes (ABitRef b) [b]
| den_word : forall w, denotes (AWord w) w
| den_zero : denotes (AInt 0%Z) [false]
| den_one : denotes (AInt 1%Z) [true]
| den_digit_zero : denotes (AChar "0"%char) [false]
| den_digit_one : denotes (AChar "1"%char) [true]
| den_literal : forall t w, make_binary_word t = Ret w tt -> denotes (ALiteral t) w
| den_string : forall t w, make_binary_word t = Ret w tt -> denotes (AString t) w.

Definition is_text (a : append_arg) : Prop :=
  match a with AChar _ | ALiteral _ | AString _ => True | _ => False end.
