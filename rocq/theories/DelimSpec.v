(** DelimSpec.v -- delimiters with which a printed list of integers can be read. *)
From Verif Require Import Base StreamModel.

(** the delimiters can be told from the items, and from blanks, which are skipped *)
Definition delimits (op cl sep : ascii) (v : list Z) : Prop :=
  is_space op = false /\ is_space cl = false /\
  match v with
  | [] => True
  | x :: t => is_digit cl = false /\ sep <> cl /\ (cl = "-"%char -> (0 <= x)%Z) /\
              (t <> [] -> is_space sep = false /\ is_digit sep = false)
  end.
