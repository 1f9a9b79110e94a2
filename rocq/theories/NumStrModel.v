(** NumStrModel.v -- to_string and to_str (include/string.hpp:51-54) of floating-point numbers.  Definitions only.

    What a stream prints is that of FpioModel.v, with its simplification: no negative zero. *)
From Verif Require Import Base StreamModel StlioModel FpioModel.

(** 51-52: std::stringstream ss; ss << t; return ss.str(); a new stream has precision 6, whatever that of other streams is *)
Definition number_to_string (E : nat) (x : number) : text := o_text (print_number E 6 x (mkO [] false)).
(** 53-54 *)
Definition number_to_str (E : nat) (x : number) : text := number_to_string E x.
(** os << x for a stream of precision [p] that holds the text [t] *)
Definition insert_number (E p : nat) (x : number) (t : text) : text := o_text (print_number E p x (mkO t false)).
