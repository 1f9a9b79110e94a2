(** WordAppendModel.v -- which overload of BinaryWord::append a call w.append(x) chooses, include/binary_word.hpp:124-127,
    175-183.  Definitions only.

    - The constructor of BinaryWord from a string (line 104) is explicit, so nothing converts to BinaryWord; numbers,
      characters and pointers convert to bool.  Aliasing and the limit on sizes are in WordModel.v. *)
From Verif Require Import Base StreamModel StlioModel WordModel OverModel.

(** bool, a reference to a bit of a word, BinaryWord, an integer, char, a string literal, std::string *)
Inductive append_arg :=
| ABool (b : bool) | ABitRef (b : bool) | AWord (w : word) | AInt (z : Z) | AChar (c : ascii) | ALiteral (t : text) | AString (t : text).

Inductive append_fn := AppendSymbol | AppendWord.
Definition symbol_rank (a : append_arg) : option rank :=
  match a with
  | ABool _ => Some Identity
  | ABitRef _ => Some UserDefined
  | AInt _ | AChar _ | ALiteral _ => Some Conversion
  | AWord _ | AString _ => None
  end.
Definition word_rank (a : append_arg) : option rank := match a with AWord _ => Some Identity | _ => None end.
Definition to_symbol (a : append_arg) : bool :=
  match a with
  | ABool b | ABitRef b => b
  | AInt z => negb (z =? 0)%Z
  | AChar c => negb (Ascii.eqb c zero)
  | _ => true                                (* a pointer that is not null *)
  end.
(** the word after w.append(x); None: the call does not compile *)
Definition append_any (a : append_arg) (w : word) : option word :=
  match resolve (viable AppendSymbol false [symbol_rank a] ++ viable AppendWord false [word_rank a]), a with
  | Chosen AppendWord, AWord w' => Some (w ++ w')
  | Chosen AppendSymbol, _ => Some (w ++ [to_symbol a])
  | _, _ => None
  end.
