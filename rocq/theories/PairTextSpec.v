(** PairTextSpec.v -- reading addresses. *)
From Verif Require Import Base.
From Coq Require Import Ascii String Hexadecimal HexadecimalN HexadecimalString.

(** the number that a text denotes in hexadecimal notation: 0, or 0x and digits *)
Definition hex_number (t : list ascii) : option N :=
  match string_of_list_ascii t with
  | String "0" EmptyString => Some 0%N
  | String "0" (String "x" r) => option_map N.of_hex_uint (NilEmpty.uint_of_string r)
  | _ => None
  end.

(** NUL stands at position [j] of the cells, and nowhere from [i] up to there *)
Definition next_nul (cells : list ascii) (i j : nat) : Prop :=
  i <= j /\ nth_error cells j = Some "000"%char /\ forall k c, i <= k < j -> nth_error cells k = Some c -> c <> "000"%char.
