(** PairTextModel.v -- model of operator<< of PairIterator, include/iterator.hpp:144-145.  Definitions only.
    The components are pointers: iterators of a class have no operator<< of their own in the library.
    The stream has the default flags; its state is the text written. *)
From Verif Require Import Base StreamModel.
From Coq Require Import Hexadecimal HexadecimalN HexadecimalString.

(** A pointer to an element of an array.
    [PObject base size i]: element [i] of an array of objects, not characters, of [size] bytes each, at address [base];
    [PChars cells i]: element [i] of an array of char with these contents (i = length: the end);
    [PVolatile base size i]: the elements are volatile objects. *)
Inductive pointer :=
| PObject (base size i : N)
| PChars (cells : text) (i : nat)
| PVolatile (base size i : N).

(** libstdc++: os << (const void* )a, which sets hex and showbase: 0 or 0x and the hexadecimal digits *)
Definition address_text (a : N) : text :=
  if N.eqb a 0 then chars "0" else chars "0x" ++ chars (NilEmpty.string_of_uint (N.to_hex_uint a)).

(** os << (const char* )p: the characters up to the first NUL; reading beyond the array is undefined *)
Fixpoint c_string (cells : text) : option text :=
  match cells with
  | [] => None
  | c :: t => if Nat.eqb (nat_of_ascii c) 0 then Some [] else option_map (cons c) (c_string t)
  end.

Definition put (t : text) : M text unit := fun o => Ret tt (o ++ t).

(** the overload chosen for os << p: const void* for objects, const char* for characters, and bool for volatile objects,
    to which there is no conversion to const void* *)
Definition print_pointer (p : pointer) : M text unit :=
  match p with
  | PObject base size i => put (address_text (base + size * i)%N)
  | PChars cells i => match c_string (skipn i cells) with Some t => put t | None => undefined UbOutOfBounds end
  | PVolatile base size i => put (if N.eqb (base + size * i)%N 0 then chars "0" else chars "1")
  end.

(** iterator.hpp:144-145 os << "{" << e._iter1 << "," << e._iter2 << "}" *)
Definition print_pair_iterator (e : pointer * pointer) : M text unit :=
  (put (chars "{") ;;; print_pointer (fst e) ;;; put (chars ",") ;;; print_pointer (snd e) ;;; put (chars "}"))%M.
