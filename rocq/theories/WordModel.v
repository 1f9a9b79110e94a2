(** WordModel.v -- model of class BinaryWord, include/binary_word.hpp:91-238.  Definitions only.
    A word (a std::vector<bool>) is the list of its bits.  Reading a bit outside the word is [Ub].
    [StringType] and [StringStream] are not defined in this repository; they are taken to be
    std::string and std::stringstream. *)
From Verif Require Import Base StreamModel StlioModel.

Notation word := (list bool).

(** this[i] *)
Definition bit {A} (w : word) (i : nat) (k : bool -> res unit A) : res unit A :=
  match nth_error w i with Some b => k b | None => Ub UbOutOfBounds end.

(** binary_word.hpp:138-145 operator<; bool values compare as false < true *)
Fixpoint less_loop (fuel i : nat) (this w : word) : res unit bool :=
  match fuel with
  | O => Fuel
  | S fuel' =>
      if Nat.eqb i (Nat.min (length this) (length w)) then Ret (Nat.ltb (length this) (length w)) tt
      else bit this i (fun a => bit w i (fun b =>
             if negb (Bool.eqb a b) then Ret (negb a && b) tt else less_loop fuel' (S i) this w))
  end.
Definition word_less (this w : word) : res unit bool := less_loop (S (length this)) 0 this w.

(** binary_word.hpp:147-157 is_prefix *)
Fixpoint prefix_loop (fuel i : nat) (this b : word) : res unit bool :=
  match fuel with
  | O => Fuel
  | S fuel' =>
      if Nat.eqb i (length this) then Ret true tt
      else bit this i (fun x => bit b i (fun y =>
             if negb (Bool.eqb x y) then Ret false tt else prefix_loop fuel' (S i) this b))
  end.
Definition is_prefix (this b : word) : res unit bool :=
  if Nat.ltb (length b) (length this) then Ret false tt else prefix_loop (S (length this)) 0 this b.

(** binary_word.hpp:164-167: the inner loop, giving the final j *)
Fixpoint match_loop (fuel i j : nat) (this b : word) : res unit nat :=
  match fuel with
  | O => Fuel
  | S fuel' =>
      if Nat.eqb j (length this) then Ret j tt
      else bit this j (fun x => bit b (i + j) (fun y =>
             if Bool.eqb x y then match_loop fuel' i (S j) this b else Ret j tt))
  end.
(** binary_word.hpp:159-173 is_subword *)
Fixpoint subword_loop (fuel i : nat) (this b : word) : res unit bool :=
  match fuel with
  | O => Fuel
  | S fuel' =>
      if Nat.eqb i (length b - length this + 1) then Ret false tt
      else match match_loop (S (length this)) i 0 this b with
           | Ret j _ => if Nat.eqb j (length this) then Ret true tt else subword_loop fuel' (S i) this b
           | Exc e s => Exc e s
           | Ub r => Ub r
           | Abort => Abort
           | Fuel => Fuel
           end
  end.
Definition is_subword (this b : word) : res unit bool :=
  if Nat.ltb (length b) (length this) then Ret false tt else subword_loop (length b + 2) 0 this b.

(** binary_word.hpp:130-136 erase_prefix; total_size is an int *)
Fixpoint erase_loop (fuel : nat) (i total k : Z) (w : word) : res unit word :=
  match fuel with
  | O => Fuel
  | S fuel' =>
      if ((i <? total) && (i <? k))%Z
      then match w with
           | [] => Ub UbEraseEnd
           | _ :: w' => erase_loop fuel' (i + 1) total k w'
           end
      else Ret w tt
  end.
Definition erase_prefix (k : Z) (w : word) : res unit word :=
  erase_loop (S (length w)) 0 (to_int32 (Z.of_nat (length w))) k w.

(** binary_word.hpp:113 set_back: this[size()-1]=x; size()-1 wraps for the empty word *)
Definition set_back (x : bool) (w : word) : res unit word :=
  let i := wrap64 (Z.of_nat (length w) - 1) in
  if (i <? Z.of_nat (length w))%Z then Ret (upd (Z.to_nat i) x w) tt else Ub UbOutOfBounds.
(** binary_word.hpp:110 bytes, in size_t *)
Definition bytes (w : word) : Z := (wrap64 (wrap64 (Z.of_nat (length w) + 8) - 1) / 8)%Z.

(** binary_word.hpp:175-183 append; words in named variables, [limit] the largest size push_back
    supports *)
Section Append.
  Context (limit : Z).
  Definition push (d : nat) (x : bool) : M (nat -> word) unit := fun st =>
    if (Z.of_nat (length (st d)) <? limit)%Z then Ret tt (set_var st d (st d ++ [x])) else Exc ELength st.
  Definition append_symbol (d : nat) (x : bool) : M (nat -> word) unit := push d x.
  Fixpoint append_word_loop (fuel i d s : nat) : M (nat -> word) unit := fun st =>
    match fuel with
    | O => Fuel
    | S fuel' =>
        if Nat.ltb i (length (st s))
        then match nth_error (st s) i with
             | Some x => (push d x ;;; append_word_loop fuel' (S i) d s)%M st
             | None => Ub UbOutOfBounds
             end
        else Ret tt st
    end.
  Definition append_word (fuel d s : nat) : M (nat -> word) unit := append_word_loop fuel 0 d s.
End Append.

(** binary_word.hpp:188-210 operator>>.  Not modelled: the contents of the word when the vector reader
    throws. *)
Definition bit_char (b : bool) : ascii := if b then "1"%char else "0"%char.
Definition is_bit (c : ascii) : bool := Ascii.eqb c "0" || Ascii.eqb c "1".
Fixpoint word_loop (fuel : nat) (symbol : ascii) (w : word) : M istream word := fun s =>
  match fuel with
  | O => Fuel
  | S fuel' =>
      if negb (i_failed s) && is_bit symbol
      then (c <- get_char (Some symbol) ;;
            read_var c (fun symbol' => word_loop fuel' symbol' (w ++ [negb (Ascii.eqb symbol "0")])))%M s
      else (putback symbol ;;; ret w)%M s
  end.
Definition read_word : M istream word :=
  (c <- extract_char None ;;
   read_var c (fun symbol =>
     if Ascii.eqb symbol "[" then (putback symbol ;;; read_vector read_bool)
     else fun s => word_loop (S (S (List.length (i_after s)))) symbol [] s))%M.

(** binary_word.hpp:215-220 make_binary_word, 222-223 the constructor *)
Definition make_binary_word (str : text) : res unit word :=
  match read_word (of_text str) with
  | Ret w _ => Ret w tt
  | Exc e _ => Exc e tt
  | Ub r => Ub r
  | Abort => Abort
  | Fuel => Fuel
  end.

(** binary_word.hpp:228-238 operator<< *)
Definition print_word (w : word) (o : ostream) : ostream :=
  match w with
  | [] => put_text (chars "e") o
  | _ => set_boolalpha true (fold_left (fun o b => print_bool b o) w (set_boolalpha false o))
  end.
