(** WordSpec.v -- words, independent of the code. *)
From Verif Require Import Base StreamModel StlioSpec WordModel.

(** [w] is a proper prefix of [v], or has 0 where [v] has 1 at the first difference *)
Definition lex (w v : word) : Prop :=
  (exists t, t <> [] /\ v = w ++ t) \/
  (exists p a b, w = p ++ false :: a /\ v = p ++ true :: b).
Definition prefix (w b : word) : Prop := exists t, b = w ++ t.
Definition subword (w b : word) : Prop := exists s t, b = s ++ w ++ t.

(** the text of a word *)
Definition bits_text (w : word) : text := map bit_char w.
Definition word_text (w : word) : text := match w with [] => chars "e" | _ => bits_text w end.

(** the bits at the start of a text *)
Fixpoint leading_bits (t : text) : word :=
  match t with
  | c :: r => if Ascii.eqb c "0" then false :: leading_bits r
              else if Ascii.eqb c "1" then true :: leading_bits r else []
  | [] => []
  end.

(** [n] words read one after the other, each with the success reported by the stream *)
Fixpoint read_words (n : nat) : M istream (list (word * bool)) := fun s =>
  match n with
  | O => Ret [] s
  | S m => (w <- read_word ;; fun s1 => (l <- read_words m ;; ret ((w, negb (i_failed s1)) :: l))%M s1)%M s
  end.

(** words, each followed by the blanks given with it *)
Definition spaced (l : list (word * text)) : text :=
  concat (map (fun p => word_text (fst p) ++ snd p) l).
