(** OutModel.v -- printing to streams that fail, throw or have a width: the printing code of StlioModel.v and
    WordModel.v (include/stlio.hpp:56-139, 193-223, include/container.hpp:50-69, 127-135, 155-158, 238-246,
    292-300 and include/binary_word.hpp:228-238) again, as computations on an output stream with what StreamModel.v
    leaves out: state bits, exception mask, width, and a buffer that may take only part of a text or throw.
    Printers are arbitrary computations.  Copying an element in "for(auto x : v)" does not fail here. *)
From Verif Require Import Base StreamModel MaskModel.
Local Open Scope monad_scope.

(** Standard library semantics: the stream; *)
Record sink := mkSink {
  s_text : text;      (* what the buffer has taken *)
  s_alpha : bool;     (* boolalpha *)
  s_width : nat;
  s_eof : bool; s_fail : bool; s_bad : bool
}.
Definition s_good (s : sink) : bool := negb (s_eof s || s_fail s || s_bad s).
(** what is fixed while printing.  [e_dev o t] says what the buffer that has taken [o] does with [t]: how many
    characters it takes, and the exception it throws, if any.  The standard leaves open whether an insertion into a
    stream that is not good sets failbit ([e_strict]) and whether a failed one resets the width ([e_reset]).
    The adjustment "internal" is not modelled. *)
Record env := mkEnv {
  e_mask : mask; e_strict : bool; e_reset : bool;
  e_fill : ascii; e_left : bool;
  e_dev : text -> text -> nat * option exn
}.

Section Code.
  Context (E : env).
  Definition s_hit (s : sink) : bool :=
    (m_eof (e_mask E) && s_eof s) || (m_fail (e_mask E) && s_fail s) || (m_bad (e_mask E) && s_bad s).
  (** what setstate does after the bits are set *)
  Definition raise : M sink unit := fun s => if s_hit s then Exc EIosFailure s else Ret tt s.
  Definition pad (w : nat) (t : text) : text :=
    let f := repeat (e_fill E) (w - List.length t) in if e_left E then t ++ f else f ++ t.
  (** the stream after a failed attempt to write, in which the buffer took [t] *)
  Definition broken (t : text) (s : sink) : sink :=
    mkSink (s_text s ++ t) (s_alpha s) (if e_reset E then 0 else s_width s) (s_eof s) (s_fail s) true.
  (** formatted output of a text: os << '[', os << ",", os << str *)
  Definition insert (t : text) : M sink unit := fun s =>
    if s_good s then
      let full := pad (s_width s) t in
      match e_dev E (s_text s) full with
      | (n, Some e) =>
          let s' := broken (firstn n full) s in
          if m_bad (e_mask E) then Exc e s' else Ret tt s'
      | (n, None) =>
          if Nat.ltb n (List.length full) then raise (broken (firstn n full) s)
          else Ret tt (mkSink (s_text s ++ full) (s_alpha s) 0 (s_eof s) (s_fail s) (s_bad s))
      end
    else if e_strict E
    then raise (mkSink (s_text s) (s_alpha s) (s_width s) (s_eof s) true (s_bad s))
    else Ret tt s.
  Definition insert_int (z : Z) : M sink unit := insert (int_text z).
  Definition insert_bool (b : bool) : M sink unit := fun s => insert (bool_text (s_alpha s) b) s.
  (** os << boolalpha, os << noboolalpha: no formatted output, cannot fail *)
  Definition put_alpha (b : bool) : M sink unit := fun s =>
    Ret tt (mkSink (s_text s) b (s_width s) (s_eof s) (s_fail s) (s_bad s)).

  Section Sequences.
    Context {T : Type} (pr : T -> M sink unit).
    (** stlio.hpp:56-71 write_sequence; 74-139 with [pr] printing what the iterator refers to *)
    Fixpoint swrite_loop (sep : ascii) (l : list T) : M sink unit :=
      match l with
      | [] => ret tt
      | x :: l' => pr x ;;; (match l' with [] => ret tt | _ => insert [sep] end) ;;; swrite_loop sep l'
      end.
    Definition swrite_sequence (op cl sep : ascii) (l : list T) : M sink unit :=
      insert [op] ;;; swrite_loop sep l ;;; insert [cl].
    (** container.hpp:50-69, 127-135, 238-246, 292-300 *)
    Fixpoint sprint_loop (op sep : text) (first : bool) (l : list T) : M sink bool :=
      match l with
      | [] => ret first
      | x :: l' => insert (if first then op else sep) ;;; pr x ;;; sprint_loop op sep false l'
      end.
    Definition sprint_with (op sep op' cl : text) (l : list T) : M sink unit :=
      first <- sprint_loop op sep true l ;;
      (if first then insert op' else ret tt) ;;; insert cl.
    Definition sprint_array := sprint_with (chars "[") (chars ",") (chars "[") (chars "]").
    Definition sprint_shared_array := sprint_with (chars "[") (chars ",") (chars "[") (chars "]").
    Definition sprint_vector := sprint_with (chars "[") (chars ",") (chars "[") (chars "]").
    Definition sprint_set := sprint_with (chars "{") (chars ",") (chars "{") (chars "}").
    (** container.hpp:155-158 *)
    Definition sprint_list := swrite_sequence "[" "]" ",".
  End Sequences.
  (** stlio.hpp:92-107, one item *)
  Definition sprint_item {K V} (prk : K -> M sink unit) (prv : V -> M sink unit) (de : text) (e : K * V) : M sink unit :=
    prk (fst e) ;;; insert de ;;; prv (snd e).
  Definition swrite_map_sequence {K V} (prk : K -> M sink unit) (prv : V -> M sink unit) (op cl sep de : ascii)
    (m : list (K * V)) : M sink unit := swrite_sequence (sprint_item prk prv [de]) op cl sep m.
  (** container.hpp:292-300 *)
  Definition sprint_map {K V} (prk : K -> M sink unit) (prv : V -> M sink unit) (m : list (K * V)) : M sink unit :=
    sprint_with (sprint_item prk prv (chars ":")) (chars "{ ") (chars ", ") (chars "{") (chars " }") m.
  (** stlio.hpp:211-217 *)
  Definition sprint_pair {A B} (pa : A -> M sink unit) (pb : B -> M sink unit) (p : A * B) : M sink unit :=
    insert (chars "(") ;;; pa (fst p) ;;; insert (chars ",") ;;; pb (snd p) ;;; insert (chars ")").
  (** stlio.hpp:193-223, the components given by their printers, the first one apart: N=0 does not compile *)
  Fixpoint stuple_rest (tup : list (M sink unit)) : M sink unit :=
    match tup with [] => ret tt | f :: tup' => insert (chars ",") ;;; f ;;; stuple_rest tup' end.
  Definition sprint_tuple (f : M sink unit) (tup : list (M sink unit)) : M sink unit :=
    insert (chars "(") ;;; f ;;; stuple_rest tup ;;; insert (chars ")").
  (** binary_word.hpp:228-238 *)
  Fixpoint sbits (w : list bool) : M sink unit :=
    match w with [] => ret tt | b :: w' => insert_bool b ;;; sbits w' end.
  Definition sprint_word (w : list bool) : M sink unit :=
    match w with
    | [] => insert (chars "e")
    | _ => put_alpha false ;;; sbits w ;;; put_alpha true
    end.
End Code.
