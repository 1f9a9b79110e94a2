(** MaskModel.v -- reading lists and words into variables from streams that throw: include/stlio.hpp:144-190,
    278-283 and include/binary_word.hpp:188-210 again, with the two things left out in StlioModel.v and WordModel.v:

    - the exception mask of the stream (std::ios::exceptions): an operation that leaves one of the selected bits
      set throws ios_base::failure;
    - the variable read into, which keeps what it contains when an exception is thrown.

    The state is the stream and the content of the variable.  push_back does not fail here. *)
From Verif Require Import Base StreamModel StlioModel WordModel.
Local Open Scope monad_scope.

(** Standard library semantics.  The bits for which the stream throws: *)
Record mask := mkMask { m_eof : bool; m_fail : bool; m_bad : bool }.
Definition no_mask : mask := mkMask false false false.
Definition hit (m : mask) (s : istream) : bool :=
  (m_eof m && i_eof s) || (m_fail m && i_fail s) || (m_bad m && i_bad s).
(** Every operation that leaves the stream with a bit set has called setstate (or clear, in putback), which
    throws if a selected bit is then set.  An operation that finds the stream good and leaves it good calls neither. *)
Definition chk {A} (m : mask) (f : M istream A) : M istream A := fun s =>
  match f s with
  | Ret x s' => if hit m s' then Exc EIosFailure s' else Ret x s'
  | r => r
  end.
(** putback calls clear() for eofbit first *)
Definition xputback (m : mask) (c : ascii) : M istream unit := fun s =>
  if hit m (clear_eof s) then Exc EIosFailure (clear_eof s) else chk m (putback c) s.

(** using a char variable *)
Definition use_var {S A} (c : cvar) (k : ascii -> M S A) : M S A :=
  match c with Some a => k a | None => undefined UbUninit end.

Section Into.
  Context {T : Type}.
  Notation xst := (istream * list T)%type.
  Definition on_stream {A} (f : M istream A) : M xst A := fun s =>
    match f (fst s) with
    | Ret x i => Ret x (i, snd s)
    | Exc e i => Exc e (i, snd s)
    | Ub r => Ub r
    | Abort => Abort
    | Fuel => Fuel
    end.
  (** v.clear() and v.push_back(x) *)
  Definition clear_var : M xst unit := fun s => Ret tt (fst s, []).
  Definition push_var (x : T) : M xst unit := fun s => Ret tt (fst s, snd s ++ [x]).

  Context (m : mask) (rd : M istream T).
  (** stlio.hpp:170-183 *)
  Fixpoint xread_loop (cl sep : ascii) (fuel : nat) (c : cvar) : M xst unit :=
    match fuel with
    | O => fun _ => Fuel
    | S fuel' =>
        use_var c (fun ch =>
          if Ascii.eqb ch cl then ret tt
          else fun s =>
            if i_eof (fst s) then Exc EIosFailure s
            else if negb (Ascii.eqb ch sep) then Exc EIosFailure s
            else (x <- on_stream rd ;;
                  fun s1 => if i_failed (fst s1) then Exc EIosFailure s1
                            else (push_var x ;;;
                                  c' <- on_stream (chk m (extract_char c)) ;; xread_loop cl sep fuel' c') s1) s)
    end.
  (** stlio.hpp:144-190 *)
  Definition xread_sequence (op cl sep : ascii) : M xst unit :=
    clear_var ;;;
    c <- on_stream (chk m (extract_char None)) ;;
    use_var c (fun ch =>
      if negb (Ascii.eqb ch op) then throw EIosFailure
      else
        c1 <- on_stream (chk m (extract_char c)) ;;
        c2 <- use_var c1 (fun ch1 =>
                if Ascii.eqb ch1 cl then ret c1
                else (on_stream (xputback m ch1) ;;; ret (Some sep))) ;;
        fun s => xread_loop cl sep (S (S (List.length (i_after (fst s))))) c2 s).
  (** stlio.hpp:278-283 operator>> for vectors *)
  Definition xread_vector : M xst unit := xread_sequence "[" "]" ",".
End Into.

(** a reader of a local variable x, as read_sequence has for its items (stlio.hpp:150, 177): what x contained
    before does not matter, and an exception discards it *)
Definition local {T} (f : M (istream * list T) unit) : M istream (list T) := fun s =>
  match f (s, []) with
  | Ret _ s' => Ret (snd s') (fst s')
  | Exc e s' => Exc e (fst s')
  | Ub r => Ub r
  | Abort => Abort
  | Fuel => Fuel
  end.

(** binary_word.hpp:188-210 *)
Fixpoint xword_loop (m : mask) (fuel : nat) (symbol : ascii) : M (istream * word) unit := fun s =>
  match fuel with
  | O => Fuel
  | S fuel' =>
      if negb (i_failed (fst s)) && is_bit symbol
      then (push_var (negb (Ascii.eqb symbol "0")) ;;;
            c <- on_stream (chk m (get_char (Some symbol))) ;;
            use_var c (fun symbol' => xword_loop m fuel' symbol')) s
      else on_stream (xputback m symbol) s
  end.
Definition xread_word (m : mask) : M (istream * word) unit :=
  clear_var ;;;
  c <- on_stream (chk m (extract_char None)) ;;
  use_var c (fun symbol =>
    if Ascii.eqb symbol "[" then (on_stream (xputback m symbol) ;;; xread_vector m (chk m read_bool))
    else fun s => xword_loop m (S (S (List.length (i_after (fst s))))) symbol s).
