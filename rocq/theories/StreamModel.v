(** StreamModel.v -- the parts of std::istream and std::ostream used by include/stlio.hpp (56-217,
    278-283), include/container.hpp (printing) and include/binary_word.hpp (185-238).

    Standard library semantics, not code of /repo: an input stream is the text already consumed, the
    text still to come and the state bits; the exception mask is empty, skipws is set and the locale is
    "C".  An output stream is the text written and the boolalpha flag; writing never fails and no width
    is set. *)
From Verif Require Import Base.
From Coq Require Export Ascii.
From Coq Require String.
Export String.StringSyntax.
From Coq Require Decimal.
Open Scope list_scope.
Open Scope nat_scope.

Notation text := (list ascii).
Definition chars (s : String.string) : text := String.list_ascii_of_string s.
Arguments chars s%string_scope.

(** isspace in the "C" locale *)
Definition is_space (c : ascii) : bool :=
  let n := nat_of_ascii c in orb (Nat.eqb n 32) (andb (Nat.leb 9 n) (Nat.leb n 13)).

Record istream := mkI {
  i_before : text;      (* consumed characters, last one first *)
  i_after : text;       (* characters still to be read *)
  i_eof : bool; i_fail : bool; i_bad : bool;
  i_boolalpha : bool
}.
Definition i_good (s : istream) : bool := negb (i_eof s || i_fail s || i_bad s).
(** istream::fail() *)
Definition i_failed (s : istream) : bool := i_fail s || i_bad s.
Definition of_text (t : text) : istream := mkI [] t false false false false.

Definition set_fail (s : istream) : istream :=
  mkI (i_before s) (i_after s) (i_eof s) true (i_bad s) (i_boolalpha s).
Definition set_eof (s : istream) : istream :=
  mkI (i_before s) (i_after s) true (i_fail s) (i_bad s) (i_boolalpha s).
Definition set_bad (s : istream) : istream :=
  mkI (i_before s) (i_after s) (i_eof s) (i_fail s) true (i_boolalpha s).
Definition clear_eof (s : istream) : istream :=
  mkI (i_before s) (i_after s) false (i_fail s) (i_bad s) (i_boolalpha s).
(** move past [t], leaving [r] *)
Definition advance (t r : text) (s : istream) : istream :=
  mkI (rev t ++ i_before s) r (i_eof s) (i_fail s) (i_bad s) (i_boolalpha s).

(** longest prefix of characters satisfying [p] *)
Fixpoint span (p : ascii -> bool) (t : text) : text * text :=
  match t with
  | c :: r => if p c then let '(a, b) := span p r in (c :: a, b) else ([], t)
  | [] => ([], [])
  end.
Definition skipws (s : istream) : istream :=
  let '(w, r) := span is_space (i_after s) in advance w r s.

(** istream::sentry *)
Definition sentry (noskipws : bool) (s : istream) : bool * istream :=
  if i_good s then
    if noskipws then (true, s)
    else let s' := skipws s in
         match i_after s' with
         | [] => (false, set_fail (set_eof s'))
         | _ => (true, s')
         end
  else (false, set_fail s).

(** A char variable: [None] is the indeterminate value of an uninitialised one. *)
Definition cvar := option ascii.
(** use of a char variable *)
Definition read_var {A} (c : cvar) (k : ascii -> M istream A) : M istream A :=
  match c with Some a => k a | None => undefined UbUninit end.

(** is >> c; on failure the variable keeps its value *)
Definition extract_char (old : cvar) : M istream cvar := fun s =>
  let '(ok, s1) := sentry false s in
  if ok then match i_after s1 with
             | c :: r => Ret (Some c) (advance [c] r s1)
             | [] => Ret old (set_fail (set_eof s1))
             end
  else Ret old s1.
(** is.get(c) *)
Definition get_char (old : cvar) : M istream cvar := fun s =>
  let '(ok, s1) := sentry true s in
  if ok then match i_after s1 with
             | c :: r => Ret (Some c) (advance [c] r s1)
             | [] => Ret old (set_fail (set_eof s1))
             end
  else Ret old s1.
(** is.putback(c), on a buffer that cannot be written (istringstream) *)
Definition putback (c : ascii) : M istream unit := fun s =>
  let '(ok, s1) := sentry true (clear_eof s) in
  if ok then match i_before s1 with
             | p :: b => if Ascii.eqb p c
                         then Ret tt (mkI b (p :: i_after s1) (i_eof s1) (i_fail s1) (i_bad s1) (i_boolalpha s1))
                         else Ret tt (set_bad s1)
             | [] => Ret tt (set_bad s1)
             end
  else Ret tt s1.

(** ** Arithmetic extraction (num_get, decimal) *)
Definition is_digit (c : ascii) : bool := let n := nat_of_ascii c in andb (Nat.leb 48 n) (Nat.leb n 57).
Definition digit_value (c : ascii) : Z := (Z.of_nat (nat_of_ascii c) - 48)%Z.
Definition digits_value (t : text) : Z := fold_left (fun a c => 10 * a + digit_value c)%Z t 0%Z.
Definition take_sign (t : text) : text * bool * text :=
  match t with
  | c :: r => if Ascii.eqb c "-" then ([c], true, r) else if Ascii.eqb c "+" then ([c], false, r) else ([], false, t)
  | [] => ([], false, [])
  end.
Definition if_eof (s : istream) : istream := match i_after s with [] => set_eof s | _ => s end.
(** is >> x for a signed integer type with values in [lo,hi] *)
Definition read_int (lo hi : Z) : M istream Z := fun s =>
  let '(ok, s1) := sentry false s in
  if ok then
    let '(sg, neg, r) := take_sign (i_after s1) in
    let '(ds, r') := span is_digit r in
    let s2 := if_eof (advance (sg ++ ds) r' s1) in
    let v := (if neg then - digits_value ds else digits_value ds)%Z in
    match ds with
    | [] => Ret 0%Z (set_fail s2)
    | _ => if (v <? lo)%Z then Ret lo (set_fail s2)
           else if (hi <? v)%Z then Ret hi (set_fail s2)
           else Ret v s2
    end
  else Ret 0%Z s1.

(** longest common prefix of a name and the input: characters matched, rest of the input, rest of the name *)
Fixpoint match_name (name t : text) : text * text * text :=
  match name, t with
  | n :: name', c :: r => if Ascii.eqb n c
                          then let '(a, b, d) := match_name name' r in (c :: a, b, d) else ([], t, name)
  | _, _ => ([], t, name)
  end.
Definition read_name (name : text) (v : bool) (s : istream) : res istream bool :=
  let '(a, b, d) := match_name name (i_after s) in
  let s1 := advance a b s in
  match d with
  | [] => Ret v s1
  | _ => Ret false (set_fail (if_eof s1))
  end.
(** is >> b for a bool: a long equal to 0 or 1, or the names true and false if boolalpha is set *)
Definition read_bool : M istream bool := fun s =>
  let '(ok, s1) := sentry false s in
  if ok then
    if i_boolalpha s1 then
      match i_after s1 with
      | c :: _ => if Ascii.eqb c "t" then read_name (chars "true") true s1 else read_name (chars "false") false s1
      | [] => Ret false (set_fail (set_eof s1))
      end
    else match read_int (- 2 ^ 63) (2 ^ 63 - 1) s1 with
         | Ret v s2 => if (v =? 0)%Z then Ret false s2 else if (v =? 1)%Z then Ret true s2 else Ret true (set_fail s2)
         | Exc e s2 => Exc e s2
         | Ub r => Ub r
         | Abort => Abort
         | Fuel => Fuel
         end
  else Ret false s1.
(** is >> str *)
Definition read_string : M istream text := fun s =>
  let '(ok, s1) := sentry false s in
  if ok then
    let '(t, r) := span (fun c => negb (is_space c)) (i_after s1) in
    let s2 := if_eof (advance t r s1) in
    match t with [] => Ret [] (set_fail s2) | _ => Ret t s2 end
  else Ret [] s1.

(** ** Output *)
Record ostream := mkO { o_text : text; o_boolalpha : bool }.
Definition put_text (t : text) (o : ostream) : ostream := mkO (o_text o ++ t) (o_boolalpha o).
Definition set_boolalpha (b : bool) (o : ostream) : ostream := mkO (o_text o) b.

Fixpoint uint_text (d : Decimal.uint) : text :=
  match d with
  | Decimal.Nil => []
  | Decimal.D0 d => "0" :: uint_text d | Decimal.D1 d => "1" :: uint_text d | Decimal.D2 d => "2" :: uint_text d
  | Decimal.D3 d => "3" :: uint_text d | Decimal.D4 d => "4" :: uint_text d | Decimal.D5 d => "5" :: uint_text d
  | Decimal.D6 d => "6" :: uint_text d | Decimal.D7 d => "7" :: uint_text d | Decimal.D8 d => "8" :: uint_text d
  | Decimal.D9 d => "9" :: uint_text d
  end%char.
Definition int_text (z : Z) : text :=
  match Z.to_int z with
  | Decimal.Pos d => uint_text d
  | Decimal.Neg d => "-"%char :: uint_text d
  end.
Definition bool_text (alpha b : bool) : text :=
  if alpha then (if b then chars "true" else chars "false") else (if b then chars "1" else chars "0").
Definition print_int (z : Z) (o : ostream) : ostream := put_text (int_text z) o.
Definition print_bool (b : bool) (o : ostream) : ostream := put_text (bool_text (o_boolalpha o) b) o.
Definition print_string (t : text) (o : ostream) : ostream := put_text t o.
