(** StlioSpec.v -- the text format of lists, independent of the code that writes and reads it. *)
From Verif Require Import Base StreamModel StlioModel.

Definition blank (t : text) : Prop := forallb is_space t = true.

(** [s'] is [s] after reading exactly [t] *)
Definition moved (s : istream) (t : text) (s' : istream) : Prop :=
  i_after s = t ++ i_after s' /\ i_before s' = rev t ++ i_before s /\ i_boolalpha s' = i_boolalpha s.

(** items separated by [sep] *)
Fixpoint separated (sep : text) (l : list text) : text :=
  match l with
  | [] => []
  | [x] => x
  | x :: l' => x ++ sep ++ separated sep l'
  end.
(** [pr] appends [txt x] and changes nothing else *)
Definition plain {T} (pr : T -> ostream -> ostream) (txt : T -> text) : Prop :=
  forall x o, pr x o = put_text (txt x) o.

(** Reading at blanks followed by [t] and then a character allowed by [fol] gives [x], consumes just
    that and leaves the stream good; [t] does not start with a blank. *)
Definition reads_as {T} (rd : M istream T) (alpha : bool) (fol : ascii -> bool) (x : T) (t : text) : Prop :=
  (exists c t', t = c :: t' /\ is_space c = false) /\
  forall s w c r, i_good s = true -> i_boolalpha s = alpha -> blank w ->
    i_after s = w ++ t ++ c :: r -> fol c = true ->
    exists s', rd s = Ret x s' /\ i_good s' = true /\ moved s (w ++ t) s'.

Definition starts_with (p : ascii -> bool) (t : text) : Prop := exists c t', t = c :: t' /\ p c = true.

Section Layout.
  Context {T : Type} (txt : T -> text) (fol : ascii -> bool) (op cl sep : ascii).
  (** the text after the opening bracket of a non-empty list, blanks allowed around items *)
  Inductive body : list T -> text -> Prop :=
  | body_last x w w' : blank w -> blank w' -> starts_with fol (w' ++ [cl]) ->
      body [x] (w ++ txt x ++ w' ++ [cl])
  | body_cons x w w' v u : blank w -> blank w' -> starts_with fol (w' ++ [sep]) -> body v u ->
      body (x :: v) (w ++ txt x ++ w' ++ sep :: u).
  Inductive layout : list T -> text -> Prop :=
  | layout_nil w : blank w -> layout [] (op :: w ++ [cl])
  | layout_body v u : body v u -> layout v (op :: u).
End Layout.

(** ** accepted input, for an arbitrary reader *)
Section Accepted.
  Context {T : Type} (rd : M istream T) (op cl sep : ascii).
  (** the reader can turn exactly [t] into [x] *)
  Definition yields (x : T) (t : text) : Prop :=
    exists s s', rd s = Ret x s' /\ moved s t s' /\ i_failed s' = false.
  Inductive items : list T -> text -> Prop :=
  | items_last x t w : yields x t -> blank w -> items [x] (t ++ w ++ [cl])
  | items_cons x t w v u : yields x t -> blank w -> items v u -> items (x :: v) (t ++ w ++ sep :: u).
  Definition accepted (v : list T) (t : text) : Prop :=
    exists w w1 u, blank w /\ blank w1 /\ t = w ++ op :: w1 ++ u /\
      ((v = [] /\ u = [cl]) \/ items v u).
End Accepted.

(** a reader that always returns, only moves forward and does not recover a failed stream *)
Definition tame {T} (rd : M istream T) : Prop :=
  forall s, exists x s' t, rd s = Ret x s' /\ moved s t s' /\ (i_failed s = true -> i_failed s' = true).

(** the texts accepted as a signed decimal integer *)
Definition int_token (x : Z) (t : text) : Prop :=
  exists w sg ds, blank w /\ t = w ++ sg ++ ds /\ ds <> [] /\ forallb is_digit ds = true /\
    ((sg = [] \/ sg = chars "+") /\ x = digits_value ds \/ sg = chars "-" /\ x = (- digits_value ds)%Z).

(** lists nested to depth [n] over integers *)
Fixpoint nest (n : nat) : Type := match n with O => Z | S m => list (nest m) end.
Fixpoint nest_print (n : nat) : nest n -> ostream -> ostream :=
  match n with O => print_int | S m => print_vector (nest_print m) end.
Fixpoint nest_read (lo hi : Z) (n : nat) : M istream (nest n) :=
  match n with O => read_int lo hi | S m => read_vector (nest_read lo hi m) end.
Fixpoint nest_ok (lo hi : Z) (n : nat) : nest n -> Prop :=
  match n with O => fun z => (lo <= z <= hi)%Z | S m => fun l => Forall (nest_ok lo hi m) l end.

(** what may follow an item of a vector *)
Definition list_follow (c : ascii) : bool := is_space c || Ascii.eqb c "," || Ascii.eqb c "]".

(** strings a vector could hold: not empty, without blanks, ',' and ']' *)
Definition list_string (t : text) : Prop :=
  t <> [] /\ forallb (fun c => negb (is_space c) && negb (Ascii.eqb c ",") && negb (Ascii.eqb c "]")) t = true.

(** a list of integers accepted by read_vector, written out *)
Inductive int_items (lo hi : Z) : list Z -> text -> Prop :=
| int_items_last x t w : int_token x t -> (lo <= x <= hi)%Z -> blank w -> int_items lo hi [x] (t ++ w ++ chars "]")
| int_items_cons x t w v u : int_token x t -> (lo <= x <= hi)%Z -> blank w -> int_items lo hi v u ->
    int_items lo hi (x :: v) (t ++ w ++ chars "," ++ u).
