(** MaskSpec.v -- reading into variables from streams that may throw, independent of the code. *)
From Verif Require Import Base StreamModel StlioModel StlioSpec WordModel MaskModel.

(** A reader that returns or throws ios_base::failure, only moves forward and does not recover a failed stream *)
Definition mtame {T} (rd : M istream T) : Prop :=
  forall s, match rd s with
            | Ret _ s' => (exists t, moved s t s') /\ (i_failed s = true -> i_failed s' = true)
            | Exc e s' => e = EIosFailure /\ exists t, moved s t s'
            | _ => False
            end.

Section Begun.
  Context {T : Type} (rd : M istream T) (op sep : ascii).
  (** items, each but the last followed by the separator, then anything *)
  Inductive firsts : list T -> text -> Prop :=
  | firsts_last x t r : yields rd x t -> firsts [x] (t ++ r)
  | firsts_cons x t w v u : yields rd x t -> blank w -> firsts v u -> firsts (x :: v) (t ++ w ++ sep :: u).
  (** [t] starts like a list, and [v] are the items at its start *)
  Definition begun (v : list T) (t : text) : Prop :=
    v = [] \/ exists w w1 u, blank w /\ blank w1 /\ t = w ++ op :: w1 ++ u /\ firsts v u.
End Begun.

(** the standard readers, on a stream with a mask *)
Definition mread_int (m : mask) (lo hi : Z) : M istream Z := chk m (read_int lo hi).
Definition mread_bool (m : mask) : M istream bool := chk m read_bool.
Definition mread_string (m : mask) : M istream text := chk m read_string.
Fixpoint mnest_read (m : mask) (lo hi : Z) (n : nat) : M istream (nest n) :=
  match n with O => mread_int m lo hi | S k => local (xread_vector m (mnest_read m lo hi k)) end.

(** [rdx] returns what [rd0] returns if the stream is good afterwards *)
Definition follows {T} (rd0 rdx : M istream T) : Prop :=
  forall s x s', rd0 s = Ret x s' -> i_good s' = true -> rdx s = Ret x s'.
(** a reader does not recover a failed stream *)
Definition keeps_failed {T} (rd : M istream T) : Prop :=
  forall s x s', rd s = Ret x s' -> i_failed s = true -> i_failed s' = true.

(** words: blanks and the bits of [w], or a list of bits *)
Definition word_read (m : mask) (w : word) (t : text) : Prop :=
  (exists b, blank b /\ t = b ++ map bit_char w) \/ accepted (mread_bool m) "[" "]" "," w t.
Definition word_begun (m : mask) (w : word) (t : text) : Prop :=
  (exists b, blank b /\ t = b ++ map bit_char w) \/ begun (mread_bool m) "[" "," w t.

(** the outcomes agree, except for the variable, which the earlier models do not have when an exception is thrown *)
Definition agree {T} (a : res (istream * list T) unit) (b : res istream (list T)) : Prop :=
  match a, b with
  | Ret _ (s, v), Ret v' s' => s = s' /\ v = v'
  | Exc e (s, _), Exc e' s' => e = e' /\ s = s'
  | Ub r, Ub r' => r = r'
  | Abort, Abort => True
  | Fuel, Fuel => True
  | _, _ => False
  end.
