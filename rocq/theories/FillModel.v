(** FillModel.v -- which of the overloaded functions fill (include/array.hpp:198-199, 201-202) and _uninitialized_fill (208-209,
    210-212) a call chooses, in the setting of OverModel.v: x is taken as a value, or as an iterator to a sequence.
    Definitions only.

    - Types are those of OverModel.v; the classes include the classes of iterators, and pointers, which convert to other types in
      the same way ([conv]; the conversion of a pointer to bool is counted as one by a user-defined function, which changes
      no choice).
    - A braced list is no argument here: for it the template is not viable.
    - A string literal counts as a value of type char const*, to which it converts for either function. *)
From Verif Require Import Base ArrayModel OverModel.
Local Open Scope monad_scope.

Section Fill.
  Context (conv : ty -> ty -> bool)
          (points_at : ty -> option ty)        (* the type of *x for an iterator x of type X *)
          (assigns builds : ty -> ty -> bool)  (* assigns Y T: t=y compiles; builds Y T: T(y) compiles *)
          {V : Type} (sz : Z)
          (cast : ty -> ty -> V -> V)          (* the value of type T made from a value of type Y *)
          (sequence : ty -> V -> list V).      (* what can be read from an iterator of type X on *)

  Inductive fill_fn := FValue | FSequence.
  (** 198 and 201, 208 and 210: const ValueType&, and a template with a parameter of the type of the argument *)
  Definition fill_candidates (T X : ty) : list (cand fill_fn) :=
    viable FValue false [implicit conv X T] ++ viable FSequence true [Some Identity].

  Inductive compiled := Runs (m : M (st V) unit) | Rejected.
  (** a.fill(x) for an Array<T> a and x of type X *)
  Definition fill_call (T X : ty) (a : nat) (x : V) : compiled :=
    match resolve (fill_candidates T X) with
    | Chosen FValue => Runs (a_fill a (AVal (cast X T x)))
    | Chosen FSequence =>
        match points_at X with
        | Some Y => if assigns Y T then Runs (a_fill_from a (SList (cast Y T) (sequence X x))) else Rejected
        | None => Rejected                                         (* *first does not compile *)
        end
    | _ => Rejected
    end.

  (** 100-104: Array<T> d(first,last) for iterators of type X that are no numbers, and no functions of a size_t, so that no
      other constructor is viable; last is [n] positions after first *)
  Definition range_call (T X : ty) (d : nat) (first : V) (n : nat) : compiled :=
    match points_at X with
    | None => Rejected                                             (* std::distance does not compile *)
    | Some Y =>
        match resolve (fill_candidates T X) with
        | Chosen FValue => Runs (fresh_var d ;;; a_build sz d n (fun _ => ret (cast X T first)))
        | Chosen FSequence =>
            if builds Y T then Runs (fresh_var d ;;; a_build sz d n (read_cursor (CList (cast Y T) (sequence X first)))) else Rejected
        | _ => Rejected
        end
    end.
End Fill.
Arguments compiled : clear implicits.
Arguments Runs {V} m.
Arguments Rejected {V}.
