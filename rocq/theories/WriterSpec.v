(** WriterSpec.v -- what writers and writable classes should do. *)
From Verif Require Import Base StreamModel HandleModel WriterModel.

Section Spec.
  Context {V T : Type}.
  (** Writer variable [h] holds object [a], a writer of value [v] *)
  Definition writer_at (s : wst V T) (h a : nat) (v : V) : Prop :=
    nth_error (vars (w_h s)) h = Some (Ptr a) /\ exists c, nth_error (heap (w_h s)) a = Some c /\ c_val c = v.
  (** some Writer variable holds object [a] *)
  Definition owned (s : wst V T) (a : nat) : Prop := exists h, nth_error (vars (w_h s)) h = Some (Ptr a).
  (** the same state with [c] written *)
  Definition printed (s : wst V T) (c : text) : wst V T := mkWst (w_h s) (w_objs s) (w_args s) (w_out s ++ c).
  (** the statement does not make another temporary named [k] *)
  Definition no_rebinding (k : nat) (o : wop V T) : Prop := match o with WBind q _ _ => q <> k | _ => True end.
End Spec.

(** a class can be written to a stream: t._write(os) is well formed for const t and an output stream variable os *)
Definition can_be_written (f : option writer_fn) : bool := call_ok f true true.
(** the member function of WritableInterface (52): public, const, taking ostream& *)
Definition usual : writer_fn := mkWf true true ByLvalueRef.
