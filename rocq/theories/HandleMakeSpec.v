(** HandleMakeSpec.v -- what making a handle from an object, or from constructor arguments, should do. *)
From Verif Require Import Base HandleModel HandleMakeModel.

Section Spec.
  Context {V Ty A : Type} (dyn : V -> Ty).

  (** handle [d] holds an object of value [v] *)
  Definition holds (s : hst V) (d : nat) (v : V) : Prop :=
    exists a c, nth_error (vars s) d = Some (Ptr a) /\ nth_error (heap s) a = Some c /\ c_live c = true /\ c_val c = v.

  (** a class hierarchy that copies properly: an object of a class made from a part of another is of that class, made
      from a whole object it has its value, and the virtual functions copy the whole object *)
  Record proper (part : Ty -> V -> V) (vcopy vmove : V -> V) : Prop := mkProper {
    part_type : forall S v, dyn (part S v) = S;
    part_whole : forall v, part (dyn v) v = v;
    copy_whole : forall v, vcopy v = v;
    move_whole : forall v, vmove v = v }.

  (** a class whose constructors leave alone the arguments they are given as lvalues *)
  Definition respects_lvalues (build : @class_ctor V A) : Prop :=
    forall args v after, build args = Some (v, after) ->
      length after = length args /\
      forall i a, nth_error args i = Some (false, a) -> nth_error after i = Some a.
  (** a class that makes the same object of a copied as of a moved argument *)
  Definition moves_like_copies (build : @class_ctor V A) : Prop :=
    forall args v after, build args = Some (v, after) ->
      exists after', build (map (fun a => (false, snd a)) args) = Some (v, after').
End Spec.
