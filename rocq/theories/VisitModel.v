(** VisitModel.v -- the visitor that CodedVariant::accept is given, include/variant.inl.hpp:172-174: the parameter is a
    V const&, and the visitor is called through const_cast<V&>(v).  Definitions only; the switch is VariantModel.v.

    - A visitor class has a const call operator, one that is not const, or both.  The latter gives its result and, if it
      writes to the members of the visitor, what they are then.
    - A visitor object has been defined const or not; the caller's expression for it may be const either way.
    - Simplified: the operators do not throw. *)
From Verif Require Import Base VariantModel.

Section Visit.
  Context {T S R : Type} (code_of : T -> Z).

  Record visitor_class := mkClass {
    op_const : option (T -> S -> R);
    op_plain : option (T -> S -> R * option S) }.
  Record visitor := mkVisitor { vis_const : bool; vis_state : S }.

  (** calling the operator that is not const; writing to an object defined const is undefined *)
  Definition call_plain (f : T -> S -> R * option S) (t : T) : M visitor R := fun v =>
    match f t (vis_state v) with
    | (r, None) => Ret r v
    | (r, Some s) => if vis_const v then Ub UbConstWrite else Ret r (mkVisitor (vis_const v) s)
    end.
  Definition call_const (f : T -> S -> R) (t : T) : M visitor R := fun v => Ret (f t (vis_state v)) v.

  (** the call v(t), where the expression v is const or not; [None]: does not compile *)
  Definition call (k : visitor_class) (const : bool) (t : T) : option (M visitor R) :=
    match op_plain k, op_const k with
    | Some f, _ => if const then option_map (fun g => call_const g t) (op_const k) else Some (call_plain f t)
    | None, Some g => Some (call_const g t)
    | None, None => None
    end.

  (** variant.inl.hpp:172-174, then coded_visit(V& v, code) with v(T()) in every case *)
  Definition accept_visitor (k : visitor_class) (alts : list T) (var : coded_variant) : option (M visitor R) :=
    match op_plain k, op_const k with
    | Some f, _ => accept code_of (call_plain f) alts var
    | None, Some g => accept code_of (call_const g) alts var
    | None, None => match alts with [] => accept code_of (fun _ _ => Abort) alts var | _ => None end
    end.
End Visit.
Arguments visitor_class : clear implicits.
Arguments visitor : clear implicits.
