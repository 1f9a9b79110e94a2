(** UsingProps.v -- the property C119: classes that take their constructors by HELPER_USING_CONSTRUCTORS.  Statements only; the
    lemmas are in UsingProofs.v. *)
From Verif Require Import Base OverModel UsingModel UsingProofs.

(** ** C119
    intended: an object made from arguments is the Base made from them with its own members initialised by default; a copy is
    equal to the original; conversions that are explicit for Base are so for Class:
      define (OfClass o) c = Some o /\ define (OfDerived o) c = Some o /\
      (converts x = false -> define_implicit (Other x) c = None) *)
Theorem C119_arguments_partial :
  forall (B M X : Type) (dflt : M) (base_from : X -> cat -> option B) (converts from_base : X -> bool) x c,
  define dflt base_from converts from_base (Other x) c = option_map (fun b => mkObj b dflt) (base_from x c).
Proof. exact @define_other. Qed.
Print Assumptions C119_arguments_partial.

Theorem C119_many_arguments_partial :
  forall (B M X : Type) (dflt : M) (base_from_all : list (X * cat) -> option B) xs,
  define_all dflt base_from_all xs = option_map (fun b => mkObj b dflt) (base_from_all xs).
Proof. exact @define_many. Qed.
Print Assumptions C119_many_arguments_partial.

(** copies of const objects and of temporaries are equal *)
Theorem C119_copy_partial :
  forall (B M X : Type) (dflt : M) (base_from : X -> cat -> option B) (converts from_base : X -> bool) (o : obj B M) c,
  c = ConstLvalue \/ c = Rvalue ->
  define dflt base_from converts from_base (OfClass o) c = Some o /\
  define_implicit dflt base_from converts from_base (OfClass o) c = Some o.
Proof. exact @define_copy. Qed.
Print Assumptions C119_copy_partial.

(** a copy of an object that is not const has the members of a new object *)
Theorem C119_copy_refuted :
  forall (B M X : Type) (dflt : M) (base_from : X -> cat -> option B) (converts from_base : X -> bool) (o : obj B M) c,
  c = Lvalue \/ c = ConstRvalue ->
  define dflt base_from converts from_base (OfClass o) c = Some (mkObj (o_base o) dflt) /\
  define_implicit dflt base_from converts from_base (OfClass o) c = Some (mkObj (o_base o) dflt).
Proof. exact @define_copy_loses. Qed.
Print Assumptions C119_copy_refuted.

(** and so has every object made from one of a derived class, const or not *)
Theorem C119_derived_refuted :
  forall (B M X : Type) (dflt : M) (base_from : X -> cat -> option B) (converts from_base : X -> bool) (o : obj B M) c,
  define dflt base_from converts from_base (OfDerived o) c = Some (mkObj (o_base o) dflt) /\
  define_implicit dflt base_from converts from_base (OfDerived o) c = Some (mkObj (o_base o) dflt).
Proof. exact @define_derived_loses. Qed.
Print Assumptions C119_derived_refuted.

(** every construction of Base, explicit or not, is an implicit conversion to Class *)
Theorem C119_explicit_refuted :
  forall (B M X : Type) (dflt : M) (base_from : X -> cat -> option B) (converts from_base : X -> bool) x c b,
  base_from x c = Some b -> define_implicit dflt base_from converts from_base (Other x) c = Some (mkObj b dflt).
Proof. exact @implicit_of_explicit. Qed.
Print Assumptions C119_explicit_refuted.

(** Base has an explicit constructor from numbers; Class adds a number, by default 0 *)
Example C119_example :
  let def := define 0 (fun x (_ : cat) => Some (x : nat)) (fun _ => false) (fun _ => false) in
  let impl := define_implicit 0 (fun x (_ : cat) => Some (x : nat)) (fun _ => false) (fun _ => false) in
  def (Other 7) Rvalue = Some (mkObj 7 0) /\
  impl (Other 7) Rvalue = Some (mkObj 7 0) /\
  def (OfClass (mkObj 7 5)) ConstLvalue = Some (mkObj 7 5) /\
  def (OfClass (mkObj 7 5)) Lvalue = Some (mkObj 7 0) /\
  def (OfDerived (mkObj 7 5)) ConstLvalue = Some (mkObj 7 0).
Proof. repeat split. Qed.
