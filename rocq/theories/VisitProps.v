(** VisitProps.v -- the property C114: the visitor given to CodedVariant::accept.  Statements only; the lemmas are in
    VisitProofs.v. *)
From Verif Require Import Base VariantModel VisitModel VisitProofs.

(** ** C114
    intended: for every visitor class k, const or not the expression v,
      accept_visitor code_of k alts (variant_of code_of t) = call k const t *)
(** for an expression that is not const *)
Theorem C114_own_visitor_partial :
  forall (T S R : Type) (code_of : T -> Z) (k : visitor_class T S R) (alts : list T) (t : T),
  NoDup (map code_of alts) -> length alts <= 16 -> In t alts ->
  accept_visitor code_of k alts (variant_of code_of t) = call k false t.
Proof. exact @visit_plain. Qed.
Print Assumptions C114_own_visitor_partial.

(** for a class whose call operator is const: the same, and the visitor is what it was *)
Theorem C114_const_operator_partial :
  forall (T S R : Type) (code_of : T -> Z) (k : visitor_class T S R) (alts : list T) (t : T),
  NoDup (map code_of alts) -> length alts <= 16 -> In t alts -> op_plain k = None ->
  accept_visitor code_of k alts (variant_of code_of t) = call k true t /\
  forall m v r, accept_visitor code_of k alts (variant_of code_of t) = Some m -> m v = r -> exists a, r = Ret a v.
Proof. exact @visit_const_only. Qed.
Print Assumptions C114_const_operator_partial.

(** for an operator that is not declared const but writes nothing: defined for every visitor, which is what it was *)
Theorem C114_silent_operator_partial :
  forall (T S R : Type) (code_of : T -> Z) (k : visitor_class T S R) (alts : list T) (t : T) f,
  NoDup (map code_of alts) -> length alts <= 16 -> In t alts ->
  op_plain k = Some f -> (forall s, snd (f t s) = None) ->
  exists m, accept_visitor code_of k alts (variant_of code_of t) = Some m /\ forall v, m v = Ret (fst (f t (vis_state v))) v.
Proof. exact @visit_silent. Qed.
Print Assumptions C114_silent_operator_partial.

(** a class with both operators: v(t) on a const expression v is a call of the const one, accept(v) of the other one *)
Theorem C114_overloaded_refuted :
  forall (T S R : Type) (code_of : T -> Z) (k : visitor_class T S R) (alts : list T) (t : T) f g,
  NoDup (map code_of alts) -> length alts <= 16 -> In t alts -> op_plain k = Some f -> op_const k = Some g ->
  call k true t = Some (call_const g t) /\
  accept_visitor code_of k alts (variant_of code_of t) = Some (call_plain f t).
Proof. exact @visit_overloaded. Qed.
Print Assumptions C114_overloaded_refuted.

(** an operator that writes: undefined if the visitor was defined const, and otherwise the visitor is changed although
    accept takes it as const *)
Theorem C114_const_object_refuted :
  forall (T S R : Type) (code_of : T -> Z) (k : visitor_class T S R) (alts : list T) (t : T) f s r s',
  NoDup (map code_of alts) -> length alts <= 16 -> In t alts -> op_plain k = Some f -> f t s = (r, Some s') ->
  exists m, accept_visitor code_of k alts (variant_of code_of t) = Some m /\ m (mkVisitor true s) = Ub UbConstWrite /\
            m (mkVisitor false s) = Ret r (mkVisitor false s').
Proof. exact @visit_const_object. Qed.
Print Assumptions C114_const_object_refuted.

(** a visitor that counts its calls; its const operator gives the code, the other one the number of calls *)
Definition counter : visitor_class Z nat Z :=
  mkClass (Some (fun t _ => t)) (Some (fun _ n => (Z.of_nat n, Some (S n)))).
Example C114_example :
  option_map (fun m => m (mkVisitor false 7)) (call counter true 4%Z) = Some (Ret 4%Z (mkVisitor false 7)) /\
  option_map (fun m => m (mkVisitor false 7)) (accept_visitor (fun t => t) counter [3; 4]%Z (variant_of (fun t => t) 4%Z)) =
    Some (Ret 7%Z (mkVisitor false 8)) /\
  option_map (fun m => m (mkVisitor true 7)) (accept_visitor (fun t => t) counter [3; 4]%Z (variant_of (fun t => t) 4%Z)) =
    Some (Ub UbConstWrite) /\
  call (mkClass (S := nat) (R := Z) None (Some (fun t n => (t, Some (S n))))) true 4%Z = None.
Proof. vm_compute. repeat split. Qed.
