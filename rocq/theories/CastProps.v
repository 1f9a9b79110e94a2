(** CastProps.v -- the properties C130 and C131: calls of dynamic_handle_cast and dynamic_handle_extract that can be built.
    Statements only; the lemmas are in CastProofs.v. *)
From Verif Require Import Base CastModel CastProofs.

(** ** C130
    intended: dynamic_handle_cast<D>(h) can be called for every handle h and every class D of handles that is made from a handle,
    and calls the function that is defined in the header:
      forall q t c dconst, build_cast q t c dconst true = Builds cast_129 *)
(** it can for h of a class derived from Handle, if the interface of D is const, and in no other case *)
Theorem C130_can_be_built_partial :
  forall q t c dconst takes f, build_cast q t c dconst takes = Builds f <->
  ht_derived t = true /\ dconst = true /\ takes = true /\ f_line f = 129 /\ f = cast_129.
Proof. exact cast_builds. Qed.
Print Assumptions C130_can_be_built_partial.

(** an h of type Handle<I> itself never: the functions declared in lines 51 and 52 are not defined, and unless the name is qualified
    those of lines 115 and 116 match equally well *)
Theorem C130_handle_itself_refuted :
  forall q t c dconst takes, ht_derived t = false ->
  build_cast q t c dconst takes = if q then DoesNotLink else DoesNotCompile.
Proof. exact cast_same_class. Qed.
Print Assumptions C130_handle_itself_refuted.

(** a D with a non-const interface never: the argument is taken by const reference, so the branch for a non-const pointer is dead *)
Theorem C130_nonconst_interface_refuted :
  forall q t c takes, ht_derived t = true -> build_cast q t c false takes = DoesNotCompile.
Proof. exact cast_to_nonconst. Qed.
Print Assumptions C130_nonconst_interface_refuted.

Example C130_example :
  build_cast false (mkHT true false) Temporary true true = Builds cast_129 /\
  build_cast false (mkHT true false) Variable_ true true = Builds cast_129 /\
  build_cast false (mkHT false false) Variable_ true true = DoesNotCompile /\
  build_cast true (mkHT false true) ConstVariable true true = DoesNotLink /\
  resolve (mkHT false true) ConstVariable (cast_functions true) = Chosen cast_51 /\
  resolve (mkHT false true) ConstVariable (cast_functions false) = Ambiguous.
Proof. repeat split; reflexivity. Qed.

(** ** C131
    intended: dynamic_handle_extract<T>(h) can be called for every handle h, and gives a reference for writing only if h is not const
    and its interface is not const:
      build_extract t c = Builds f -> returns_const f = false -> c = Variable_ /\ ht_const t = false *)
Theorem C131_can_be_built :
  forall t c, exists f, build_extract t c = Builds f /\ viable f t c = true.
Proof. exact extract_builds. Qed.
Print Assumptions C131_can_be_built.

(** and what is called ends: the body that looks at the object is reached, through at most one function that passes the call on *)
Theorem C131_reaches_object :
  forall t c n, exists fs f,
  run_extract (2 + n) t c = Ends (fs ++ [f]) /\ (f_line f = 145 \/ f_line f = 160) /\ (forall g, In g fs -> f_line g = 156) /\
  f_defined f = true.
Proof. exact extract_ends. Qed.
Print Assumptions C131_reaches_object.

Theorem C131_const_reference_partial :
  forall t c f, build_extract t c = Builds f -> (returns_const f = false <-> c = Variable_).
Proof. exact extract_const. Qed.
Print Assumptions C131_const_reference_partial.

(** a non-const variable of type Handle<const I>, and of any class derived from it, gives a T& to the const object *)
Theorem C131_const_interface_refuted :
  forall d, exists f, build_extract (mkHT d true) Variable_ = Builds f /\ returns_const f = false.
Proof. exact (fun d => match d with true => ex_intro _ _ (conj eq_refl eq_refl) | false => ex_intro _ _ (conj eq_refl eq_refl) end). Qed.
Print Assumptions C131_const_interface_refuted.

Example C131_example :
  build_extract (mkHT false false) Variable_ = Builds extract_160 /\
  build_extract (mkHT false false) ConstVariable = Builds extract_156 /\ inner_call extract_156 = Some (Builds extract_145) /\
  run_extract 2 (mkHT false false) ConstVariable = Ends [extract_156; extract_145] /\
  build_extract (mkHT false true) ConstVariable = Builds extract_145 /\
  build_extract (mkHT true true) Temporary = Builds extract_145 /\
  build_extract (mkHT false true) Variable_ = Builds extract_160.
Proof. repeat split; reflexivity. Qed.
