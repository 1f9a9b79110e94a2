(** VisitProofs.v -- lemmas for VisitProps.v. *)
From Verif Require Import Base VariantModel VariantProofs VisitModel.

Section Visit.
  Context {T S R : Type} (code_of : T -> Z).

  Lemma visit_plain (k : visitor_class T S R) alts t : NoDup (map code_of alts) -> length alts <= 16 -> In t alts ->
    accept_visitor code_of k alts (variant_of code_of t) = call k false t.
  Proof.
    intros H1 H2 H3. unfold accept_visitor, call.
    destruct (op_plain k) as [f|]; [|destruct (op_const k) as [g|]].
    - apply (proj1 (accept_alternative code_of (call_plain f) alts t H1 H2 H3)).
    - apply (proj1 (accept_alternative code_of (call_const g) alts t H1 H2 H3)).
    - destruct alts; [destruct H3|reflexivity].
  Qed.
  Lemma visit_const_only (k : visitor_class T S R) alts t : NoDup (map code_of alts) -> length alts <= 16 -> In t alts ->
    op_plain k = None ->
    accept_visitor code_of k alts (variant_of code_of t) = call k true t /\
    forall m v r, accept_visitor code_of k alts (variant_of code_of t) = Some m -> m v = r -> exists a, r = Ret a v.
  Proof.
    intros H1 H2 H3 H4. rewrite visit_plain by auto. unfold call. rewrite H4. split; [reflexivity|].
    destruct (op_const k) as [g|]; [|discriminate]. intros m v r [= <-] <-. unfold call_const. eauto.
  Qed.
  Lemma visit_silent (k : visitor_class T S R) alts t f : NoDup (map code_of alts) -> length alts <= 16 -> In t alts ->
    op_plain k = Some f -> (forall s, snd (f t s) = None) ->
    exists m, accept_visitor code_of k alts (variant_of code_of t) = Some m /\ forall v, m v = Ret (fst (f t (vis_state v))) v.
  Proof.
    intros H1 H2 H3 H4 H5. rewrite visit_plain by auto. unfold call. rewrite H4. eexists. split; [reflexivity|].
    intros v. unfold call_plain. specialize (H5 (vis_state v)). destruct (f t (vis_state v)) as [r [s|]]; [discriminate|reflexivity].
  Qed.
  Lemma visit_overloaded (k : visitor_class T S R) alts t f g : NoDup (map code_of alts) -> length alts <= 16 -> In t alts ->
    op_plain k = Some f -> op_const k = Some g ->
    call k true t = Some (call_const g t) /\
    accept_visitor code_of k alts (variant_of code_of t) = Some (call_plain f t).
  Proof.
    intros H1 H2 H3 H4 H5. rewrite visit_plain by auto. unfold call. rewrite H4, H5. auto.
  Qed.
  Lemma visit_const_object (k : visitor_class T S R) alts t f s r s' : NoDup (map code_of alts) -> length alts <= 16 -> In t alts ->
    op_plain k = Some f -> f t s = (r, Some s') ->
    exists m, accept_visitor code_of k alts (variant_of code_of t) = Some m /\ m (mkVisitor true s) = Ub UbConstWrite /\
              m (mkVisitor false s) = Ret r (mkVisitor false s').
  Proof.
    intros H1 H2 H3 H4 H5. rewrite visit_plain by auto. unfold call. rewrite H4. eexists. split; [reflexivity|].
    unfold call_plain. simpl. rewrite H5. auto.
  Qed.
End Visit.
