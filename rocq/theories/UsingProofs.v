(** UsingProofs.v -- lemmas for UsingProps.v *)
From Verif Require Import Base OverModel UsingModel.

Section Using.
  Context {B M X : Type} (dflt : M)
          (base_from : X -> cat -> option B) (base_from_all : list (X * cat) -> option B)
          (converts from_base : X -> bool).
  Let define' := define dflt base_from converts from_base.
  Let define_implicit' := define_implicit dflt base_from converts from_base.

  Lemma define_other : forall x c,
    define' (Other x) c = option_map (fun b => mkObj b dflt) (base_from x c).
  Proof.
    intros x c. unfold define', define, chosen, beats, ctor_rank. simpl.
    destruct (converts x) eqn:E1, (from_base x) eqn:E2, c; simpl; rewrite ?E1, ?E2; reflexivity.
  Qed.
  Lemma implicit_other : forall x c,
    define_implicit' (Other x) c = option_map (fun b => mkObj b dflt) (base_from x c).
  Proof.
    intros x c. unfold define_implicit', define_implicit, chosen, beats, ctor_rank. simpl.
    destruct (converts x) eqn:E1, c; simpl; rewrite ?E1; reflexivity.
  Qed.
  Lemma define_copy : forall o c, c = ConstLvalue \/ c = Rvalue ->
    define' (OfClass o) c = Some o /\ define_implicit' (OfClass o) c = Some o.
  Proof. intros o c [-> | ->]; split; reflexivity. Qed.
  Lemma define_copy_loses : forall o c, c = Lvalue \/ c = ConstRvalue ->
    define' (OfClass o) c = Some (mkObj (o_base o) dflt) /\ define_implicit' (OfClass o) c = Some (mkObj (o_base o) dflt).
  Proof. intros o c [-> | ->]; split; reflexivity. Qed.
  Lemma define_derived_loses : forall o c,
    define' (OfDerived o) c = Some (mkObj (o_base o) dflt) /\ define_implicit' (OfDerived o) c = Some (mkObj (o_base o) dflt).
  Proof. intros o c. destruct c; split; reflexivity. Qed.
  Lemma define_many : forall xs,
    define_all dflt base_from_all xs = option_map (fun b => mkObj b dflt) (base_from_all xs).
  Proof. reflexivity. Qed.
  Lemma implicit_of_explicit : forall x c b, base_from x c = Some b ->
    define_implicit' (Other x) c = Some (mkObj b dflt).
  Proof. intros x c b H. rewrite implicit_other, H. reflexivity. Qed.
End Using.
