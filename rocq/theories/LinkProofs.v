(** LinkProofs.v -- lemmas for C162. *)
From Verif Require Import Base OverModel LinkModel LinkSpec.

Lemma is_class_false : forall t : ty, is_class t = false <-> arithmetic t.
Proof.
  intros t. split; intros H.
  - intros n ->. discriminate H.
  - destruct t; try reflexivity. exfalso. exact (H n eq_refl).
Qed.
Lemma ty_eqb_refl : forall t : ty, ty_eqb t t = true.
Proof. destruct t; try reflexivity. apply Nat.eqb_refl. Qed.
Lemma ty_eqb_eq : forall a b : ty, ty_eqb a b = true <-> a = b.
Proof.
  intros a b. split; [| intros ->; apply ty_eqb_refl].
  destruct a, b; intros H; try discriminate H; try reflexivity.
  apply Nat.eqb_eq in H. now subst.
Qed.

Section P.
  Context (conv : ty -> ty -> bool) {V : Type} (cast : ty -> ty -> V -> V).

  Lemma class_or : forall X T : ty, is_class X || is_class T = true <-> ~ (arithmetic X /\ arithmetic T).
  Proof.
    intros X T. rewrite <- !is_class_false. destruct (is_class X), (is_class T); cbn; split; intros H; try reflexivity; try discriminate H.
    - intros [A _]; discriminate A.
    - intros [A _]; discriminate A.
    - intros [_ A]; discriminate A.
    - exfalso. apply H. split; reflexivity.
  Qed.
  Lemma implicit_user : forall X T : ty, implicit conv X T = Some UserDefined <-> only_declared conv X T.
  Proof.
    intros X T. unfold implicit, only_declared. destruct (ty_eqb X T) eqn:E.
    - apply ty_eqb_eq in E. split; [discriminate | intros [N _]; contradiction].
    - assert (N : X <> T) by (intros ->; rewrite ty_eqb_refl in E; discriminate E).
      destruct (is_class X || is_class T) eqn:C.
      + apply class_or in C. destruct (conv X T) eqn:D; split; try discriminate; intros H.
        * auto.
        * reflexivity.
        * destruct H as (_ & _ & H). discriminate H.
      + split; [destruct (promotes X T); discriminate |]. intros (_ & H & _). apply class_or in H. rewrite H in C. discriminate C.
  Qed.
  Lemma implicit_some : forall X T : ty, implicit conv X T <> None <-> converts conv X T.
  Proof.
    intros X T. unfold implicit. destruct (ty_eqb X T) eqn:E.
    - apply ty_eqb_eq in E. subst. split; [intros _; constructor | discriminate].
    - destruct (is_class X || is_class T) eqn:C.
      + pose proof C as C'. apply class_or in C. destruct (conv X T) eqn:D; split; intros H; try discriminate.
        * apply C_declared; assumption.
        * contradiction H; reflexivity.
        * exfalso. inversion H; subst; [rewrite ty_eqb_refl in E; discriminate E | apply C; split; assumption | congruence].
      + split; [intros _ | destruct (promotes X T); discriminate].
        assert (H : arithmetic X /\ arithmetic T) by (rewrite <- !is_class_false; destruct (is_class X), (is_class T); auto; discriminate C).
        apply C_arithmetic; tauto.
  Qed.
  Lemma standard_uint : forall X : ty, arithmetic X -> standard conv X TUInt <> None.
  Proof.
    intros X A. apply is_class_false in A. unfold standard, implicit. rewrite A. cbn [is_class orb].
    destruct (ty_eqb X TUInt); [discriminate |]. destruct (promotes X TUInt); discriminate.
  Qed.
  Lemma standard_class : forall n : nat, standard conv (TClass n) TUInt = None.
  Proof. intros n. unfold standard, implicit. cbn. destruct (conv (TClass n) TUInt); reflexivity. Qed.
  Lemma arithmetic_dec : forall X : ty, arithmetic X \/ exists n, X = TClass n.
  Proof. intros X. destruct X; try (left; intros m; discriminate). right. eexists. reflexivity. Qed.

  Lemma extended_app : forall added before : list V, extended added before (before ++ added).
  Proof.
    intros a b. repeat split.
    - apply app_length.
    - intros i H. apply nth_error_app1. exact H.
    - intros i. rewrite nth_error_app2 by lia. f_equal. lia.
  Qed.
  Lemma nth_error_ext : forall l m : list V, (forall i, nth_error l i = nth_error m i) -> l = m.
  Proof.
    induction l as [| x l IH]; intros [| y m] H.
    - reflexivity.
    - specialize (H 0). discriminate H.
    - specialize (H 0). discriminate H.
    - pose proof (H 0) as H0. cbn in H0. injection H0 as ->. f_equal. apply IH. intros i. exact (H (S i)).
  Qed.
  Lemma extended_only : forall added before after : list V, extended added before after -> after = before ++ added.
  Proof.
    intros a b c (_ & H1 & H2). apply nth_error_ext. intros i. destruct (Nat.lt_ge_cases i (length b)) as [L | L].
    - rewrite nth_error_app1 by exact L. apply H1. exact L.
    - rewrite nth_error_app2 by exact L. rewrite <- H2. f_equal. lia.
  Qed.

  (** ** List *)
  Lemma list_value : forall (T X : ty) (v : V) (l after : list V),
    list_append conv cast T (Value X) (Single v) l = Some after <-> converts conv X T /\ extended [cast X T v] l after.
  Proof.
    intros T X v l after. rewrite <- implicit_some. unfold list_append. cbn [to_element to_vector].
    destruct (implicit conv X T) as [r |]; cbn.
    - split.
      + intros H. injection H as <-. split; [discriminate | apply extended_app].
      + intros [_ H]. apply extended_only in H. now subst.
    - split; [discriminate | intros [H _]; now contradiction H].
  Qed.
  Lemma list_sequence : forall (T : ty) (c : class) (U : ty) (vs l after : list V),
    (list_append conv cast T (Sequence c U) (Several vs) l = Some after <-> (c = StdVector \/ c = HList) /\ U = T /\ extended vs l after) /\
    list_concatenate cast T (Sequence c U) (Several vs) l = list_append conv cast T (Sequence c U) (Several vs) l.
  Proof.
    intros T c U vs l after. unfold list_append, list_concatenate.
    destruct c; cbn [to_element to_vector]; destruct (ty_eqb U T) eqn:E; cbn; rewrite ?E; split; try reflexivity; split;
      try discriminate; try (intros ([H | H] & _); discriminate H);
      try (intros (_ & -> & _); rewrite ty_eqb_refl in E; discriminate E);
      try (intros H; injection H as <-; apply ty_eqb_eq in E; split; [auto | split; [exact E | apply extended_app]]);
      try (intros (_ & _ & H); apply extended_only in H; now subst).
  Qed.

  (** ** LinkedList *)
  Lemma linked_value : forall (T X : ty) (v : V) (l after : list V),
    linked_append conv cast T (Value X) (Single v) l = Some after <->
    converts conv X T /\ ~ (arithmetic X /\ only_declared conv X T) /\ extended [cast X T v] l after.
  Proof.
    intros T X v l after. rewrite <- implicit_some. unfold linked_append. cbn [to_element to_linked].
    destruct (arithmetic_dec X) as [A | [n ->]].
    - pose proof (standard_uint X A) as S. destruct (standard conv X TUInt) as [s |]; [| contradiction S; reflexivity].
      destruct (implicit conv X T) as [r |] eqn:I; cbn.
      + destruct r; cbn.
        1-3: (split; [intros H; injection H as <-; split; [discriminate | split; [intros [_ D]; apply implicit_user in D; congruence | apply extended_app]]
                     | intros (_ & _ & H); apply extended_only in H; now subst]).
        split; [discriminate |]. intros (_ & H & _). exfalso. apply H. split; [exact A | apply implicit_user; exact I].
      + split; [discriminate | intros [H _]; now contradiction H].
    - rewrite standard_class. destruct (implicit conv (TClass n) T) as [r |] eqn:I; cbn.
      + split.
        * intros H; injection H as <-. split; [discriminate |]. split; [intros [D _]; exact (D n eq_refl) | apply extended_app].
        * intros (_ & _ & H). apply extended_only in H. now subst.
      + split; [discriminate | intros [H _]; now contradiction H].
  Qed.
  Lemma linked_declared : forall (T X : ty) (v : V) (l : list V),
    arithmetic X -> only_declared conv X T ->
    linked_append conv cast T (Value X) (Single v) l = None /\ list_append conv cast T (Value X) (Single v) l = Some (l ++ [cast X T v]).
  Proof.
    intros T X v l A D. split.
    - destruct (linked_append conv cast T (Value X) (Single v) l) as [after |] eqn:E; [| reflexivity].
      apply linked_value in E. destruct E as (_ & N & _). exfalso. apply N. split; assumption.
    - apply list_value. split; [| apply extended_app]. apply C_declared; apply D.
  Qed.
  Lemma linked_sequence : forall (T : ty) (c : class) (U : ty) (vs l : list V),
    linked_append conv cast T (Sequence c U) (Several vs) l = None.
  Proof.
    intros T c U vs l. unfold linked_append. cbn [to_element].
    destruct (to_linked conv T (Sequence c U)) as [r |]; reflexivity.
  Qed.
  Lemma linked_concatenation : forall (T : ty) (a : argument) (x : content V) (l : list V), linked_concatenate conv cast T a x l = None.
  Proof. intros T a x l. unfold linked_concatenate. destruct (to_linked conv T a); reflexivity. Qed.
End P.
