(** MakeProofs.v -- lemmas for MakeProps.v *)
From Verif Require Import Base OverModel OverProofs MakeModel.

(** ** make_array and make_list *)
Lemma make_array_exact : forall l, make_array (Seq KVector l) = Made (Seq KArray l) /\ make_array (Seq KArray l) = Made (Seq KArray l).
Proof. intros l. split; reflexivity. Qed.
Lemma make_array_one_element : forall k l, k <> KVector -> k <> KArray -> make_array (Seq k l) = Made (Seq KArray [Seq k l]).
Proof. intros k l H1 H2. destruct k; try contradiction; reflexivity. Qed.
Lemma make_list_exact : forall l, make_list (Seq KVector l) = Made (Seq KList l) /\ make_list (Seq KSet l) = Made (Seq KList l).
Proof. intros l. split; reflexivity. Qed.
Lemma make_list_one_element : forall k l, k <> KVector -> k <> KSet -> k <> KArray -> make_list (Seq k l) = Made (Seq KList [Seq k l]).
Proof. intros k l H1 H2 H3. destruct k; try contradiction; reflexivity. Qed.
Lemma make_list_array : forall l, make_list (Seq KArray l) = NoCompile.
Proof. reflexivity. Qed.
Lemma make_value : forall z, make_array (Num z) = Made (Seq KArray [Num z]) /\ make_list (Num z) = Made (Seq KList [Num z]).
Proof. intros z. split; reflexivity. Qed.

(** ** insert *)
Section Insert.
  Context (conv : ty -> ty -> bool) {V : Type} (cast : ty -> ty -> V -> V).
  Lemma same_type : forall a, ty_eqb a a = true.
  Proof. destruct a; simpl; try reflexivity. apply Nat.eqb_refl. Qed.
  Lemma same_type_inv : forall a b, ty_eqb a b = true -> a = b.
  Proof. intros a b; destruct a, b; simpl; intros H; try discriminate; try reflexivity. apply Nat.eqb_eq in H. now subst. Qed.
  Lemma implicit_identity : forall A K, implicit conv A K = Some Identity -> A = K.
  Proof.
    intros A K. unfold implicit. destruct (ty_eqb A K) eqn:E; [intros _; exact (same_type_inv _ _ E)|].
    destruct (is_class A || is_class K); [destruct (conv A K); discriminate|]. destruct (promotes A K); discriminate.
  Qed.
  Lemma implicit_self : forall A, implicit conv A A = Some Identity.
  Proof. intros A. unfold implicit. now rewrite same_type. Qed.

  Lemma insert_two_converts : forall K T A B k v,
    implicit conv A K <> None -> implicit conv B T <> None -> A <> B \/ (A = K /\ B = T) ->
    insert_two conv cast K T A B k v = Inserted (cast A K k) (cast B T v).
  Proof.
    intros K T A B k v HA HB H. unfold insert_two.
    destruct (ty_eqb A B) eqn:E.
    - apply same_type_inv in E. subst B. destruct H as [H | [-> ->]]; [congruence|].
      rewrite !implicit_self. reflexivity.
    - destruct (implicit conv A K) as [r1|]; [|congruence]. destruct (implicit conv B T) as [r2|]; [|congruence]. reflexivity.
  Qed.
  Lemma insert_two_same : forall K T A k v,
    ~ (A = K /\ A = T) -> insert_two conv cast K T A A k v = InsertFails.
  Proof.
    intros K T A k v H. unfold insert_two. rewrite same_type.
    destruct (implicit conv A K) as [r1|] eqn:E1; [|reflexivity].
    destruct (implicit conv A T) as [r2|] eqn:E2; [|destruct r1; reflexivity].
    destruct r1, r2; try reflexivity.
    destruct H. split; apply implicit_identity; assumption.
  Qed.
  Lemma insert_braces_fails : forall K T A B k v, insert_braces conv cast K T A B k v = InsertFails.
  Proof.
    intros. unfold insert_braces, pair_rank.
    destruct (implicit conv A K); [|reflexivity]. destruct (implicit conv B T); reflexivity.
  Qed.
End Insert.

(** ** apply *)
Lemma apply_const : forall (A B : Type) (f : A -> B) q l, apply_call f q ConstObject l = Some (map f l).
Proof. intros A B f q l. destruct q; reflexivity. Qed.
Lemma apply_qualified : forall (A B : Type) (f : A -> B) c l, apply_call f true c l = Some (map f l).
Proof. intros A B f c l. destruct c; reflexivity. Qed.
Lemma apply_object : forall (A B : Type) (f : A -> B) c l, c <> ConstObject -> apply_call f false c l = None.
Proof. intros A B f c l H. destruct c; [congruence | reflexivity | reflexivity]. Qed.
