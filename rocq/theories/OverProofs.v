(** OverProofs.v -- lemmas for OverProps.v. *)
From Verif Require Import Base OverModel.

Lemma ty_eqb_eq a b : ty_eqb a b = true <-> a = b.
Proof.
  destruct a, b; simpl; split; intros H; try discriminate; try reflexivity.
  - apply Nat.eqb_eq in H. congruence.
  - injection H as ->. apply Nat.eqb_refl.
Qed.
Lemma ty_eqb_refl a : ty_eqb a a = true.
Proof. apply ty_eqb_eq. reflexivity. Qed.
Lemma ty_eqb_neq a b : a <> b -> ty_eqb a b = false.
Proof. intros H. destruct (ty_eqb a b) eqn:E; auto. apply ty_eqb_eq in E. contradiction. Qed.

Section Over.
  Context (conv gen : ty -> ty -> bool).
  Context {V : Type} (cast : ty -> ty -> V -> V) (dflt : ty -> V) (count : ty -> V -> nat)
          (generated : ty -> ty -> V -> nat -> V).
  Notation implicit := (implicit conv).

  Lemma implicit_same T : implicit T T = Some Identity.
  Proof. unfold OverModel.implicit. rewrite ty_eqb_refl. reflexivity. Qed.
  Lemma implicit_arith X T : is_class X = false -> is_class T = false -> X <> T ->
    implicit X T = Some (if promotes X T then Promotion else Conversion).
  Proof. intros H1 H2 H. unfold OverModel.implicit. rewrite ty_eqb_neq, H1, H2 by auto. simpl. destruct (promotes X T); auto. Qed.
  Lemma implicit_class X T : is_class X = true \/ is_class T = true -> X <> T ->
    implicit X T = if conv X T then Some UserDefined else None.
  Proof.
    intros H1 H. unfold OverModel.implicit. rewrite ty_eqb_neq by auto.
    assert (is_class X || is_class T = true) as -> by (apply orb_true_iff; auto). reflexivity.
  Qed.

  (** ** one argument *)
  Lemma direct_same T x : T <> TSize -> list_direct conv cast dflt count T T x = Elements [cast T T x].
  Proof.
    intros H. unfold list_direct, list_candidates, standard. rewrite implicit_same. simpl.
    destruct (implicit T TSize) as [r|] eqn:E; [|reflexivity].
    destruct T; try congruence; cbn in E; try (injection E as <-); try reflexivity.
    destruct (conv (TClass n) TSize); [|discriminate]. injection E as <-. reflexivity.
  Qed.
  Lemma direct_promoted T X x : promotes X T = true -> list_direct conv cast dflt count T X x = Elements [cast X T x].
  Proof. destruct X, T; try discriminate; reflexivity. Qed.
  Lemma implicit_form T X x : implicit X T <> None ->
    list_implicit conv cast T X x = Elements [cast X T x] \/ list_implicit conv cast T X x = DoesNotCompile.
  Proof. unfold list_implicit. destruct (resolve _); auto. Qed.
  Lemma implicit_standard T X x : is_class X = false -> is_class T = false \/ X = T ->
    list_implicit conv cast T X x = Elements [cast X T x].
  Proof.
    intros H1 H2. unfold list_implicit, standard.
    destruct (ty_eqb X T) eqn:E.
    - apply ty_eqb_eq in E as ->. rewrite implicit_same. reflexivity.
    - destruct H2 as [H2|<-]; [|rewrite ty_eqb_refl in E; discriminate].
      rewrite implicit_arith; auto.
      + destruct (promotes X T); reflexivity.
      + intros <-. rewrite ty_eqb_refl in E. discriminate.
  Qed.
  Lemma implicit_same_type T x : list_implicit conv cast T T x = Elements [cast T T x].
  Proof. unfold list_implicit, standard. rewrite implicit_same. reflexivity. Qed.
  Lemma braces_form T X x : implicit X T <> None ->
    list_braces conv cast dflt count T X x = if narrows X T then DoesNotCompile else Elements [cast X T x].
  Proof. unfold list_braces. destruct (implicit X T); [auto|congruence]. Qed.

  Lemma direct_class T X x : is_class T = true -> is_class X = false ->
    list_direct conv cast dflt count T X x = Elements (repeat (dflt T) (count X x)).
  Proof.
    intros HT HX. unfold list_direct, list_candidates, standard.
    rewrite (implicit_class X T); [|auto|intros <-; congruence].
    destruct (ty_eqb X TSize) eqn:E.
    - apply ty_eqb_eq in E as ->. rewrite implicit_same. destruct (conv TSize T); reflexivity.
    - assert (HXs : X <> TSize) by (intros ->; discriminate).
      rewrite (implicit_arith X TSize); auto.
      destruct (promotes X TSize), (conv X T); reflexivity.
  Qed.
  Lemma direct_size T x : is_class T = false -> T <> TSize ->
    list_direct conv cast dflt count T TSize x = Elements (repeat (dflt T) (count TSize x)).
  Proof. intros H1 H2. destruct T; try discriminate; try congruence; reflexivity. Qed.
  Lemma direct_size_size x : list_direct conv cast dflt count TSize TSize x = DoesNotCompile.
  Proof. reflexivity. Qed.
  Lemma direct_ambiguous T X x : is_class T = false -> is_class X = false -> X <> T -> X <> TSize -> promotes X T = false ->
    list_direct conv cast dflt count T X x = DoesNotCompile.
  Proof.
    intros H1 H2 H3 H4 H5. unfold list_direct, list_candidates, standard.
    rewrite (implicit_arith X T), (implicit_arith X TSize), H5 by auto.
    assert (promotes X TSize = false) as -> by (destruct X; reflexivity). reflexivity.
  Qed.

  (** ** two arguments *)
  Lemma list_fill_copies T A X n x : implicit A TSize <> None -> implicit X T <> None ->
    list_fill conv cast count T A X n x = Elements (repeat (cast X T x) (count A n)).
  Proof.
    unfold list_fill. destruct (implicit A TSize) as [r|]; [|congruence]. destruct (implicit X T) as [r'|]; [|congruence].
    reflexivity.
  Qed.

  Lemma better_refl_first (r1 r2 : rank) : none_worse [r1; r2] [r1; r2] = true.
  Proof. destruct r1, r2; reflexivity. Qed.

  Lemma array_fill_copies T A X n x : implicit A TSize <> None -> implicit X T <> None ->
    (A <> X \/ (A = TSize /\ T = TSize)) -> (gen X T = true -> X = T) ->
    array_fill conv gen cast count generated T A X n x = Elements (repeat (cast X T x) (count A n)).
  Proof.
    intros HA HX HD HG. unfold array_fill, array_candidates.
    destruct (implicit A TSize) as [ra|] eqn:EA; [|congruence]. destruct (implicit X T) as [rx|] eqn:EX; [|congruence].
    destruct (gen X T) eqn:Eg.
    - specialize (HG eq_refl). subst X. rewrite implicit_same in EX. injection EX as <-.
      destruct (ty_eqb A T) eqn:EAX.
      + apply ty_eqb_eq in EAX. destruct HD as [HD|[-> ->]]; [congruence|].
        rewrite implicit_same in EA. injection EA as <-. reflexivity.
      + destruct ra; reflexivity.
    - destruct (ty_eqb A X) eqn:EAX.
      + apply ty_eqb_eq in EAX. destruct HD as [HD|[-> ->]]; [congruence|]. subst X.
        rewrite implicit_same in EA, EX. injection EA as <-. injection EX as <-. reflexivity.
      + reflexivity.
  Qed.
  Lemma array_fill_same T A n x : (gen A T = true -> is_class A = true) -> ~ (A = TSize /\ T = TSize) ->
    array_fill conv gen cast count generated T A A n x = DoesNotCompile.
  Proof.
    intros HG HN. unfold array_fill, array_candidates. rewrite ty_eqb_refl.
    destruct (implicit A TSize) as [ra|] eqn:EA.
    - assert (Hg : gen A T = true -> ra = UserDefined).
      { intros H. specialize (HG H). destruct A; try discriminate. cbn in EA. destruct (conv (TClass n0) TSize); congruence. }
      destruct (implicit A T) as [rx|] eqn:EX.
      + assert (Hid : ~ (ra = Identity /\ rx = Identity)).
        { intros [-> ->]. apply HN.
          assert (A = TSize).
          { unfold OverModel.implicit in EA. destruct (ty_eqb A TSize) eqn:E; [apply ty_eqb_eq in E; auto|].
            destruct (is_class A || is_class TSize); [destruct (conv A TSize); discriminate|].
            destruct (promotes A TSize); discriminate. }
          assert (A = T).
          { unfold OverModel.implicit in EX. destruct (ty_eqb A T) eqn:E; [apply ty_eqb_eq in E; auto|].
            destruct (is_class A || is_class T); [destruct (conv A T); discriminate|].
            destruct (promotes A T); discriminate. }
          subst. auto. }
        destruct (gen A T).
        * rewrite (Hg eq_refl). destruct rx; reflexivity.
        * destruct ra, rx; try reflexivity; destruct Hid; auto.
      + destruct (gen A T); [rewrite (Hg eq_refl); reflexivity|reflexivity].
    - destruct (implicit A T), (gen A T); reflexivity.
  Qed.
  Lemma array_fill_generates T A X n x : gen X T = true -> X <> T -> A <> X -> implicit A TSize <> None ->
    array_fill conv gen cast count generated T A X n x = Elements (map (generated X T x) (seq 0 (count A n))).
  Proof.
    intros HG HX HA HS. unfold array_fill, array_candidates. rewrite HG, (ty_eqb_neq A X) by auto.
    destruct (implicit A TSize) as [ra|]; [|congruence].
    destruct (implicit X T) as [rx|] eqn:EX; [|reflexivity].
    assert (rx <> Identity).
    { intros ->. unfold OverModel.implicit in EX. rewrite ty_eqb_neq in EX by auto.
      destruct (is_class X || is_class T); [destruct (conv X T); discriminate|]. destruct (promotes X T); discriminate. }
    destruct ra, rx; try reflexivity; congruence.
  Qed.

  Lemma linked_fill_copies T A n x : implicit A TSize <> None -> implicit A T <> None -> ~ (A = TUInt /\ T = TUInt) ->
    linked_fill conv cast count T A A n x = Elements (repeat (cast A T x) (count A n)).
  Proof.
    intros HA HT HN. unfold linked_fill, linked_candidates. rewrite ty_eqb_refl.
    rewrite <- (list_fill_copies T A A n x) by auto.
    assert (Hid : ~ (implicit A TUInt = Some Identity /\ implicit A T = Some Identity)).
    { assert (Hi : forall T', implicit A T' = Some Identity -> A = T').
      { intros T' E. unfold OverModel.implicit in E. destruct (ty_eqb A T') eqn:E'; [apply ty_eqb_eq in E'; auto|].
        destruct (is_class A || is_class T'); [destruct (conv A T'); discriminate|]. destruct (promotes A T'); discriminate. }
      intros [H1 H2]. apply Hi in H1, H2. subst. auto. }
    destruct (implicit A TUInt) as [r1|]; [|reflexivity]. destruct (implicit A T) as [r2|]; [|reflexivity].
    destruct r1, r2; try reflexivity; destruct Hid; auto.
  Qed.
  Lemma linked_fill_fails T A X n x : A <> X \/ (A = TUInt /\ X = TUInt /\ T = TUInt) ->
    linked_fill conv cast count T A X n x = DoesNotCompile.
  Proof.
    intros [H|(-> & -> & ->)]; [|reflexivity]. unfold linked_fill, linked_candidates. rewrite ty_eqb_neq by auto.
    destruct (implicit A TUInt) as [r1|]; [|reflexivity]. destruct (implicit X T) as [r2|]; reflexivity.
  Qed.

  Lemma make_array_one T one t : T <> TUInt -> count TUInt one = 1 ->
    make_array conv gen cast count generated T one t = Elements [cast T T t].
  Proof.
    intros HT H1. unfold make_array. rewrite array_fill_copies; auto.
    - rewrite H1. reflexivity.
    - discriminate.
    - rewrite implicit_same. discriminate.
  Qed.
  Lemma make_list_one T one t : count TUInt one = 1 -> make_list conv cast count T one t = Elements [cast T T t].
  Proof.
    intros H1. unfold make_list. rewrite list_fill_copies; [rewrite H1; reflexivity|discriminate|].
    rewrite implicit_same. discriminate.
  Qed.
  Lemma make_array_unsigned one t : (forall X T, gen X T = true -> is_class X = true) ->
    make_array conv gen cast count generated TUInt one t = DoesNotCompile.
  Proof. intros H. apply array_fill_same; [apply H|]. intros [H1 _]. discriminate. Qed.
End Over.

(** ** narrowing *)
From Verif Require Import OverSpec.
From Coq Require Import Lia.
Lemma narrows_spec X T : narrows X T = true <-> narrowing X T.
Proof.
  split.
  - destruct X, T; cbn; intro H; try discriminate H;
      try (unfold narrows in H; cbn in H; rewrite ?Bool.orb_true_r in H; discriminate H);
      try (now apply N_to_integer; [auto | discriminate]); try (now apply N_from_integer; [discriminate | auto]); try exact N_smaller;
      first [ apply (N_integer _ _ (-1)%Z); [cbn; lia | cbn; lia | discriminate]
            | apply (N_integer _ _ 2%Z); [cbn; lia | cbn; lia | discriminate]
            | apply (N_integer _ _ 128%Z); [cbn; lia | cbn; lia | discriminate]
            | apply (N_integer _ _ 2147483648%Z); [cbn; lia | cbn; lia | discriminate]
            | apply (N_integer _ _ 4294967296%Z); [cbn; lia | cbn; lia | discriminate]
            | apply (N_integer _ _ 9223372036854775808%Z); [cbn; lia | cbn; lia | discriminate] ].
  - intros [A B z V N R | A B [-> | ->] R | A B R [-> | ->] | ].
    + destruct A, B; cbn in *; try reflexivity; try contradiction; try (exfalso; apply R; reflexivity); exfalso; lia.
    + destruct B; try reflexivity; exfalso; apply R; reflexivity.
    + destruct B; try reflexivity; exfalso; apply R; reflexivity.
    + destruct A; try reflexivity; exfalso; apply R; reflexivity.
    + destruct A; try reflexivity; exfalso; apply R; reflexivity.
    + reflexivity.
Qed.

Lemma promotes_spec X T : promotes X T = true <-> promotion X T.
Proof.
  split.
  - destruct X, T; cbn; intro H; try discriminate H; try exact P_float; apply P_integer; try discriminate; intros z; cbn; lia.
  - intros [A N R V|]; [|reflexivity]. destruct A; try reflexivity; try (exfalso; apply R; reflexivity); [contradiction| | | ]; exfalso.
    + specialize (V 4294967295%Z). cbn in V. lia.
    + specialize (V 9223372036854775807%Z). cbn in V. lia.
    + specialize (V 18446744073709551615%Z). cbn in V. lia.
Qed.
