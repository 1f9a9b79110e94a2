(** WordCompareProofs.v -- lemmas for WordCompareProps.v *)
From Verif Require Import Base StreamModel WordModel WordSpec WordProofs WordCompareModel WordCompareSpec.
Open Scope nat_scope.

Fixpoint cmp (a b : word) : comparison :=
  match a, b with
  | [], [] => Eq
  | [], _ => Lt
  | _, [] => Gt
  | x :: a', y :: b' => if Bool.eqb x y then cmp a' b' else if y then Lt else Gt
  end.
Lemma three_way_cmp fuel : forall p a b, length a < fuel -> three_way_loop fuel (length p) (p ++ a) (p ++ b) = Ret (cmp a b) tt.
Proof.
  induction fuel as [|f IH]; intros p a b H; [lia|]. cbn [three_way_loop]. rewrite !app_length.
  destruct a as [|x a], b as [|y b]; cbn [length cmp].
  - rewrite Nat.add_0_r, Nat.eqb_refl. reflexivity.
  - rewrite Nat.add_0_r, Nat.eqb_refl. cbn. destruct (Nat.eqb_spec (length p) (length p + S (length b))) as [E|E]; [lia|reflexivity].
  - rewrite Nat.add_0_r, Nat.eqb_refl. destruct (Nat.eqb_spec (length p) (length p + S (length a))) as [E|E]; [lia|reflexivity].
  - destruct (Nat.eqb_spec (length p) (length p + S (length a))) as [E|_]; [lia|].
    destruct (Nat.eqb_spec (length p) (length p + S (length b))) as [E|_]; [lia|]. cbn [negb andb]. rewrite !bit_at.
    destruct (Bool.eqb_spec x y) as [->|]; [|reflexivity].
    specialize (IH (p ++ [y]) a b). rewrite app_length, <- !app_assoc in IH. cbn in IH. rewrite Nat.add_1_r in IH. apply IH. cbn in H. lia.
Qed.
Lemma three_way_ok a b : three_way a b = Ret (cmp a b) tt.
Proof. apply (three_way_cmp (S (length a)) [] a b). lia. Qed.
Lemma cmp_lt a : forall b, cmp a b = Lt <-> lex a b.
Proof.
  intros b. rewrite <- lexb_lex. revert b. induction a as [|x a IH]; intros [|y b]; cbn; try (split; (discriminate || reflexivity)).
  destruct x, y; cbn; try apply IH; split; (discriminate || reflexivity).
Qed.
Lemma cmp_gt a : forall b, cmp a b = Gt <-> lex b a.
Proof.
  intros b. rewrite <- lexb_lex. revert b. induction a as [|x a IH]; intros [|y b]; cbn; try (split; (discriminate || reflexivity)).
  destruct x, y; cbn; try apply IH; split; (discriminate || reflexivity).
Qed.
Lemma cmp_eq a : forall b, cmp a b = Eq <-> a = b.
Proof.
  induction a as [|x a IH]; intros [|y b]; cbn; try (split; (discriminate || reflexivity)).
  destruct x, y; cbn; rewrite ?IH; split; intros H; try discriminate H; try (now rewrite H); now inversion H.
Qed.
Fixpoint eqw (a b : word) : bool :=
  match a, b with [], [] => true | x :: a', y :: b' => Bool.eqb x y && eqw a' b' | _, _ => false end.
Lemma eqw_eq a : forall b, eqw a b = true <-> a = b.
Proof.
  induction a as [|x a IH]; intros [|y b]; cbn; try (split; (discriminate || reflexivity)).
  destruct x, y; cbn; rewrite ?IH; split; intros H; try discriminate H; try (now rewrite H); now inversion H.
Qed.
Lemma equal_loop_ok fuel : forall p a b, length a < fuel -> length a = length b -> equal_loop fuel (length p) (p ++ a) (p ++ b) = Ret (eqw a b) tt.
Proof.
  induction fuel as [|f IH]; intros p a b H HL; [lia|]. cbn [equal_loop]. rewrite !app_length.
  destruct a as [|x a], b as [|y b]; try discriminate HL; cbn [length eqw].
  - rewrite Nat.add_0_r, Nat.eqb_refl. reflexivity.
  - destruct (Nat.eqb_spec (length p) (length p + S (length a))) as [E|_]; [lia|]. rewrite !bit_at.
    destruct (Bool.eqb_spec x y) as [->|]; [|reflexivity].
    specialize (IH (p ++ [y]) a b). rewrite app_length, <- !app_assoc in IH. cbn in IH. rewrite Nat.add_1_r in IH. cbn in H, HL. apply IH; lia.
Qed.
Lemma vector_equal_ok a b : exists r, vector_equal a b = Ret r tt /\ (r = true <-> a = b).
Proof.
  unfold vector_equal. destruct (Nat.eqb_spec (length a) (length b)) as [E|E].
  - exists (eqw a b). split; [apply (equal_loop_ok (S (length a)) [] a b); lia|apply eqw_eq].
  - exists false. split; [reflexivity|]. split; [discriminate|]. intros ->. congruence.
Qed.
Lemma lex_cases a b : (lex a b /\ ~ lex b a /\ a <> b) \/ (lex b a /\ ~ lex a b /\ a <> b) \/ (a = b /\ ~ lex a b /\ ~ lex b a).
Proof.
  rewrite <- (cmp_lt a b), <- (cmp_gt a b), <- (cmp_eq a b).
  destruct (cmp a b); [right; right|left|right; left]; repeat split; discriminate.
Qed.
Lemma operator_ok o a b : exists r, apply_operator o a b = Ret r tt /\ (r = true <-> means o (bits a) (bits b)).
Proof.
  destruct o.
  - destruct a as [v|v], b as [w|w]; cbn [apply_operator bits means];
      [exists (lexb v w); split; [apply word_less_lexb|apply lexb_lex]|..];
      rewrite three_way_ok; (eexists; split; [reflexivity|]); rewrite <- cmp_lt; destruct (cmp v w); split; (discriminate || reflexivity).
  - cbn [apply_operator means]. rewrite three_way_ok. eexists; split; [reflexivity|]. rewrite <- cmp_gt. destruct (cmp (bits a) (bits b)); split; (discriminate || reflexivity).
  - cbn [apply_operator means]. rewrite three_way_ok. eexists; split; [reflexivity|]. rewrite <- cmp_lt, <- cmp_eq.
    destruct (cmp (bits a) (bits b)); split; intros H; auto; try discriminate H; destruct H as [H|H]; discriminate H.
  - cbn [apply_operator means]. rewrite three_way_ok. eexists; split; [reflexivity|]. rewrite <- cmp_gt, <- cmp_eq.
    destruct (cmp (bits a) (bits b)); split; intros H; auto; try discriminate H; destruct H as [H|H]; discriminate H.
  - exact (vector_equal_ok (bits a) (bits b)).
  - cbn [apply_operator means]. destruct (vector_equal_ok (bits a) (bits b)) as (r & -> & E). exists (negb r). split; [reflexivity|].
    rewrite <- E. destruct r; split; intros H; (discriminate || congruence || reflexivity).
Qed.
Lemma trichotomy a b :
  exists l e g, apply_operator OLess a b = Ret l tt /\ apply_operator OEqual a b = Ret e tt /\ apply_operator OGreater a b = Ret g tt /\
  In (l, e, g) [(true, false, false); (false, true, false); (false, false, true)] /\
  apply_operator OLess b a = Ret g tt /\ apply_operator OLessEq a b = Ret (negb g) tt /\ apply_operator OGreaterEq a b = Ret (negb l) tt /\
  apply_operator ONotEqual a b = Ret (negb e) tt.
Proof.
  destruct (operator_ok OLess a b) as (l & El & Hl), (operator_ok OEqual a b) as (e & Ee & He), (operator_ok OGreater a b) as (g & Eg & Hg),
    (operator_ok OLess b a) as (l' & El' & Hl'), (operator_ok OLessEq a b) as (le & Ele & Hle), (operator_ok OGreaterEq a b) as (ge & Ege & Hge),
    (operator_ok ONotEqual a b) as (n & En & Hn).
  exists l, e, g. rewrite El, Ee, Eg, El', Ele, Ege, En. cbn [means] in *.
  destruct (lex_cases (bits a) (bits b)) as [(H1 & H2 & H3)|[(H1 & H2 & H3)|(H1 & H2 & H3)]];
    destruct l, e, g, l', le, ge, n; try (exfalso; intuition congruence); cbn; tauto.
Qed.
