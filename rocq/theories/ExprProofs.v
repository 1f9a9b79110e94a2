(** ExprProofs.v -- MacroModel.eval gives expressions their values. *)
From Verif Require Import Base StreamModel MacroModel ExprSpec.
From Coq Require Import String.
Open Scope list_scope.
Open Scope Z_scope.

Lemma find_first x (f1 : frame) z f2 : (forall y c, In (y, c) f1 -> y <> x) -> find_in x (f1 ++ (x, CVal z) :: f2) = Some (CVal z).
Proof.
  induction f1 as [|[y c] f1 IH]; intros H; cbn.
  - now rewrite String.eqb_refl.
  - destruct (String.eqb x y) eqn:E; [apply String.eqb_eq in E; exfalso; exact (H y c (or_introl eq_refl) (eq_sym E))|].
    apply IH. intros y' c' Hin. exact (H y' c' (or_intror Hin)).
Qed.
Lemma find_none x (f : frame) : (forall y c, In (y, c) f -> y <> x) -> find_in x f = None.
Proof.
  induction f as [|[y c] f IH]; intros H; cbn; [reflexivity|].
  destruct (String.eqb x y) eqn:E; [apply String.eqb_eq in E; exfalso; exact (H y c (or_introl eq_refl) (eq_sym E))|].
  apply IH. intros y' c' Hin. exact (H y' c' (or_intror Hin)).
Qed.
Lemma read_holds {W} (s : st W) x z : holds s x z -> read_var x s = Norm z s.
Proof.
  intros (fs1 & f1 & f2 & f & fs2 & E & Ef & H1 & H2). unfold read_var. assert (lookup x (s_frames s) = Some (CVal z)) as ->; [|reflexivity].
  rewrite E, Ef. clear E. induction fs1 as [|g fs1 IH]; cbn.
  - now rewrite find_first.
  - rewrite find_none; [|intros y c; apply H1; left; reflexivity]. apply IH. intros g' y c Hg. apply H1. right. exact Hg.
Qed.
Lemma compare_relation c a b : compare_vals c a b = true <-> relation c a b.
Proof. destruct c; cbn; rewrite ?negb_true_iff, ?Z.eqb_eq, ?Z.eqb_neq, ?Z.ltb_lt, ?Z.leb_le; lia. Qed.
Lemma truth_true z : z <> 0 -> truth z = true.
Proof. intros H. unfold truth. apply Z.eqb_neq in H. now rewrite H. Qed.
Lemma both_norm {W A} ltr (s : st W) m1 m2 (k : Z -> Z -> st W -> outc (st W) A) a b : m1 s = Norm a s -> m2 s = Norm b s -> both ltr m1 m2 k s = k a b s.
Proof. intros H1 H2. unfold both. destruct ltr; rewrite ?H1, ?H2; cbn; rewrite ?H1, ?H2; reflexivity. Qed.
Lemma means_eval {W} (call : nat -> list Z -> W -> callres W) ltr (s : st W) e z : means (holds s) e z -> eval call ltr e s = Norm z s.
Proof.
  induction 1; cbn [eval]; rewrite ?IHmeans; cbn [obind]; rewrite ?truth_true by assumption; try reflexivity.
  - now apply read_holds.
  - rewrite IHmeans1. cbn [obind]. rewrite truth_true by assumption. rewrite IHmeans2. cbn [obind]. rewrite truth_true by assumption. reflexivity.
  - rewrite IHmeans1. cbn [obind]. destruct (truth a) eqn:E; [rewrite IHmeans2; reflexivity|reflexivity].
  - rewrite (both_norm _ _ _ _ _ _ _ IHmeans1 IHmeans2). apply compare_relation in H1. now rewrite H1.
  - rewrite (both_norm _ _ _ _ _ _ _ IHmeans1 IHmeans2). destruct (compare_vals c a b) eqn:E; [apply compare_relation in E; contradiction|reflexivity].
  - now rewrite (both_norm _ _ _ _ _ _ _ IHmeans1 IHmeans2).
  - rewrite Z.abs_eq by assumption. reflexivity.
  - rewrite Z.abs_neq by lia. reflexivity.
Qed.
Lemma find_split x (f : frame) c : find_in x f = Some c -> exists f1 f2, f = f1 ++ (x, c) :: f2 /\ forall y d, In (y, d) f1 -> y <> x.
Proof.
  induction f as [|[y d] f IH]; cbn; [discriminate|]. destruct (String.eqb x y) eqn:E.
  - intros [= ->]. apply String.eqb_eq in E as <-. exists [], f. split; [reflexivity|]. intros ? ? [].
  - intros H. destruct (IH H) as (f1 & f2 & -> & H1). exists ((y, d) :: f1), f2. split; [reflexivity|]. apply String.eqb_neq in E.
    intros y' d' [[= <- <-]|Hin]; [congruence|eauto].
Qed.
Lemma find_none_inv x (f : frame) : find_in x f = None -> forall y d, In (y, d) f -> y <> x.
Proof.
  induction f as [|[y d] f IH]; cbn; [intros _ ? ? []|]. destruct (String.eqb x y) eqn:E; [discriminate|]. apply String.eqb_neq in E.
  intros H y' d' [[= <- <-]|Hin]; [congruence|eauto].
Qed.
Lemma lookup_holds {W} (s : st W) x z : lookup x (s_frames s) = Some (CVal z) -> holds s x z.
Proof.
  unfold holds. generalize (s_frames s). induction l as [|f l IH]; cbn; [discriminate|]. destruct (find_in x f) as [c|] eqn:E.
  - intros [= ->]. apply find_split in E as (f1 & f2 & E & H). exists [], f1, f2, f, l. repeat split; [exact E|intros ? ? ? []|exact H].
  - intros H. destruct (IH H) as (fs1 & f1 & f2 & f' & fs2 & -> & E' & H1 & H2). exists (f :: fs1), f1, f2, f', fs2. repeat split; [exact E'| |exact H2].
    intros g y c [<-|Hg]; [exact (find_none_inv x f E y c)|exact (H1 g y c Hg)].
Qed.
Lemma find_in_In x (f : frame) c : find_in x f = Some c -> In (x, c) f.
Proof. intros H. apply find_split in H as (f1 & f2 & -> & _). apply in_or_app. right. left. reflexivity. Qed.
Lemma lookup_in x fs c : lookup x fs = Some c -> exists f, In f fs /\ In (x, c) f.
Proof.
  induction fs as [|f fs IH]; cbn; [discriminate|]. destruct (find_in x f) eqn:E.
  - intros [= ->]. exists f. split; [now left|]. now apply find_in_In.
  - intros H. destruct (IH H) as (g & Hg & Hx). eauto.
Qed.
(** conversely, in states without static variables *)
Lemma eval_means {W} (call : nat -> list Z -> W -> callres W) ltr (s : st W) e : effectless e -> no_statics s ->
  forall z s', eval call ltr e s = Norm z s' -> s' = s /\ means (holds s) e z.
Proof.
  intros He Hs. induction e; cbn in He; try contradiction; cbn [eval]; intros z' s' H.
  - injection H as <- <-. split; [reflexivity|constructor].
  - unfold read_var in H. destruct (lookup x (s_frames s)) as [c|] eqn:E; [|discriminate]. destruct c; try discriminate.
    + injection H as <- <-. split; [reflexivity|]. constructor. now apply lookup_holds.
    + exfalso. destruct (lookup_in _ _ _ E) as (f & Hf & Hx). exact (Hs _ _ _ Hf Hx).
  - destruct (eval call ltr e s) as [a s1| | |] eqn:E; cbn in H; try discriminate. destruct (IHe He _ _ eq_refl) as [-> M]. injection H as <- <-.
    split; [reflexivity|]. unfold truth. destruct (Z.eqb_spec a 0); cbn; [subst; now constructor|econstructor; eassumption].
  - destruct (eval call ltr e s) as [a s1| | |] eqn:E; cbn in H; try discriminate. destruct (IHe He _ _ eq_refl) as [-> M]. injection H as <- <-.
    split; [reflexivity|]. unfold truth. destruct (Z.eqb_spec a 0); cbn; [subst; now constructor|econstructor; eassumption].
  - destruct He as [He1 He2]. destruct (eval call ltr e1 s) as [a s1| | |] eqn:E1; cbn in H; try discriminate. destruct (IHe1 He1 _ _ eq_refl) as [-> M1].
    unfold truth in H at 1. destruct (Z.eqb_spec a 0); cbn [negb] in H.
    + injection H as <- <-. subst. split; [reflexivity|now apply M_and_first].
    + destruct (eval call ltr e2 s) as [b s2| | |] eqn:E2; cbn in H; try discriminate. destruct (IHe2 He2 _ _ eq_refl) as [-> M2]. injection H as <- <-.
      split; [reflexivity|]. unfold truth. destruct (Z.eqb_spec b 0); cbn; [subst; eapply M_and_second; eassumption|eapply M_and_true; eassumption].
  - destruct He as [He1 He2].
    assert (exists a b, eval call ltr e1 s = Norm a s /\ eval call ltr e2 s = Norm b s) as (a & b & A & B).
    { unfold both in H. destruct ltr.
      - destruct (eval call true e1 s) as [a s1| | |] eqn:E1; cbn in H; try discriminate. destruct (IHe1 He1 _ _ eq_refl) as [-> _].
        destruct (eval call true e2 s) as [b s2| | |] eqn:E2; cbn in H; try discriminate. destruct (IHe2 He2 _ _ eq_refl) as [-> _]. eauto.
      - destruct (eval call false e2 s) as [b s2| | |] eqn:E2; cbn in H; try discriminate. destruct (IHe2 He2 _ _ eq_refl) as [-> _].
        destruct (eval call false e1 s) as [a s1| | |] eqn:E1; cbn in H; try discriminate. destruct (IHe1 He1 _ _ eq_refl) as [-> _]. eauto. }
    rewrite (both_norm _ _ _ _ _ _ _ A B) in H. injection H as <- <-. destruct (IHe1 He1 _ _ A) as [_ M1]. destruct (IHe2 He2 _ _ B) as [_ M2].
    split; [reflexivity|]. destruct (compare_vals c a b) eqn:E; cbn.
    + eapply M_cmp_true; [exact M1|exact M2|now apply compare_relation].
    + eapply M_cmp_false; [exact M1|exact M2|]. intros R. apply compare_relation in R. congruence.
  - destruct He as [He1 He2].
    assert (exists a b, eval call ltr e1 s = Norm a s /\ eval call ltr e2 s = Norm b s) as (a & b & A & B).
    { unfold both in H. destruct ltr.
      - destruct (eval call true e1 s) as [a s1| | |] eqn:E1; cbn in H; try discriminate. destruct (IHe1 He1 _ _ eq_refl) as [-> _].
        destruct (eval call true e2 s) as [b s2| | |] eqn:E2; cbn in H; try discriminate. destruct (IHe2 He2 _ _ eq_refl) as [-> _]. eauto.
      - destruct (eval call false e2 s) as [b s2| | |] eqn:E2; cbn in H; try discriminate. destruct (IHe2 He2 _ _ eq_refl) as [-> _].
        destruct (eval call false e1 s) as [a s1| | |] eqn:E1; cbn in H; try discriminate. destruct (IHe1 He1 _ _ eq_refl) as [-> _]. eauto. }
    rewrite (both_norm _ _ _ _ _ _ _ A B) in H. injection H as <- <-. destruct (IHe1 He1 _ _ A) as [_ M1]. destruct (IHe2 He2 _ _ B) as [_ M2].
    split; [reflexivity|]. now apply M_sub.
  - destruct (eval call ltr e s) as [a s1| | |] eqn:E; cbn in H; try discriminate. destruct (IHe He _ _ eq_refl) as [-> M]. injection H as <- <-.
    split; [reflexivity|]. destruct (Z.abs_spec a) as [[P ->]|[P ->]]; [now apply M_abs_pos|now apply M_abs_neg].
Qed.
