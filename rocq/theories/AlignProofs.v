(** AlignProofs.v -- lemmas for AlignProps.v *)
From Verif Require Import Base AlignModel AlignSpec.
Open Scope Z_scope.

Lemma constructed t address : e_align t <> 0 -> (forall i, (e_align t | address i)) -> forall n i, construct_from t address i n = Built.
Proof.
  intros H0 H n. induction n as [|n IH]; intros i; [reflexivity|]. cbn [construct_from].
  rewrite (proj2 (Z.mod_divide _ _ H0) (H (Z.of_nat i))). cbn. apply IH.
Qed.
Lemma align_pos t : type_ok t -> 0 < e_align t.
Proof. intros ((k & Hk & ->) & _). now apply Z.pow_pos_nonneg. Qed.
Lemma align_small t : type_ok t -> e_align t <= default_alignment -> (e_align t | default_alignment).
Proof.
  intros ((k & Hk & E) & _) H. rewrite E in *. unfold default_alignment in *. change 16 with (2 ^ 4) in *.
  apply Z.pow_le_mono_r_iff in H; [|lia|lia]. exists (2 ^ (4 - k)). rewrite <- Z.pow_add_r by lia. f_equal. lia.
Qed.
Lemma array_aligned t p n : type_ok t -> e_align t <= default_alignment -> array_new t p -> array_built t p n = Built.
Proof.
  intros T H (_ & P). pose proof (align_pos t T). apply constructed; [lia|]. intros i. unfold element_address.
  apply Z.divide_add_r; [eapply Z.divide_trans; [apply align_small; eassumption|exact P]|]. apply Z.divide_mul_r. apply T.
Qed.
Lemma cookie_aligned t b : type_ok t -> (e_align t | cookie t b).
Proof.
  intros ((k & Hk & E) & _). unfold cookie. destruct b; [|apply Z.divide_0_r]. rewrite E.
  destruct (Z.le_gt_cases 3 k) as [L|L].
  - rewrite Z.max_r; [apply Z.divide_refl|]. change 8 with (2 ^ 3). apply Z.pow_le_mono_r; lia.
  - rewrite Z.max_l by (change 8 with (2 ^ 3); apply Z.pow_le_mono_r; lia). change 8 with (2 ^ 3). exists (2 ^ (3 - k)).
    rewrite <- Z.pow_add_r by lia. f_equal. lia.
Qed.
Lemma shared_aligned t b p n : type_ok t -> shared_new t p -> shared_built t b p n = Built.
Proof.
  intros T H. pose proof (align_pos t T). apply constructed; [lia|]. intros i. unfold shared_address.
  apply Z.divide_add_r; [apply Z.divide_add_r|apply Z.divide_mul_r; apply T].
  - unfold shared_new in H. destruct (Z.leb_spec (e_align t) default_alignment) as [L|L]; destruct H as [_ H]; [|exact H].
    eapply Z.divide_trans; [apply align_small; eassumption|exact H].
  - now apply cookie_aligned.
Qed.
Lemma array_misaligned t m : type_ok t -> default_alignment < e_align t -> 0 < m ->
  let p := m * e_align t + default_alignment in array_new t p /\ (forall n, (0 < n)%nat -> array_built t p n = Misaligned 0) /\
  forall i, ~ (e_align t | element_address t p i).
Proof.
  intros T H M. cbv zeta. pose proof (align_pos t T).
  assert (D : (default_alignment | e_align t)).
  { destruct T as ((k & Hk & E) & _). rewrite E in *. unfold default_alignment in *. change 16 with (2 ^ 4) in *.
    apply Z.pow_lt_mono_r_iff in H; [|lia|lia]. exists (2 ^ (k - 4)). rewrite <- Z.pow_add_r by lia. f_equal. lia. }
  assert (X : forall i, ~ (e_align t | element_address t (m * e_align t + default_alignment) i)).
  { intros i C. unfold element_address in C. assert (C' : (e_align t | default_alignment)).
    { apply (Z.divide_add_cancel_r _ (m * e_align t + i * e_size t)).
      - apply Z.divide_add_r; [apply Z.divide_factor_r|apply Z.divide_mul_r; apply T].
      - now replace (m * e_align t + i * e_size t + default_alignment) with (m * e_align t + default_alignment + i * e_size t) by lia. }
    apply Z.divide_pos_le in C'; unfold default_alignment in *; lia. }
  split; [|split].
  - split; [unfold default_alignment; nia|]. apply Z.divide_add_r; [apply Z.divide_mul_r; exact D|apply Z.divide_refl].
  - intros [|n] Hn; [lia|]. cbn [array_built construct_from]. unfold array_built. cbn [construct_from].
    destruct (Z.eqb_spec (element_address t (m * e_align t + default_alignment) (Z.of_nat 0) mod e_align t) 0) as [E|E]; [|reflexivity].
    exfalso. apply (X (Z.of_nat 0)). apply Z.mod_divide; [lia|exact E].
  - exact X.
Qed.
