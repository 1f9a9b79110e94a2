(** RevProofs.v -- lemmas for RevProps.v. *)
From Verif Require Import Base IterModel IterSpec AlgoModel AlgoSpec AlgoProofs RevModel.

Lemma all_compile e : In e required_random_access -> rev_compiles RandomAccess true e = true.
Proof. simpl. intros H. repeat (destruct H as [<-|H]; [reflexivity|]). destruct H. Qed.
Lemma forward_none b : rev_compiles Forward b (OpStar, [It]) = false /\ rev_compiles Forward b (OpInc, [It]) = false.
Proof. split; reflexivity. Qed.

Section Rev.
  Context {I Ref : Type} (c : core I Ref) (lo hi : Z) (pos : I -> Z) (HL : lawful c lo hi pos).
  Context (elem : Z -> Ref) (Helem : forall a, c_dereference c a = elem (pos a)).

  Lemma neg_ok n (S : Type) (s : S) : (- 2 ^ 63 < n)%Z -> neg_diff n S s = Ret (- n)%Z s.
  Proof. intros H. unfold neg_diff. destruct (Z.eqb_spec n (- 2 ^ 63)); [lia|reflexivity]. Qed.
  Lemma fits n a : (lo <= pos a - n <= hi)%Z -> (- 2 ^ 63 < n < 2 ^ 63)%Z.
  Proof. intros H. pose proof (law_in _ _ _ _ HL a). pose proof (law_fits _ _ _ _ HL). lia. Qed.
  Lemma adv a n : (lo <= pos a + n <= hi)%Z -> pos (c_advance c a n) = (pos a + n)%Z.
  Proof. apply (law_advance _ _ _ _ HL). Qed.

  Lemma star_ok a : (lo < pos a)%Z -> r_star c a = Ret (elem (pos a - 1)%Z) tt.
  Proof.
    intros H. pose proof (law_in _ _ _ _ HL a). unfold r_star, f_decr, getS, putS, bind. cbn. unfold f_star. rewrite Helem, adv by lia.
    reflexivity.
  Qed.
  Lemma incr_ok a : (lo < pos a)%Z -> exists a', r_incr c a = Ret tt a' /\ r_post_incr c a = Ret a a' /\ pos a' = (pos a - 1)%Z.
  Proof.
    intros H. pose proof (law_in _ _ _ _ HL a). eexists. split; [reflexivity|]. split; [reflexivity|]. rewrite adv by lia. lia.
  Qed.
  Lemma decr_ok a : (pos a < hi)%Z -> exists a', r_decr c a = Ret tt a' /\ r_post_decr c a = Ret a a' /\ pos a' = (pos a + 1)%Z.
  Proof.
    intros H. pose proof (law_in _ _ _ _ HL a). eexists. split; [reflexivity|]. split; [reflexivity|]. rewrite adv by lia. lia.
  Qed.
  Lemma plus_ok a n : (lo <= pos a - n <= hi)%Z ->
    exists a', r_plus c a n tt = Ret a' tt /\ r_plus_assign c n a = Ret tt a' /\ pos a' = (pos a - n)%Z.
  Proof.
    intros H. pose proof (fits n a H). exists (c_advance c a (- n)). unfold r_plus, r_plus_assign, f_minus, f_minus_assign, bind.
    rewrite !neg_ok by lia. split; [reflexivity|]. split; [reflexivity|]. rewrite adv by lia. lia.
  Qed.
  Lemma minus_ok a n : (lo <= pos a + n <= hi)%Z ->
    exists a', r_minus c a n tt = Ret a' tt /\ r_minus_assign c n a = Ret tt a' /\ pos a' = (pos a + n)%Z.
  Proof.
    intros H. exists (c_advance c a n). split; [reflexivity|]. split; [reflexivity|]. rewrite adv by lia. lia.
  Qed.
  Lemma index_ok a n : (lo < pos a - n <= hi)%Z -> r_index c a n = Ret (elem (pos a - n - 1)%Z) tt.
  Proof.
    intros H. destruct (plus_ok a n) as (a' & E & _ & P); [lia|]. unfold r_index. rewrite E, star_ok by lia. rewrite P. reflexivity.
  Qed.
  Lemma diff_ok a b : r_diff c a b tt = Ret (pos b - pos a)%Z tt.
  Proof.
    unfold r_diff, f_diff. rewrite (law_distance _ _ _ _ HL).
    pose proof (law_in _ _ _ _ HL a). pose proof (law_in _ _ _ _ HL b). pose proof (law_fits _ _ _ _ HL).
    rewrite neg_ok by lia. f_equal. lia.
  Qed.
  Lemma compare_ok a b :
    (r_eq c a b = true <-> pos a = pos b) /\ (r_ne c a b = true <-> pos a <> pos b) /\
    (r_lt c a b = true <-> pos b < pos a)%Z /\ (r_gt c a b = true <-> pos a < pos b)%Z /\
    (r_le c a b = true <-> pos b <= pos a)%Z /\ (r_ge c a b = true <-> pos a <= pos b)%Z.
  Proof.
    unfold r_eq, r_ne, r_lt, r_gt, r_le, r_ge, f_eq, f_ne, f_gt, f_lt, f_ge, f_le.
    rewrite negb_true_iff, <- not_true_iff_false, !(law_equal _ _ _ _ HL), !(law_distance _ _ _ _ HL), !Z.ltb_lt, !Z.leb_le.
    split; [reflexivity|]. split; [reflexivity|]. lia.
  Qed.

  Lemma between_snoc a b : (a < b)%Z -> elements_between elem a b = elements_between elem a (b - 1) ++ [elem (b - 1)%Z].
  Proof.
    intros H. unfold elements_between. replace (Z.to_nat (b - a)) with (S (Z.to_nat (b - 1 - a))) by lia.
    rewrite seq_S, map_app. cbn [map plus]. do 3 f_equal. lia.
  Qed.
  Lemma visit_back first n : forall a fuel, (pos a - pos first = Z.of_nat n)%Z -> n < fuel ->
    exists a', r_visit c fuel first a = Ret (List.rev (elements_between elem (pos first) (pos a))) a' /\ pos a' = pos first.
  Proof.
    induction n as [|n IH]; intros a fuel Hd Hf; (destruct fuel as [|f]; [lia|]); cbn [r_visit].
    - destruct (r_ne c a first) eqn:E; [apply (compare_ok a first) in E; lia|]. exists a.
      replace (pos a) with (pos first) by lia. unfold elements_between. rewrite Z.sub_diag. auto.
    - destruct (r_ne c a first) eqn:E.
      2:{ rewrite <- not_true_iff_false in E. exfalso. apply E. apply (compare_ok a first). lia. }
      pose proof (law_in _ _ _ _ HL first). rewrite star_ok by lia.
      destruct (incr_ok a) as (a1 & H1 & _ & P1); [lia|]. unfold bind. rewrite H1.
      destruct (IH a1 f) as (a2 & H2 & P2); [lia|lia|]. rewrite H2. exists a2. split; [|exact P2].
      rewrite (between_snoc (pos first) (pos a)), rev_app_distr, P1 by lia. reflexivity.
  Qed.
  Lemma visit_back_all first last fuel : (pos first <= pos last)%Z -> (pos last - pos first < Z.of_nat fuel)%Z ->
    exists a, r_visit c fuel first last = Ret (List.rev (elements_between elem (pos first) (pos last))) a /\ pos a = pos first.
  Proof. intros Hle Hf. apply visit_back with (n := Z.to_nat (pos last - pos first)); lia. Qed.

  Lemma operators a b n :
    ((lo < pos a)%Z -> r_star c a = Ret (elem (pos a - 1)%Z) tt /\
       exists a', r_incr c a = Ret tt a' /\ r_post_incr c a = Ret a a' /\ pos a' = (pos a - 1)%Z) /\
    ((pos a < hi)%Z -> exists a', r_decr c a = Ret tt a' /\ r_post_decr c a = Ret a a' /\ pos a' = (pos a + 1)%Z) /\
    ((lo <= pos a - n <= hi)%Z -> exists a', r_plus c a n tt = Ret a' tt /\ r_plus_assign c n a = Ret tt a' /\ pos a' = (pos a - n)%Z) /\
    ((lo <= pos a + n <= hi)%Z -> exists a', r_minus c a n tt = Ret a' tt /\ r_minus_assign c n a = Ret tt a' /\ pos a' = (pos a + n)%Z) /\
    ((lo < pos a - n <= hi)%Z -> r_index c a n = Ret (elem (pos a - n - 1)%Z) tt) /\
    r_diff c a b tt = Ret (pos b - pos a)%Z tt /\
    ((r_eq c a b = true <-> pos a = pos b) /\ (r_ne c a b = true <-> pos a <> pos b) /\
     (r_lt c a b = true <-> pos b < pos a)%Z /\ (r_gt c a b = true <-> pos a < pos b)%Z /\
     (r_le c a b = true <-> pos b <= pos a)%Z /\ (r_ge c a b = true <-> pos a <= pos b)%Z).
  Proof.
    split; [intros H; exact (conj (star_ok a H) (incr_ok a H))|]. split; [exact (decr_ok a)|]. split; [exact (plus_ok a n)|].
    split; [exact (minus_ok a n)|]. split; [exact (index_ok a n)|]. split; [exact (diff_ok a b)|exact (compare_ok a b)].
  Qed.
End Rev.
