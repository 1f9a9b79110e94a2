(** IterProofs.v -- lemmas about IterModel. *)
From Verif Require Import Base IterModel IterSpec.

Section Facade.
  Context {I Ref : Type} (c : core I Ref) (lo hi : Z) (pos : I -> Z) (L : lawful c lo hi pos).

  Lemma diff_ok a b : f_diff c a b tt = Ret (pos a - pos b)%Z tt.
  Proof.
    unfold f_diff, neg_diff. rewrite (law_distance _ _ _ _ L).
    pose proof (law_fits _ _ _ _ L). pose proof (law_in _ _ _ _ L a). pose proof (law_in _ _ _ _ L b).
    destruct (Z.eqb_spec (pos b - pos a) (- 2 ^ 63)); [lia|]. f_equal. lia.
  Qed.
  Lemma minus_ok a n : (lo <= pos a - n <= hi)%Z ->
    exists a', f_minus c a n tt = Ret a' tt /\ pos a' = (pos a - n)%Z.
  Proof.
    intros Hn. unfold f_minus, neg_diff, bind, ret.
    pose proof (law_fits _ _ _ _ L). pose proof (law_in _ _ _ _ L a).
    destruct (Z.eqb_spec n (- 2 ^ 63)); [lia|]. eexists. split; [reflexivity|].
    rewrite (law_advance _ _ _ _ L) by lia. lia.
  Qed.
  Lemma minus_assign_ok a n : (lo <= pos a - n <= hi)%Z ->
    exists a', f_minus_assign c n a = Ret tt a' /\ pos a' = (pos a - n)%Z.
  Proof.
    intros Hn. unfold f_minus_assign, neg_diff, bind, getS, putS.
    pose proof (law_fits _ _ _ _ L). pose proof (law_in _ _ _ _ L a).
    destruct (Z.eqb_spec n (- 2 ^ 63)); [lia|]. eexists. split; [reflexivity|].
    rewrite (law_advance _ _ _ _ L) by lia. lia.
  Qed.
End Facade.

Lemma facade_laws {I Ref} (c : core I Ref) lo hi pos : lawful c lo hi pos ->
  (forall a b, (f_eq c a b = true <-> pos a = pos b) /\ (f_ne c a b = true <-> pos a <> pos b) /\
     (f_lt c a b = true <-> (pos a < pos b)%Z) /\ (f_le c a b = true <-> (pos a <= pos b)%Z) /\
     (f_gt c a b = true <-> (pos a > pos b)%Z) /\ (f_ge c a b = true <-> (pos a >= pos b)%Z) /\
     f_diff c a b tt = Ret (pos a - pos b)%Z tt) /\
  (forall a n, (lo <= pos a + n <= hi)%Z ->
     (exists a', f_plus c a n tt = Ret a' tt /\ pos a' = (pos a + n)%Z) /\
     (exists a', f_plus_assign c n a = Ret tt a' /\ pos a' = (pos a + n)%Z)) /\
  (forall a n, (lo <= pos a - n <= hi)%Z ->
     (exists a', f_minus c a n tt = Ret a' tt /\ pos a' = (pos a - n)%Z) /\
     (exists a', f_minus_assign c n a = Ret tt a' /\ pos a' = (pos a - n)%Z)) /\
  (forall a, (pos a < hi)%Z -> exists a', f_incr c a = Ret tt a' /\ pos a' = (pos a + 1)%Z) /\
  (forall a, (lo < pos a)%Z -> exists a', f_decr c a = Ret tt a' /\ pos a' = (pos a - 1)%Z) /\
  (forall a, f_star c a = c_dereference c a /\ f_arrow c a = f_star c a).
Proof.
  intros L. split; [|split; [|split; [|split; [|split]]]].
  - intros a b. unfold f_eq, f_ne, f_lt, f_le, f_gt, f_ge. pose proof (law_equal _ _ _ _ L a b) as He.
    rewrite (law_distance _ _ _ _ L). split; [exact He|]. split; [|split; [|split; [|split; [|split]]]].
    + destruct (c_equal c a b); simpl; split; intros H; try congruence; try discriminate.
      * exfalso. apply H. apply He. reflexivity.
      * intros Hp. apply He in Hp. discriminate.
    + rewrite Z.ltb_lt. lia.
    + rewrite Z.leb_le. lia.
    + rewrite Z.ltb_lt. lia.
    + rewrite Z.leb_le. lia.
    + apply (diff_ok c lo hi pos L).
  - intros a n Hn. split; eexists; (split; [reflexivity|]); apply (law_advance _ _ _ _ L); exact Hn.
  - intros a n Hn. split; [apply (minus_ok c lo hi pos L)|apply (minus_assign_ok c lo hi pos L)]; exact Hn.
  - intros a Ha. eexists. split; [reflexivity|]. apply (law_advance _ _ _ _ L). pose proof (law_in _ _ _ _ L a). lia.
  - intros a Ha. eexists. split; [reflexivity|]. rewrite (law_advance _ _ _ _ L); [lia|]. pose proof (law_in _ _ _ _ L a). lia.
  - intros a. split; reflexivity.
Qed.
Lemma facade_round_trips {I Ref} (c : core I Ref) lo hi pos : lawful c lo hi pos ->
  (forall a b, exists d a', f_diff c b a tt = Ret d tt /\ f_plus c a d tt = Ret a' tt /\ f_eq c a' b = true) /\
  (forall a n, (lo <= pos a + n <= hi)%Z ->
     exists a' a'', f_plus c a n tt = Ret a' tt /\ f_minus c a' n tt = Ret a'' tt /\ f_eq c a'' a = true) /\
  (forall a, (pos a < hi)%Z ->
     (exists a', ff_incr c a = Ret tt a' /\ pos a' = (pos a + 1)%Z) /\
     (exists a', ff_post_incr c a = Ret a a' /\ pos a' = (pos a + 1)%Z)).
Proof.
  intros L. split; [|split].
  - intros a b. exists (pos b - pos a)%Z. eexists. split; [apply (diff_ok c lo hi pos L)|].
    split; [reflexivity|]. apply (law_equal _ _ _ _ L). rewrite (law_advance _ _ _ _ L); [lia|].
    pose proof (law_in _ _ _ _ L b). lia.
  - intros a n Hn. pose proof (law_advance _ _ _ _ L a n Hn) as Ha.
    destruct (minus_ok c lo hi pos L (c_advance c a n) n) as (a'' & H1 & H2).
    + rewrite Ha. pose proof (law_in _ _ _ _ L a). lia.
    + exists (c_advance c a n), a''. split; [reflexivity|]. split; [exact H1|].
      apply (law_equal _ _ _ _ L). rewrite H2, Ha. lia.
  - intros a Ha. split; eexists; (split; [reflexivity|]); apply (law_increment _ _ _ _ L); exact Ha.
Qed.
Lemma minus_overflow {I Ref} (c : core I Ref) a : f_minus c a (- 2 ^ 63) tt = Ub UbOverflow.
Proof. reflexivity. Qed.

(** an example of a core: positions 0..9 of a vector *)
Definition clamp (z : Z) : Z := Z.max 0 (Z.min 9 z).
Definition vec_core : core { z : Z | (0 <= z <= 9)%Z } Z :=
  let mk z := exist (fun z => (0 <= z <= 9)%Z) (clamp z) ltac:(unfold clamp; lia) in
  mkCore _ _ (fun a b => Z.eqb (proj1_sig a) (proj1_sig b)) (fun a b => (proj1_sig b - proj1_sig a)%Z)
         (fun a n => mk (proj1_sig a + n)%Z) (fun a => mk (proj1_sig a + 1)%Z) (fun a => (100 + proj1_sig a)%Z).
Definition vec_begin : { z : Z | (0 <= z <= 9)%Z } := exist (fun z => (0 <= z <= 9)%Z) (clamp 0) ltac:(unfold clamp; lia).
Lemma vec_lawful : lawful vec_core 0 9 (@proj1_sig Z _).
Proof.
  constructor; simpl.
  - lia.
  - intros [a Ha]. exact Ha.
  - intros a b. apply Z.eqb_eq.
  - reflexivity.
  - intros [a Ha] n Hn. simpl in *. unfold clamp. lia.
  - intros [a Ha] Hn. simpl in *. unfold clamp. lia.
Qed.

(** ** PairIterator *)
Section Pair.
  Context {I1 I2 R1 R2 : Type} (c1 : core I1 R1) (c2 : core I2 R2) (lo1 hi1 lo2 hi2 : Z) (pos1 : I1 -> Z) (pos2 : I2 -> Z)
          (L1 : lawful c1 lo1 hi1 pos1) (L2 : lawful c2 lo2 hi2 pos2).
  Lemma pair_equal p q : p_equal c1 c2 p q = true <-> pos1 (p_iter1 p) = pos1 (p_iter1 q) /\ pos2 (p_iter2 p) = pos2 (p_iter2 q).
  Proof. unfold p_equal, f_eq. rewrite Bool.andb_true_iff, (law_equal _ _ _ _ L1), (law_equal _ _ _ _ L2). reflexivity. Qed.
  Lemma pair_advances ks : forall p, stays_in lo1 hi1 (pos1 (p_iter1 p)) ks -> stays_in lo2 hi2 (pos2 (p_iter2 p)) ks ->
    exists q, p_advances c1 c2 ks p = Ret tt q /\ pos1 (p_iter1 q) = (pos1 (p_iter1 p) + total ks)%Z /\
              pos2 (p_iter2 q) = (pos2 (p_iter2 p) + total ks)%Z.
  Proof.
    induction ks as [|k ks IH]; intros p H1 H2; simpl in *.
    - exists p. split; [reflexivity|]. lia.
    - destruct H1 as [H1 T1], H2 as [H2 T2]. unfold bind, p_advance. simpl.
      pose proof (law_advance _ _ _ _ L1 (p_iter1 p) k H1) as E1. pose proof (law_advance _ _ _ _ L2 (p_iter2 p) k H2) as E2.
      destruct (IH (mkPair (c_advance c1 (p_iter1 p) k) (c_advance c2 (p_iter2 p) k))) as (q & Eq & Q1 & Q2); simpl; rewrite ?E1, ?E2; auto.
      exists q. split; [exact Eq|]. simpl in *. lia.
  Qed.
  Lemma pair_in_step p ks ks' :
    stays_in lo1 hi1 (pos1 (p_iter1 p)) ks -> stays_in lo2 hi2 (pos2 (p_iter2 p)) ks ->
    stays_in lo1 hi1 (pos1 (p_iter1 p)) ks' -> stays_in lo2 hi2 (pos2 (p_iter2 p)) ks' ->
    exists q q', p_advances c1 c2 ks p = Ret tt q /\ p_advances c1 c2 ks' p = Ret tt q' /\
      pos1 (p_iter1 q) = (pos1 (p_iter1 p) + total ks)%Z /\ pos2 (p_iter2 q) = (pos2 (p_iter2 p) + total ks)%Z /\
      (p_equal c1 c2 q q' = true <-> total ks = total ks').
  Proof.
    intros A1 A2 B1 B2. destruct (pair_advances ks p A1 A2) as (q & Eq & Q1 & Q2).
    destruct (pair_advances ks' p B1 B2) as (q' & Eq' & Q1' & Q2'). exists q, q'. repeat split; auto.
    - intros E. apply pair_equal in E. lia.
    - intros E. apply pair_equal. lia.
  Qed.
End Pair.
