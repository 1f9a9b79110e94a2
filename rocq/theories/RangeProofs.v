(** RangeProofs.v -- lemmas about RangeModel. *)
From Verif Require Import Base RangeModel RangeSpec.

Lemma wrap64_incr a n : wrap64 (wrap64 (a + 1) + n) = wrap64 (a + (1 + n)).
Proof. unfold wrap64. rewrite Zplus_mod_idemp_l. f_equal. lia. Qed.
Lemma map_counting (f : Z -> Z) k n : map f (counting k n) = map (fun i => f (k + i)%Z) (counting 0 n).
Proof.
  revert f k; induction n as [|n IH]; intros f k; simpl; [reflexivity|]. rewrite Z.add_0_r. f_equal.
  rewrite (IH f (k + 1)%Z), (IH (fun i => f (k + i)%Z) 1%Z). apply map_ext. intros i. f_equal. lia.
Qed.

Lemma for_loop_each {S} (body : Z -> M S unit) n : forall a b fuel s, is_size_t a -> is_size_t b ->
  wrap64 (b - a) = Z.of_nat n -> n < fuel ->
  for_loop fuel a b body s = each body (map (fun i => wrap64 (a + i)) (counting 0 n)) s.
Proof.
  induction n as [|n IH]; intros a b fuel s Ha Hb Hn Hf; (destruct fuel as [|fuel]; [lia|]); cbn [for_loop]; unfold ri_neq.
  - assert (a = b).
    { unfold wrap64, is_size_t in *. apply Z.mod_divide in Hn; [|lia]. destruct Hn as [q Hq]. nia. }
    subst. rewrite Z.eqb_refl. reflexivity.
  - assert (Hne : a <> b).
    { intros ->. rewrite Z.sub_diag in Hn. discriminate. }
    destruct (Z.eqb_spec a b) as [|_]; [contradiction|]. cbn [negb counting map each]. rewrite Z.add_0_r.
    rewrite (wrap64_small a) by exact Ha. unfold bind. destruct (body a s) as [[] s'|e s'|r| |]; try reflexivity.
    rewrite IH.
    + unfold ri_incr. f_equal. rewrite (map_counting _ (0 + 1)). apply map_ext. intros i.
      rewrite wrap64_incr. f_equal.
    + unfold ri_incr. apply wrap64_range.
    + exact Hb.
    + unfold ri_incr. assert (Hw : wrap64 (b - wrap64 (a + 1)) = wrap64 (wrap64 (b - a) - 1)).
      { unfold wrap64. rewrite Zminus_mod_idemp_r, Zminus_mod_idemp_l. f_equal. lia. }
      rewrite Hw, Hn. rewrite wrap64_small.
      * lia.
      * pose proof (wrap64_range (b - a)). lia.
    + lia.
Qed.

Lemma range_for_each {S} (body : Z -> M S unit) (a b : Z) fuel s : is_size_t a -> is_size_t b ->
  Z.to_nat (r_size (range2 a b)) < fuel ->
  range_for fuel (range2 a b) body s =
    each body (map (r_index (range2 a b)) (counting 0 (Z.to_nat (r_size (range2 a b))))) s /\
  ((a <= b)%Z -> r_size (range2 a b) = (b - a)%Z /\
     map (r_index (range2 a b)) (counting 0 (Z.to_nat (r_size (range2 a b)))) = counting a (Z.to_nat (b - a))).
Proof.
  intros Ha Hb Hf. split.
  - unfold range_for. simpl r_start. simpl r_stop. apply for_loop_each; auto.
    unfold r_size. simpl. pose proof (wrap64_range (b - a)). rewrite Z2Nat.id by lia. reflexivity.
  - intros Hab. assert (Hs : r_size (range2 a b) = (b - a)%Z).
    { unfold r_size. simpl. apply wrap64_small. unfold is_size_t in *. lia. }
    split; [exact Hs|]. rewrite Hs. unfold is_size_t in *.
    assert (Hgen : forall n k, (0 <= k)%Z -> (a + k + Z.of_nat n <= b)%Z ->
      map (r_index (range2 a b)) (counting k n) = counting (a + k) n).
    { induction n as [|n IH]; intros k Hk Hn; cbn [counting map]; [reflexivity|]. rewrite IH by lia.
      unfold r_index. simpl r_start. rewrite wrap64_small by lia. f_equal. f_equal. lia. }
    rewrite (Hgen (Z.to_nat (b - a)) 0%Z) by lia. f_equal. lia.
Qed.

Lemma reversed_range (a b : Z) : is_size_t a -> is_size_t b -> (b < a)%Z ->
  r_size (range2 a b) = (2 ^ 64 - (a - b))%Z /\ (0 < r_size (range2 a b))%Z /\
  (forall fuel, Z.to_nat (r_size (range2 a b)) < fuel ->
     exists n, range_for fuel (range2 a b) (fun _ s => Ret tt (s + 1)%Z) 0%Z = Ret tt n /\ n = r_size (range2 a b)).
Proof.
  intros Ha Hb Hab. assert (Hs : r_size (range2 a b) = (2 ^ 64 - (a - b))%Z).
  { unfold r_size, wrap64. simpl r_start. simpl r_stop. unfold is_size_t in *.
    replace (b - a)%Z with (2 ^ 64 - (a - b) + -1 * 2 ^ 64)%Z by lia. rewrite Z.mod_add by lia.
    apply Z.mod_small. lia. }
  split; [exact Hs|]. split; [unfold is_size_t in *; lia|]. intros fuel Hf.
  destruct (range_for_each (fun (_ : Z) (s : Z) => Ret tt (s + 1)%Z) a b fuel 0%Z Ha Hb Hf) as [H _]. rewrite H.
  assert (Hc : forall l k, each (fun (_ : Z) (s : Z) => Ret tt (s + 1)%Z) l k = Ret tt (k + Z.of_nat (length l))%Z).
  { induction l as [|x l IH]; intros k; cbn [each length].
    - unfold ret. f_equal. lia.
    - unfold bind. rewrite IH. f_equal. lia. }
  rewrite Hc. eexists. split; [reflexivity|]. rewrite map_length.
  assert (Hl : forall n k, length (counting k n) = n) by (induction n; intros; simpl; auto).
  rewrite Hl, Z2Nat.id; unfold is_size_t in *; lia.
Qed.
Lemma trivial_range (a : Z) (S : Type) fuel (body : Z -> M S unit) s :
  r_size (range2 a a) = 0%Z /\ range_for (Datatypes.S fuel) (range2 a a) body s = Ret tt s.
Proof.
  split.
  - unfold r_size. simpl. rewrite Z.sub_diag. reflexivity.
  - unfold range_for. simpl. unfold ri_neq. rewrite Z.eqb_refl. reflexivity.
Qed.

Lemma range_from_zero {S} (body : Z -> M S unit) n fuel s : is_size_t n -> Z.to_nat n < fuel ->
  range_for fuel (range1 n) body s = each body (counting 0 (Z.to_nat n)) s /\
  r_size (range1 n) = n /\ r_stride (range1 n) = 1%Z /\ (forall i, (0 <= i < n)%Z -> r_index (range1 n) i = i).
Proof.
  intros Hn Hf. assert (H0 : is_size_t 0) by (unfold is_size_t; lia).
  assert (Es : r_size (range1 n) = n).
  { unfold r_size, range1, wrap64. simpl. rewrite Z.sub_0_r. apply Z.mod_small. exact Hn. }
  change (range1 n) with (range2 0 n) in *.
  destruct (range_for_each body 0%Z n fuel s H0 Hn) as [H1 H2]; [rewrite Es; exact Hf|].
  destruct (H2 (proj1 Hn)) as [_ H3]. split; [rewrite H1, H3, Z.sub_0_r; reflexivity|]. split; [exact Es|]. split; [reflexivity|].
  intros i Hi. unfold r_index, wrap64. simpl. apply Z.mod_small. unfold is_size_t in Hn. lia.
Qed.
