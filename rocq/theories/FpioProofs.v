(** FpioProofs.v -- lemmas for FpioProps.v. *)
From Verif Require Import Base StreamModel StlioModel StlioSpec StlioProofs FpioModel FpioSpec.
Open Scope list_scope.
Open Scope Z_scope.

(** ** rounding *)
Lemma half_even_near a d : 0 < d -> 2 * Z.abs (half_even a d * d - a) <= d.
Proof.
  intros H. unfold half_even. pose proof (Z.div_mod a d ltac:(lia)) as E. pose proof (Z.mod_pos_bound a d H) as B.
  set (q := a / d) in *. set (r := a mod d) in *. replace a with (d * q + r) by lia.
  destruct (Z.compare_spec (2 * r) d) as [C|C|C]; [destruct (Z.even q)| |].
  - replace (q * d - (d * q + r)) with (- r) by ring. lia.
  - replace ((q + 1) * d - (d * q + r)) with (d - r) by ring. lia.
  - replace (q * d - (d * q + r)) with (- r) by ring. lia.
  - replace ((q + 1) * d - (d * q + r)) with (d - r) by ring. lia.
Qed.
Lemma half_even_unique a d m : 0 < d -> 2 * Z.abs (m * d - a) < d -> half_even a d = m.
Proof.
  intros H N. pose proof (half_even_near a d H) as M. set (q := half_even a d) in *.
  assert (Z.abs ((q - m) * d) < d) as K by (replace ((q - m) * d) with ((q * d - a) - (m * d - a)) by ring; lia).
  rewrite Z.abs_mul, (Z.abs_eq d) in K by lia. assert (Z.abs (q - m) < 1) by (apply (Z.mul_lt_mono_pos_r d); lia). lia.
Qed.
Lemma half_even_mult m d : 0 < d -> half_even (m * d) d = m.
Proof. intros H. apply half_even_unique; [exact H|]. rewrite Z.sub_diag. cbn. exact H. Qed.
Lemma half_even_floor a d : 0 < d -> a / d <= half_even a d.
Proof. intros H. unfold half_even. destruct (_ ?= _); [destruct (Z.even _)| |]; lia. Qed.
Lemma half_even_nonneg a d : 0 <= a -> 0 < d -> 0 <= half_even a d.
Proof. intros A H. pose proof (half_even_floor a d H). pose proof (Z.div_pos a d A H). lia. Qed.

Lemma pow2_pos k : 0 <= k -> 0 < 2 ^ k.
Proof. intros. apply Z.pow_pos_nonneg; lia. Qed.
Lemma pow10_pos k : 0 <= k -> 0 < 10 ^ k.
Proof. intros. apply Z.pow_pos_nonneg; lia. Qed.

Lemma half_even_upper a d m : 0 < d -> a <= m * d -> half_even a d <= m.
Proof.
  intros H L. pose proof (half_even_near a d H) as N. destruct (Z_le_gt_dec (half_even a d) m) as [G|G]; [exact G|]. exfalso.
  assert ((m + 1) * d <= half_even a d * d) as K by (apply Z.mul_le_mono_nonneg_r; lia). rewrite Z.mul_add_distr_r in K. lia.
Qed.
Lemma half_even_scale t a d : 0 < t -> 0 < d -> half_even (t * a) (t * d) = half_even a d.
Proof.
  intros T D. unfold half_even. rewrite Z.div_mul_cancel_l, Z.mul_mod_distr_l by lia.
  assert (C : (2 * (t * (a mod d)) ?= t * d) = (2 * (a mod d) ?= d)); [|now rewrite C].
  replace (2 * (t * (a mod d))) with (t * (2 * (a mod d))) by ring. destruct (Z.compare_spec (2 * (a mod d)) d) as [C|C|C].
  - apply Z.compare_eq_iff. now rewrite C.
  - apply Z.compare_lt_iff. now apply Z.mul_lt_mono_pos_l.
  - apply Z.compare_gt_iff. now apply Z.mul_lt_mono_pos_l.
Qed.
Lemma pow5_pos k : 0 <= k -> 0 < 5 ^ k.
Proof. intros. apply Z.pow_pos_nonneg; lia. Qed.
Lemma log2_div a c j : 0 < c -> 0 <= j -> 2 ^ j * c <= a < 2 ^ (j + 1) * c -> Z.log2 (a / c) = j.
Proof.
  intros C J [H1 H2]. apply Z.log2_unique; [exact J|]. rewrite <- Z.add_1_r. split.
  - apply Z.div_le_lower_bound; [exact C|]. lia.
  - apply Z.div_lt_upper_bound; [exact C|]. lia.
Qed.

Section Nearest.
  Context (b : Z) (Hb : 0 < b).
  Definition ulp (q : Z) : Z := Z.max 0 (Z.log2 q + 1 - b).
  Lemma nearest_is a c : nearest b a c = half_even a (c * 2 ^ ulp (a / c)) * 2 ^ ulp (a / c).
  Proof. reflexivity. Qed.
  Lemma ulp_nonneg q : 0 <= ulp q.
  Proof. unfold ulp. lia. Qed.
  Lemma nearest_scale t a c : 0 < t -> 0 < c -> nearest b (t * a) (t * c) = nearest b a c.
  Proof.
    intros T C. rewrite !nearest_is. rewrite Z.div_mul_cancel_l by lia. set (k := ulp (a / c)).
    assert (0 < 2 ^ k) by (apply pow2_pos, ulp_nonneg). rewrite <- Z.mul_assoc, half_even_scale by (try lia; apply Z.mul_pos_pos; lia). reflexivity.
  Qed.
  Lemma nearest_ratio a c a' c' : 0 < c -> 0 < c' -> a * c' = a' * c -> nearest b a c = nearest b a' c'.
  Proof.
    intros C C' E. rewrite <- (nearest_scale c' a c), <- (nearest_scale c a' c') by assumption. f_equal; lia.
  Qed.
  (** a number near m*2^k *)
  Lemma nearest_close a c m k : 0 < c -> 0 <= a -> 0 <= k -> 0 < m < 2 ^ b -> (k <> 0 -> 2 ^ (b - 1) <= m) ->
    2 * Z.abs (m * 2 ^ k * c - a) < 2 ^ k * c -> (k <> 0 -> m = 2 ^ (b - 1) -> a < m * 2 ^ k * c -> 4 * (m * 2 ^ k * c - a) < 2 ^ k * c) ->
    nearest b a c = m * 2 ^ k.
  Proof.
    intros C A K [M0 M] K1 N N'. assert (P2 : 0 < 2 ^ k) by (apply pow2_pos; exact K). rewrite nearest_is.
    set (q := 2 ^ k * c) in *. assert (Q : 0 < q) by (apply Z.mul_pos_pos; assumption).
    assert (Em : m * 2 ^ k * c = m * q) by (unfold q; ring). rewrite Em in *.
    assert (U1 : (m + 1) * q <= 2 ^ b * q) by (apply Z.mul_le_mono_nonneg_r; lia). rewrite Z.mul_add_distr_r in U1.
    assert (HU : ulp (a / c) = k -> half_even a (c * 2 ^ ulp (a / c)) * 2 ^ ulp (a / c) = m * 2 ^ k).
    { intros U. rewrite U. f_equal. apply half_even_unique; [rewrite Z.mul_comm; exact Q|]. rewrite (Z.mul_comm c). fold q. exact N. }
    destruct (Z.eq_dec k 0) as [K0|D].
    - apply HU. subst k. unfold ulp. assert (a / c < 2 ^ b).
      { apply Z.div_lt_upper_bound; [exact C|]. unfold q in *. change (2 ^ 0) with 1 in *. lia. }
      assert (0 <= a / c) by (apply Z.div_pos; lia).
      destruct (Z.eq_dec (a / c) 0) as [->|Z0]; [change (Z.log2 0) with 0; lia|].
      assert (Z.log2 (a / c) < b) by (apply Z.log2_lt_pow2; lia). lia.
    - specialize (K1 D). assert (Kp : 1 <= k) by lia.
      assert (E1 : 2 ^ b * q = 2 ^ (b + k) * c) by (unfold q; rewrite Z.pow_add_r by lia; ring).
      assert (E2 : 2 ^ (b - 1) * q = 2 ^ (b - 1 + k) * c) by (unfold q; rewrite Z.pow_add_r by lia; ring).
      assert (E3 : 2 ^ k = 2 * 2 ^ (k - 1)) by (rewrite <- Z.pow_succ_r by lia; f_equal; lia).
      destruct (Z_lt_le_dec a (2 ^ (b - 1 + k) * c)) as [L|L].
      + assert (m = 2 ^ (b - 1)) as EM.
        { destruct (Z.eq_dec m (2 ^ (b - 1))) as [e|e]; [exact e|]. exfalso.
          assert ((2 ^ (b - 1) + 1) * q <= m * q) by (apply Z.mul_le_mono_nonneg_r; lia). rewrite Z.mul_add_distr_r in *. lia. }
        specialize (N' D EM ltac:(rewrite EM, E2; exact L)).
        assert (Z.log2 (a / c) = b + k - 2) as LG.
        { apply log2_div; [exact C|lia|]. replace (b + k - 2 + 1) with (b - 1 + k) by lia. split; [|exact L].
          assert (E4 : 2 ^ (b - 1 + k) * c = 2 * (2 ^ (b + k - 2) * c)).
          { replace (b - 1 + k) with (Z.succ (b + k - 2)) by lia. rewrite Z.pow_succ_r by lia. ring. }
          assert (2 ^ (k - 1) <= 2 ^ (b + k - 2)) by (apply Z.pow_le_mono_r; lia).
          assert (2 ^ (k - 1) * c <= 2 ^ (b + k - 2) * c) by (apply Z.mul_le_mono_nonneg_r; lia).
          assert (q = 2 * (2 ^ (k - 1) * c)) by (unfold q; rewrite E3; ring). rewrite EM, E2 in N'. lia. }
        assert (ulp (a / c) = k - 1) as U by (unfold ulp; lia). rewrite U.
        rewrite (half_even_unique a (c * 2 ^ (k - 1)) (2 * m)).
        * rewrite E3. ring.
        * apply Z.mul_pos_pos; [exact C|]. apply pow2_pos; lia.
        * assert (EQ : q = 2 * (c * 2 ^ (k - 1))) by (unfold q; rewrite E3; ring).
          replace (2 * m * (c * 2 ^ (k - 1))) with (m * q) by (rewrite EQ; ring). lia.
      + apply HU. assert (Z.log2 (a / c) = b + k - 1) as LG.
        { apply log2_div; [exact C|lia|]. replace (b + k - 1 + 1) with (b + k) by lia. split; [replace (b + k - 1) with (b - 1 + k) by lia; exact L|]. lia. }
        unfold ulp. lia.
  Qed.
  (** positive values of the type have a normal form *)
  Lemma normal n : 0 < n -> (exists m k, 0 <= k /\ Z.abs m < 2 ^ b /\ n = m * 2 ^ k) ->
    exists m k, 0 <= k /\ 0 < m < 2 ^ b /\ (k <> 0 -> 2 ^ (b - 1) <= m) /\ n = m * 2 ^ k.
  Proof.
    intros P (m & k & K & M & E). revert m M E. pattern k. apply natlike_ind; [| |exact K].
    - intros m M E. exists m, 0. change (2 ^ 0) with 1 in *. repeat split; lia.
    - clear k K. intros k K IH m M E. assert (0 < 2 ^ k) by (apply pow2_pos; exact K). rewrite Z.pow_succ_r in E by exact K.
      assert (0 < m) by (apply (Z.mul_pos_cancel_r m (2 * 2 ^ k)); lia).
      assert (B : 2 ^ b = 2 * 2 ^ (b - 1)) by (rewrite <- Z.pow_succ_r by lia; f_equal; lia).
      destruct (Z_lt_le_dec m (2 ^ (b - 1))) as [L|L].
      + apply (IH (2 * m)); [lia|]. rewrite E. ring.
      + exists m, (Z.succ k). rewrite Z.pow_succ_r by exact K. repeat split; try lia.
  Qed.
  Lemma nearest_0 c : 0 < c -> nearest b 0 c = 0.
  Proof.
    intros C. rewrite nearest_is. rewrite Z.div_0_l by lia. set (k := ulp 0). assert (0 < 2 ^ k) by (apply pow2_pos, ulp_nonneg).
    pose proof (half_even_mult 0 (c * 2 ^ k) ltac:(apply Z.mul_pos_pos; lia)) as H0. rewrite Z.mul_0_l in H0. rewrite H0. reflexivity.
  Qed.
  Lemma nearest_exact n c : 0 < c -> 0 <= n -> (exists m k, 0 <= k /\ Z.abs m < 2 ^ b /\ n = m * 2 ^ k) -> nearest b (n * c) c = n.
  Proof.
    intros C N R. destruct (Z.eq_dec n 0) as [->|N0]; [rewrite Z.mul_0_l; now apply nearest_0|].
    destruct (normal n ltac:(lia) R) as (m & k & K & M & L & E). rewrite E. assert (0 < 2 ^ k) by (apply pow2_pos; exact K).
    assert (0 < 2 ^ k * c) by (apply Z.mul_pos_pos; assumption). apply nearest_close; try assumption.
    - apply Z.mul_nonneg_nonneg; [|lia]. lia.
    - rewrite Z.sub_diag. cbn [Z.abs]. lia.
    - lia.
  Qed.
  Lemma nearest_big a c j : 0 < c -> b <= j -> 2 ^ j * c <= a -> 2 ^ j <= nearest b a c.
  Proof.
    intros C J H. rewrite nearest_is. assert (2 ^ j <= a / c) as Q by (apply Z.div_le_lower_bound; lia).
    assert (0 < 2 ^ j) by (apply pow2_pos; lia). assert (L : j <= Z.log2 (a / c)) by (apply Z.log2_le_pow2; lia).
    assert (U : ulp (a / c) = Z.log2 (a / c) + 1 - b) by (unfold ulp; lia). rewrite U. set (k := Z.log2 (a / c) + 1 - b) in *.
    assert (0 < 2 ^ k) by (apply pow2_pos; lia). assert (0 < c * 2 ^ k) by (apply Z.mul_pos_pos; lia).
    assert (2 ^ (b - 1) <= half_even a (c * 2 ^ k)) as F.
    { apply (Z.le_trans _ (a / (c * 2 ^ k))); [|now apply half_even_floor]. rewrite <- Z.div_div by lia. apply Z.div_le_lower_bound; [lia|].
      rewrite <- Z.pow_add_r by lia. replace (k + (b - 1)) with (Z.log2 (a / c)) by lia. apply Z.log2_spec. lia. }
    apply (Z.le_trans _ (2 ^ (b - 1) * 2 ^ k)); [|apply Z.mul_le_mono_nonneg_r; lia]. rewrite <- Z.pow_add_r by lia. apply Z.pow_le_mono_r; lia.
  Qed.
  Lemma nearest_bound a c j : 0 < c -> 0 <= a -> b <= j -> a < 2 ^ j * c -> 0 <= nearest b a c <= 2 ^ j.
  Proof.
    intros C A J H. rewrite nearest_is. pose proof (ulp_nonneg (a / c)) as U0. set (k := ulp (a / c)) in *.
    assert (0 < 2 ^ k) by (apply pow2_pos; lia). assert (0 < c * 2 ^ k) by (apply Z.mul_pos_pos; lia).
    assert (k <= j - b \/ k = 0) as KJ.
    { assert (a / c < 2 ^ j) by (apply Z.div_lt_upper_bound; lia). assert (0 <= a / c) by (apply Z.div_pos; lia). unfold k, ulp.
      destruct (Z.eq_dec (a / c) 0) as [->|N]; [change (Z.log2 0) with 0; lia|]. assert (Z.log2 (a / c) < j) by (apply Z.log2_lt_pow2; lia). lia. }
    split; [apply Z.mul_nonneg_nonneg; [apply half_even_nonneg; lia|lia]|].
    assert (E : 2 ^ j = 2 ^ (j - k) * 2 ^ k) by (rewrite <- Z.pow_add_r by lia; f_equal; lia). rewrite E.
    apply Z.mul_le_mono_nonneg_r; [lia|]. apply half_even_upper; [assumption|].
    replace (2 ^ (j - k) * (c * 2 ^ k)) with (2 ^ (j - k) * 2 ^ k * c) by ring. rewrite <- E. lia.
  Qed.
End Nearest.

(** ** decimal digits *)
Lemma exponent_loop_ok fuel : forall a, 0 < a -> a < 2 * 2 ^ Z.of_nat fuel ->
  10 ^ Z.of_nat (exponent_loop fuel a) <= a < 10 ^ (Z.of_nat (exponent_loop fuel a) + 1).
Proof.
  induction fuel as [|f IH]; intros a A B.
  - cbn in B |- *. lia.
  - cbn [exponent_loop]. destruct (Z.ltb_spec a 10) as [L|L].
    + cbn. lia.
    + rewrite Nat2Z.inj_succ, Z.pow_succ_r in B by lia.
      assert (a / 10 < 2 * 2 ^ Z.of_nat f) by (apply Z.div_lt_upper_bound; lia).
      assert (0 < a / 10) by (apply Z.div_str_pos; lia).
      specialize (IH (a / 10) ltac:(lia) ltac:(lia)). set (e := exponent_loop f (a / 10)) in *.
      rewrite Nat2Z.inj_succ. rewrite Z.pow_succ_r by lia. replace (Z.succ (Z.of_nat e) + 1) with (Z.succ (Z.of_nat e + 1)) by lia.
      rewrite Z.pow_succ_r by lia. pose proof (Z.div_mod a 10 ltac:(lia)). pose proof (Z.mod_pos_bound a 10 ltac:(lia)). lia.
Qed.
Lemma exponent10_ok a : 0 < a -> 10 ^ Z.of_nat (exponent10 a) <= a < 10 ^ (Z.of_nat (exponent10 a) + 1).
Proof.
  intros A. apply exponent_loop_ok; [exact A|]. rewrite Z2Nat.id by apply Z.log2_nonneg. rewrite <- Z.pow_succ_r by apply Z.log2_nonneg.
  apply Z.log2_spec. exact A.
Qed.
Lemma exponent10_0 : exponent10 0 = 0%nat.
Proof. reflexivity. Qed.

(** the number printed *)
Definition shown_abs (P : nat) (a : Z) : Z :=
  if (exponent10 a <? P)%nat then a
  else half_even a (10 ^ Z.of_nat (exponent10 a - (P - 1))) * 10 ^ Z.of_nat (exponent10 a - (P - 1)).
Lemma shown_abs_0 P : (1 <= P)%nat -> shown_abs P 0 = 0.
Proof. intros H. unfold shown_abs. rewrite exponent10_0. destruct (Nat.ltb_spec 0 P); [reflexivity|lia]. Qed.
Lemma shown_abs_error P a : (1 <= P)%nat -> 0 < a -> 2 * Z.abs (shown_abs P a - a) * 10 ^ Z.of_nat (P - 1) <= a.
Proof.
  intros HP A. unfold shown_abs. pose proof (exponent10_ok a A) as [X _]. destruct (Nat.ltb_spec (exponent10 a) P) as [L|L].
  - rewrite Z.sub_diag. cbn. lia.
  - set (x := exponent10 a) in *. set (d := 10 ^ Z.of_nat (x - (P - 1))). assert (0 < d) by (apply pow10_pos; lia).
    pose proof (half_even_near a d H) as N. assert (E : d * 10 ^ Z.of_nat (P - 1) = 10 ^ Z.of_nat x).
    { unfold d. rewrite <- Z.pow_add_r by lia. f_equal. lia. }
    apply (Z.le_trans _ (d * 10 ^ Z.of_nat (P - 1))); [|lia]. apply Z.mul_le_mono_nonneg_r; [|exact N]. apply Z.lt_le_incl, pow10_pos. lia.
Qed.
Lemma shown_abs_significant P a : (1 <= P)%nat -> 0 < a ->
  shown_abs P a = a <-> exists d e, 0 <= e /\ Z.abs d < 10 ^ Z.of_nat P /\ a = d * 10 ^ e.
Proof.
  intros HP A. pose proof (exponent10_ok a A) as [X1 X2]. unfold shown_abs. destruct (Nat.ltb_spec (exponent10 a) P) as [L|L].
  - split; [|reflexivity]. intros _. exists a, 0. change (10 ^ 0) with 1. split; [lia|]. split; [|lia]. rewrite Z.abs_eq by lia.
    apply (Z.lt_le_trans _ _ _ X2). apply Z.pow_le_mono_r; lia.
  - set (x := exponent10 a) in *. set (d := 10 ^ Z.of_nat (x - (P - 1))). assert (D : 0 < d) by (apply pow10_pos; lia). split.
    + intros E. exists (half_even a d), (Z.of_nat (x - (P - 1))). split; [lia|]. split; [|symmetry; exact E].
      rewrite Z.abs_eq by (apply half_even_nonneg; lia). apply (Z.mul_lt_mono_pos_r d); [exact D|]. rewrite E. apply (Z.lt_le_trans _ _ _ X2).
      unfold d. rewrite <- Z.pow_add_r by lia. apply Z.pow_le_mono_r; lia.
    + intros (m & e & E0 & M & E). assert (0 < 10 ^ e) by (apply pow10_pos; exact E0).
      assert (0 < m) by (apply (Z.mul_pos_cancel_r m (10 ^ e)); lia). rewrite Z.abs_eq in M by lia.
      assert (Z.of_nat (x - (P - 1)) <= e) as G.
      { assert (Z.of_nat x < Z.of_nat P + e); [|lia]. apply (Z.pow_lt_mono_r_iff 10); [lia|lia|].
        apply (Z.le_lt_trans _ _ _ X1). rewrite E, Z.pow_add_r by lia. apply Z.mul_lt_mono_pos_r; lia. }
      assert (a = m * 10 ^ (e - Z.of_nat (x - (P - 1))) * d) as E'.
      { unfold d. rewrite <- Z.mul_assoc, <- Z.pow_add_r by lia. rewrite E. do 2 f_equal. lia. }
      rewrite E' at 1. rewrite half_even_mult by exact D. symmetry. exact E'.
Qed.
Lemma shown_abs_nonneg P a : (1 <= P)%nat -> 0 <= a -> 0 <= shown_abs P a.
Proof.
  intros HP A. unfold shown_abs. destruct (_ <? _)%nat; [exact A|]. assert (0 < 10 ^ Z.of_nat (exponent10 a - (P - 1))) by (apply pow10_pos; lia).
  apply Z.mul_nonneg_nonneg; [|lia]. now apply half_even_nonneg.
Qed.

Lemma rounded_ok P a : (1 <= P)%nat -> 0 < a ->
  let '(d, y) := rounded P a in 0 <= d /\ shown_abs P a * 10 ^ Z.of_nat (P - 1) = d * 10 ^ Z.of_nat y.
Proof.
  intros HP A. unfold rounded, shown_abs. set (x := exponent10 a). destruct (Nat.ltb_spec x P) as [L|L].
  - assert (0 < 10 ^ Z.of_nat (P - 1 - x)) by (apply pow10_pos; lia). split; [apply Z.mul_nonneg_nonneg; lia|].
    rewrite <- Z.mul_assoc, <- Z.pow_add_r by lia. do 2 f_equal. lia.
  - set (k := (x - (P - 1))%nat). set (d := half_even a (10 ^ Z.of_nat k)). assert (K : 0 < 10 ^ Z.of_nat k) by (apply pow10_pos; lia).
    assert (0 <= d) by (apply half_even_nonneg; lia).
    assert (E0 : d * 10 ^ Z.of_nat k * 10 ^ Z.of_nat (P - 1) = d * 10 ^ Z.of_nat x).
    { rewrite <- Z.mul_assoc, <- Z.pow_add_r by lia. do 2 f_equal. lia. }
    destruct (Z.eqb_spec d (10 ^ Z.of_nat P)) as [E|E]; [|split; assumption]. split; [apply Z.div_pos; lia|]. rewrite E0.
    rewrite Nat2Z.inj_succ, Z.pow_succ_r by lia.
    assert (d = 10 * (d / 10)) as E'.
    { rewrite E. replace (Z.of_nat P) with (Z.succ (Z.of_nat (P - 1))) by lia. rewrite Z.pow_succ_r by lia.
      rewrite (Z.mul_comm 10), Z.div_mul by lia. ring. }
    rewrite E' at 1. ring.
Qed.
Lemma ten_power i : 0 <= i -> 10 ^ i = 2 ^ i * 5 ^ i.
Proof. intros _. rewrite <- Z.pow_mul_l. reflexivity. Qed.

(** the number printed, in units of 10^-E, and the one read *)
Definition printed (E p : nat) (n : Z) : Z := shown_abs (Nat.max 1 p) (Z.abs n * 5 ^ Z.of_nat E).
Definition back (b : Z) (E p : nat) (n : Z) : Z := Z.sgn n * nearest b (printed E p n) (5 ^ Z.of_nat E).

Lemma printed_significant E p n : (1 <= p)%nat -> printed E p n = Z.abs n * 5 ^ Z.of_nat E <-> significant E p n.
Proof.
  intros HP. unfold printed. rewrite Nat.max_r by lia. assert (F : 0 < 5 ^ Z.of_nat E) by (apply pow5_pos; lia).
  assert (T : 10 ^ Z.of_nat E = 2 ^ Z.of_nat E * 5 ^ Z.of_nat E) by (apply ten_power; lia).
  destruct (Z.eq_dec n 0) as [->|N].
  { change (Z.abs 0) with 0. rewrite Z.mul_0_l, shown_abs_0 by exact HP. split; [|reflexivity]. intros _. exists 0, 0, 0.
    split; [lia|]. split; [lia|]. split; [|reflexivity]. cbn [Z.abs]. apply pow10_pos. lia. }
  set (a := Z.abs n * 5 ^ Z.of_nat E). assert (A : 0 < a) by (apply Z.mul_pos_pos; lia). rewrite (shown_abs_significant p a HP A). split.
  - intros (d & e & E0 & D & EQ). exists (Z.sgn n * d), e, (Z.of_nat E). split; [exact E0|]. split; [lia|]. split.
    + rewrite Z.abs_mul. assert (Z.abs (Z.sgn n) = 1) as -> by (destruct n; cbn; lia). lia.
    + rewrite T. replace n with (Z.sgn n * Z.abs n) at 1 by (rewrite Z.mul_comm; apply Z.abs_sgn).
      transitivity (Z.sgn n * 2 ^ Z.of_nat E * a); [unfold a; ring|]. rewrite EQ. ring.
  - intros (d & i & j & I & J & D & EQ). set (g := i + Z.of_nat E).
    assert (EA : a * 10 ^ j = Z.abs d * 10 ^ g).
    { assert (Q : Z.abs (n * 10 ^ j) = Z.abs (d * 10 ^ i * 2 ^ Z.of_nat E)) by now rewrite EQ. rewrite !Z.abs_mul in Q.
      rewrite !(Z.abs_eq (_ ^ _)) in Q by (apply Z.pow_nonneg; lia). unfold a, g. rewrite Z.pow_add_r, T by lia.
      transitivity (Z.abs n * 10 ^ j * 5 ^ Z.of_nat E); [ring|]. rewrite Q. ring. }
    destruct (Z_le_gt_dec j g) as [G|G].
    + exists (Z.abs d), (g - j). split; [lia|]. split; [lia|]. apply (Z.mul_reg_r _ _ (10 ^ j)); [pose proof (pow10_pos j J); lia|].
      rewrite EA, <- Z.mul_assoc, <- Z.pow_add_r by lia. do 2 f_equal. lia.
    + assert (EA' : a * 10 ^ (j - g) = Z.abs d).
      { apply (Z.mul_reg_r _ _ (10 ^ g)); [pose proof (pow10_pos g); lia|]. rewrite <- EA, <- Z.mul_assoc, <- Z.pow_add_r by lia. do 2 f_equal. lia. }
      exists a, 0. split; [lia|]. split; [|change (10 ^ 0) with 1; lia]. pose proof (pow10_pos (j - g) ltac:(lia)) as W.
      assert (a * 1 <= a * 10 ^ (j - g)) by (apply Z.mul_le_mono_nonneg_l; lia). lia.
Qed.
Lemma back_exact b E p n : 0 < b -> (exists m k, 0 <= k /\ Z.abs m < 2 ^ b /\ n = m * 2 ^ k) ->
  printed E p n = Z.abs n * 5 ^ Z.of_nat E -> back b E p n = n.
Proof.
  intros Hb R H. unfold back. rewrite H, nearest_exact; [rewrite Z.mul_comm; apply Z.abs_sgn|exact Hb|apply pow5_pos; lia|lia|].
  destruct R as (m & k & K & M & ->). exists (Z.abs m), k. rewrite Z.abs_mul, (Z.abs_eq (2 ^ k)) by (apply Z.pow_nonneg; lia). repeat split; lia.
Qed.
(** printed with enough digits, a value of the type is the nearest to what is printed *)
Lemma nearest_printed b E p n : 0 < b -> (1 <= p)%nat -> 2 ^ b < 10 ^ Z.of_nat (p - 1) ->
  (exists m k, 0 <= k /\ Z.abs m < 2 ^ b /\ n = m * 2 ^ k) -> back b E p n = n.
Proof.
  intros Hb HP H (m' & k' & K' & M' & E'). unfold back. destruct (Z.eq_dec n 0) as [->|N]; [reflexivity|].
  assert (R : exists m k, 0 <= k /\ Z.abs m < 2 ^ b /\ Z.abs n = m * 2 ^ k).
  { exists (Z.abs m'), k'. rewrite E', Z.abs_mul, (Z.abs_eq (2 ^ k')) by (apply Z.pow_nonneg; lia). repeat split; lia. }
  destruct (normal b Hb (Z.abs n) ltac:(lia) R) as (m & k & K & M & L & EN). clear m' k' K' M' E' R.
  assert (P2 : 0 < 2 ^ k) by (apply pow2_pos; exact K). set (c := 5 ^ Z.of_nat E). assert (C5 : 0 < c) by (apply pow5_pos; lia).
  unfold printed. rewrite Nat.max_r by lia. fold c. rewrite EN. set (a := m * 2 ^ k * c).
  assert (A : 0 < a) by (unfold a; repeat apply Z.mul_pos_pos; lia). pose proof (shown_abs_error p a HP A) as ER.
  pose proof (shown_abs_nonneg p a HP ltac:(lia)) as Z0.
  set (z := shown_abs p a) in *. set (t := 10 ^ Z.of_nat (p - 1)) in *. assert (B : 0 < 2 ^ b) by (apply pow2_pos; lia).
  set (q := 2 ^ k * c). assert (Q : 0 < q) by (apply Z.mul_pos_pos; assumption). assert (EA : a = m * q) by (unfold a, q; ring).
  assert (C : 2 * Z.abs (z - a) * 2 ^ b <= a).
  { apply (Z.le_trans _ (2 * Z.abs (z - a) * t)); [|exact ER]. apply Z.mul_le_mono_nonneg_l; lia. }
  assert (N1 : 2 * Z.abs (z - a) < q).
  { apply (Z.mul_lt_mono_pos_r (2 ^ b)); [exact B|]. apply (Z.le_lt_trans _ _ _ C). rewrite EA, (Z.mul_comm q). apply Z.mul_lt_mono_pos_r; lia. }
  assert (N2 : m = 2 ^ (b - 1) -> 4 * Z.abs (z - a) < q).
  { intros EM. assert (EB : 2 ^ b = 2 * 2 ^ (b - 1)) by (rewrite <- Z.pow_succ_r by lia; f_equal; lia).
    assert (Ea : a = 2 ^ (b - 1) * q) by (rewrite EA, EM; reflexivity).
    assert (4 * Z.abs (z - a) <= q) as W.
    { apply (Z.mul_le_mono_pos_r _ _ (2 ^ (b - 1))); [apply pow2_pos; lia|]. rewrite EB in C. lia. }
    destruct (Z.eq_dec (4 * Z.abs (z - a)) q) as [X|X]; [exfalso|lia].
    assert (0 < Z.abs (z - a)) by lia.
    assert (2 * Z.abs (z - a) * 2 ^ b < 2 * Z.abs (z - a) * t) by (apply Z.mul_lt_mono_pos_l; lia).
    assert (2 * Z.abs (z - a) * 2 ^ b < a) as C' by lia. rewrite EB in C'.
    assert (4 * Z.abs (z - a) * 2 ^ (b - 1) < q * 2 ^ (b - 1)) by lia. rewrite X in *. lia. }
  rewrite (nearest_close b Hb z c m k C5 Z0 K M L).
  - rewrite <- EN, Z.mul_comm. apply Z.abs_sgn.
  - fold a q. lia.
  - fold a q. intros _ EM _. specialize (N2 EM). lia.
Qed.
(** a value closest to a number with few digits is printed as that number *)
Lemma shown_abs_decimal p a d s : (1 <= p)%nat -> 0 < a -> 0 <= s -> 0 <= d < 10 ^ Z.of_nat p ->
  2 * Z.abs (d * 10 ^ s - a) * 10 ^ Z.of_nat p < a -> shown_abs p a = d * 10 ^ s.
Proof.
  intros HP A S D N. set (z := d * 10 ^ s) in *. pose proof (exponent10_ok a A) as [X1 X2]. unfold shown_abs. set (x := exponent10 a) in *.
  set (t := 10 ^ Z.of_nat p) in *. assert (T1 : 1 <= t) by (pose proof (pow10_pos (Z.of_nat p) ltac:(lia)); lia).
  assert (PS : 0 < 10 ^ s) by (apply pow10_pos; exact S).
  assert (HALF : a < 2 * z).
  { assert (2 * Z.abs (z - a) * 1 <= 2 * Z.abs (z - a) * t) by (apply Z.mul_le_mono_nonneg_l; lia). lia. }
  destruct (Nat.ltb_spec x p) as [L|L].
  - assert (10 ^ (Z.of_nat x + 1) <= t) by (apply Z.pow_le_mono_r; lia).
    destruct (Z.eq_dec z a) as [Q|Q]; [lia|exfalso]. assert (1 * t <= Z.abs (z - a) * t) by (apply Z.mul_le_mono_nonneg_r; lia). lia.
  - set (k := (x - (p - 1))%nat). assert (K : 0 < 10 ^ Z.of_nat k) by (apply pow10_pos; lia).
    assert (ZX : 10 ^ Z.of_nat x <= z).
    { destruct (Z_le_gt_dec (10 ^ Z.of_nat x) z) as [G|G]; [exact G|exfalso].
      assert (D1 : 1 <= d) by (destruct (Z.eq_dec d 0) as [->|]; [unfold z in HALF; lia|lia]).
      destruct (Z_le_gt_dec (Z.of_nat x) s) as [C|C].
      - assert (10 ^ Z.of_nat x <= 10 ^ s) by (apply Z.pow_le_mono_r; lia). assert (1 * 10 ^ s <= d * 10 ^ s) by (apply Z.mul_le_mono_nonneg_r; lia).
        unfold z in G. lia.
      - assert (EX : 10 ^ Z.of_nat x = 10 ^ (Z.of_nat x - s) * 10 ^ s) by (rewrite <- Z.pow_add_r by lia; f_equal; lia).
        assert (z + 10 ^ s <= 10 ^ Z.of_nat x).
        { rewrite EX in G |- *. unfold z in G |- *. assert (d < 10 ^ (Z.of_nat x - s)) by (apply (Z.mul_lt_mono_pos_r (10 ^ s)); lia).
          assert ((d + 1) * 10 ^ s <= 10 ^ (Z.of_nat x - s) * 10 ^ s) by (apply Z.mul_le_mono_nonneg_r; lia). lia. }
        assert (10 ^ s * t <= Z.abs (z - a) * t) by (apply Z.mul_le_mono_nonneg_r; lia).
        assert (d * 10 ^ s < t * 10 ^ s) by (apply Z.mul_lt_mono_pos_r; lia). unfold z in HALF. lia. }
    assert (SK : Z.of_nat k <= s).
    { assert (Z.of_nat x < Z.of_nat p + s); [|lia]. apply (Z.pow_lt_mono_r_iff 10); [lia|lia|]. apply (Z.le_lt_trans _ _ _ ZX).
      unfold z. rewrite Z.pow_add_r by lia. apply Z.mul_lt_mono_pos_r; lia. }
    assert (EZ : z = d * 10 ^ (s - Z.of_nat k) * 10 ^ Z.of_nat k).
    { unfold z. rewrite <- Z.mul_assoc, <- Z.pow_add_r by lia. do 2 f_equal. lia. }
    rewrite (half_even_unique a (10 ^ Z.of_nat k) (d * 10 ^ (s - Z.of_nat k))); [symmetry; exact EZ|exact K|].
    rewrite <- EZ. apply (Z.mul_lt_mono_pos_r t); [lia|].
    assert (ET : 10 ^ (Z.of_nat x + 1) = 10 ^ Z.of_nat k * t) by (unfold t; rewrite <- Z.pow_add_r by lia; f_equal; lia). lia.
Qed.
Lemma closest_printed b E p n : 0 < b -> (1 <= p)%nat -> 10 ^ Z.of_nat p <= 2 ^ (b - 1) -> 2 ^ (b - 1) <= Z.abs n ->
  (exists m k, 0 <= k /\ Z.abs m < 2 ^ b /\ n = m * 2 ^ k) -> closest b E p n -> back b E p n = n.
Proof.
  intros Hb HP HD HN (m' & k' & K' & M' & E') (d0 & i & j & I & J & D0 & CL).
  set (y := Z.sgn n). set (d := y * d0).
  assert (PB : 0 < 2 ^ (b - 1)) by (apply pow2_pos; lia). assert (Y : y = 1 \/ y = -1) by (unfold y; destruct n; cbn in *; lia).
  assert (YN : y * n = Z.abs n) by (unfold y; destruct n; cbn in *; lia).
  assert (D : Z.abs d < 10 ^ Z.of_nat p) by (unfold d; destruct Y as [-> | ->]; lia). set (V := d * 10 ^ i * 2 ^ Z.of_nat E).
  assert (CL' : forall m k, 0 <= k -> Z.abs m < 2 ^ b -> m * 2 ^ k <> Z.abs n ->
    Z.abs (Z.abs n * 10 ^ j - V) < Z.abs (m * 2 ^ k * 10 ^ j - V)).
  { intros m k K M Q. specialize (CL (y * m) k K). rewrite <- YN. unfold V, d. destruct Y as [Y|Y]; rewrite Y in *.
    - rewrite !Z.mul_1_l in *. apply CL; [lia|]. lia.
    - replace (-1 * n * 10 ^ j - -1 * d0 * 10 ^ i * 2 ^ Z.of_nat E) with (- (n * 10 ^ j - d0 * 10 ^ i * 2 ^ Z.of_nat E)) by ring.
      replace (m * 2 ^ k * 10 ^ j - -1 * d0 * 10 ^ i * 2 ^ Z.of_nat E) with (- (-1 * m * 2 ^ k * 10 ^ j - d0 * 10 ^ i * 2 ^ Z.of_nat E)) by ring.
      rewrite !Z.abs_opp. apply CL; lia. }
  assert (R : exists m k, 0 <= k /\ Z.abs m < 2 ^ b /\ Z.abs n = m * 2 ^ k).
  { exists (Z.abs m'), k'. rewrite E', Z.abs_mul, (Z.abs_eq (2 ^ k')) by (apply Z.pow_nonneg; lia). repeat split; lia. }
  destruct (normal b Hb (Z.abs n) ltac:(lia) R) as (m & k & K & M & L & EN). clear m' k' K' M' E' R CL.
  assert (ML : 2 ^ (b - 1) <= m) by (destruct (Z.eq_dec k 0) as [->|]; [change (2 ^ 0) with 1 in EN; lia|auto]).
  assert (BB : 2 ^ b = 2 * 2 ^ (b - 1)) by (rewrite <- Z.pow_succ_r by lia; f_equal; lia).
  assert (P2 : 0 < 2 ^ k) by (apply pow2_pos; exact K). assert (PJ : 0 < 10 ^ j) by (apply pow10_pos; exact J).
  assert (PI : 0 < 10 ^ i) by (apply pow10_pos; exact I). assert (P2E : 0 < 2 ^ Z.of_nat E) by (apply pow2_pos; lia).
  set (u := 2 ^ k * 10 ^ j). assert (U : 0 < u) by (apply Z.mul_pos_pos; assumption).
  assert (EU : Z.abs n * 10 ^ j = m * u) by (rewrite EN; unfold u; ring).
  (* the neighbours *)
  assert (N1 : Z.abs (m * u - V) < Z.abs (m * u + u - V)).
  { rewrite <- EU. replace (Z.abs n * 10 ^ j + u) with ((m + 1) * 2 ^ k * 10 ^ j) by (rewrite EU; unfold u; ring).
    destruct (Z.eq_dec (m + 1) (2 ^ b)) as [Q|Q].
    - replace ((m + 1) * 2 ^ k) with (2 ^ (b - 1) * 2 ^ (k + 1)) by (rewrite Q, BB, Z.pow_add_r by lia; ring). apply CL'; [lia|lia|].
      replace (2 ^ (b - 1) * 2 ^ (k + 1)) with ((m + 1) * 2 ^ k) by (rewrite Q, BB, Z.pow_add_r by lia; ring). rewrite EN. lia.
    - apply CL'; [exact K|lia|]. rewrite EN. lia. }
  assert (N2 : Z.abs (m * u - V) < Z.abs (m * u - u - V)).
  { rewrite <- EU. replace (Z.abs n * 10 ^ j - u) with ((m - 1) * 2 ^ k * 10 ^ j) by (rewrite EU; unfold u; ring).
    apply CL'; [exact K|lia|]. rewrite EN. lia. }
  assert (NEAR : 2 * Z.abs (m * u - V) < u) by lia.
  assert (N3 : k <> 0 -> m = 2 ^ (b - 1) -> V < m * u -> 4 * (m * u - V) < u).
  { intros K0 EM LV. assert (E3 : 2 ^ k = 2 * 2 ^ (k - 1)) by (rewrite <- Z.pow_succ_r by lia; f_equal; lia).
    assert (0 < 2 ^ (k - 1)) by (apply pow2_pos; lia).
    assert (EQ : (2 ^ b - 1) * 2 ^ (k - 1) = m * 2 ^ k - 2 ^ (k - 1)) by (rewrite EM, BB, E3; ring).
    specialize (CL' (2 ^ b - 1) (k - 1) ltac:(lia) ltac:(lia)). rewrite EQ in CL'. specialize (CL' ltac:(lia)). rewrite EU in CL'.
    assert (EQ' : (m * 2 ^ k - 2 ^ (k - 1)) * 10 ^ j = m * u - 2 ^ (k - 1) * 10 ^ j) by (unfold u; ring). rewrite EQ' in CL'.
    assert (u = 2 * (2 ^ (k - 1) * 10 ^ j)) by (unfold u; rewrite E3; ring). lia. }
  clear N1 N2 CL'.
  assert (UM : 2 ^ (b - 1) * u <= m * u) by (apply Z.mul_le_mono_nonneg_r; lia).
  assert (U1 : 1 * u <= 2 ^ (b - 1) * u) by (apply Z.mul_le_mono_nonneg_r; lia).
  assert (VP : m * u < 2 * V) by lia.
  assert (DP : 0 < d).
  { destruct (Z_lt_le_dec 0 d) as [G|G]; [exact G|exfalso]. assert (d * (10 ^ i * 2 ^ Z.of_nat E) <= 0) by (apply Z.mul_nonpos_nonneg; [exact G|apply Z.mul_nonneg_nonneg; lia]).
    unfold V in VP. lia. }
  rewrite Z.abs_eq in D by lia.
  set (s := i + Z.of_nat E - j).
  assert (S : 0 <= s).
  { destruct (Z_le_gt_dec 0 s) as [G|G]; [exact G|exfalso].
    assert (G1 : 10 ^ (i + (Z.of_nat E + 1)) <= 10 ^ j) by (apply Z.pow_le_mono_r; lia). rewrite Z.pow_add_r, Z.add_1_r, Z.pow_succ_r in G1 by lia.
    assert (G2 : 2 ^ Z.of_nat E <= 10 ^ Z.of_nat E) by (apply Z.pow_le_mono_l; lia).
    assert (G3 : 10 ^ Z.of_nat p * 10 ^ j <= Z.abs n * 10 ^ j) by (apply Z.mul_le_mono_nonneg_r; lia). rewrite EU in G3.
    assert (G4 : 10 ^ Z.of_nat p * (10 ^ i * (10 * 10 ^ Z.of_nat E)) <= 10 ^ Z.of_nat p * 10 ^ j) by (apply Z.mul_le_mono_nonneg_l; [apply Z.pow_nonneg|]; lia).
    assert (G5 : d * (10 ^ i * 2 ^ Z.of_nat E) <= d * (10 ^ i * 10 ^ Z.of_nat E)) by (apply Z.mul_le_mono_nonneg_l; [lia|]; apply Z.mul_le_mono_nonneg_l; lia).
    assert (G6 : d * (10 ^ i * 10 ^ Z.of_nat E) < 10 ^ Z.of_nat p * (10 ^ i * 10 ^ Z.of_nat E)).
    { apply Z.mul_lt_mono_pos_r; [apply Z.mul_pos_pos; lia|exact D]. }
    unfold V in VP. lia. }
  set (c := 5 ^ Z.of_nat E). assert (C5 : 0 < c) by (apply pow5_pos; lia).
  assert (TE : 10 ^ Z.of_nat E = 2 ^ Z.of_nat E * c) by (apply ten_power; lia).
  set (z := d * 10 ^ s). assert (EZ : z * 10 ^ j = V * c).
  { unfold z, V. rewrite <- Z.mul_assoc, <- Z.pow_add_r by lia. unfold s. replace (i + Z.of_nat E - j + j) with (i + Z.of_nat E) by lia.
    rewrite Z.pow_add_r, TE by lia. ring. }
  set (q := 2 ^ k * c). assert (EQ : u * c = q * 10 ^ j) by (unfold u, q; ring).
  assert (EA : Z.abs n * c = m * q) by (rewrite EN; unfold q; ring).
  assert (NEAR' : 2 * Z.abs (m * q - z) < q).
  { apply (Z.mul_lt_mono_pos_r (10 ^ j)); [exact PJ|]. rewrite <- EQ.
    assert (EABS : Z.abs (m * q - z) * 10 ^ j = Z.abs (m * u - V) * c).
    { transitivity (Z.abs ((m * q - z) * 10 ^ j)); [rewrite Z.abs_mul, (Z.abs_eq (10 ^ j)) by lia; reflexivity|].
      transitivity (Z.abs ((m * u - V) * c)); [|rewrite Z.abs_mul, (Z.abs_eq c) by lia; reflexivity].
      f_equal. rewrite !Z.mul_sub_distr_r, EZ, <- !Z.mul_assoc, EQ. reflexivity. }
    rewrite <- Z.mul_assoc, EABS, Z.mul_assoc. apply Z.mul_lt_mono_pos_r; lia. }
  assert (Q0 : 0 < q) by (apply Z.mul_pos_pos; lia).
  assert (PR : printed E p n = z).
  { unfold printed. rewrite Nat.max_r by lia. fold c. rewrite EA. assert (0 < m * q) by (apply Z.mul_pos_pos; lia). apply shown_abs_decimal; [exact HP|assumption|exact S|lia|].
    fold z. replace (Z.abs (z - m * q)) with (Z.abs (m * q - z)) by lia.
    apply (Z.le_lt_trans _ (2 * Z.abs (m * q - z) * 2 ^ (b - 1))); [apply Z.mul_le_mono_nonneg_l; lia|].
    apply (Z.lt_le_trans _ (q * 2 ^ (b - 1))); [apply Z.mul_lt_mono_pos_r; lia|]. rewrite (Z.mul_comm q). apply Z.mul_le_mono_nonneg_r; lia. }
  unfold back. rewrite PR. fold c.
  assert (EMQ : m * 2 ^ k * c = m * q) by (unfold q; ring).
  rewrite (nearest_close b Hb z c m k C5 ltac:(apply Z.mul_nonneg_nonneg; [lia|apply Z.pow_nonneg; lia]) K M L).
  - rewrite <- EN, Z.mul_comm. apply Z.abs_sgn.
  - rewrite EMQ. exact NEAR'.
  - rewrite EMQ. fold q. intros K0 EM LZ.
    assert (LV : V < m * u).
    { apply (Z.mul_lt_mono_pos_r c); [exact C5|]. rewrite <- EZ, <- Z.mul_assoc, EQ, Z.mul_assoc. apply Z.mul_lt_mono_pos_r; assumption. }
    specialize (N3 K0 EM LV). apply (Z.mul_lt_mono_pos_r (10 ^ j)); [exact PJ|]. rewrite <- EQ.
    replace (4 * (m * q - z) * 10 ^ j) with (4 * (m * (q * 10 ^ j) - z * 10 ^ j)) by ring. rewrite <- EQ, EZ.
    replace (4 * (m * (u * c) - V * c)) with (4 * (m * u - V) * c) by ring. apply Z.mul_lt_mono_pos_r; assumption.
Qed.
(** the number printed for an integer is an integer *)
Lemma printed_integer E p n : (1 <= p)%nat ->
  printed E p (n * 2 ^ Z.of_nat E) = Z.abs (n * 2 ^ Z.of_nat E) * 5 ^ Z.of_nat E \/ exists w, 0 <= w /\ printed E p (n * 2 ^ Z.of_nat E) = w * 10 ^ Z.of_nat E.
Proof.
  intros HP. unfold printed. rewrite Nat.max_r by lia.
  assert (T : Z.abs (n * 2 ^ Z.of_nat E) * 5 ^ Z.of_nat E = Z.abs n * 10 ^ Z.of_nat E).
  { rewrite Z.abs_mul, (Z.abs_eq (2 ^ _)) by (apply Z.pow_nonneg; lia). rewrite ten_power by lia. ring. }
  rewrite T. set (a := Z.abs n * 10 ^ Z.of_nat E). unfold shown_abs. set (x := exponent10 a). destruct (Nat.ltb_spec x p) as [L|L]; [left; reflexivity|].
  set (k := (x - (p - 1))%nat). assert (K : 0 < 10 ^ Z.of_nat k) by (apply pow10_pos; lia).
  assert (A : 0 <= a) by (apply Z.mul_nonneg_nonneg; [lia|apply Z.pow_nonneg; lia]). destruct (Nat.le_gt_cases E k) as [G|G].
  - right. exists (half_even a (10 ^ Z.of_nat k) * 10 ^ Z.of_nat (k - E)). split.
    + apply Z.mul_nonneg_nonneg; [apply half_even_nonneg; lia|apply Z.pow_nonneg; lia].
    + rewrite <- Z.mul_assoc, <- Z.pow_add_r by lia. do 2 f_equal. lia.
  - left. assert (Ea : a = Z.abs n * 10 ^ Z.of_nat (E - k) * 10 ^ Z.of_nat k).
    { unfold a. rewrite <- Z.mul_assoc, <- Z.pow_add_r by lia. do 2 f_equal. lia. }
    rewrite Ea at 1. rewrite half_even_mult by exact K. symmetry. exact Ea.
Qed.
Lemma integer_differs b E p n : 0 < b -> (1 <= p)%nat -> Z.abs n < 2 ^ b ->
  back b E p (n * 2 ^ Z.of_nat E) = n * 2 ^ Z.of_nat E <-> significant E p (n * 2 ^ Z.of_nat E).
Proof.
  intros Hb HP N. rewrite <- printed_significant by exact HP. split.
  2:{ apply back_exact; [exact Hb|]. exists n, (Z.of_nat E). repeat split; lia. }
  intros H. destruct (printed_integer E p n HP) as [I|(w & W & I)]; [exact I|]. rewrite I.
  assert (P2 : 0 < 2 ^ Z.of_nat E) by (apply pow2_pos; lia). assert (P5 : 0 < 5 ^ Z.of_nat E) by (apply pow5_pos; lia).
  assert (T : 10 ^ Z.of_nat E = 2 ^ Z.of_nat E * 5 ^ Z.of_nat E) by (apply ten_power; lia).
  destruct (Z.eq_dec n 0) as [->|N0].
  { rewrite Z.mul_0_l in *. unfold printed in I. change (Z.abs 0) with 0 in I. rewrite Z.mul_0_l, shown_abs_0 in I by lia. rewrite <- I. reflexivity. }
  unfold back in H. rewrite I in H.
  assert (EN : nearest b (w * 10 ^ Z.of_nat E) (5 ^ Z.of_nat E) = nearest b (w * 2 ^ Z.of_nat E) 1).
  { apply nearest_ratio; [lia|lia|]. rewrite T. ring. }
  rewrite EN in H.
  assert (H' : nearest b (w * 2 ^ Z.of_nat E) 1 = Z.abs n * 2 ^ Z.of_nat E).
  { assert (S : Z.sgn (n * 2 ^ Z.of_nat E) = Z.sgn n) by (rewrite Z.sgn_mul, (Z.sgn_pos (2 ^ _)) by lia; lia). rewrite S in H.
    replace n with (Z.sgn n * Z.abs n) in H at 2 by (rewrite Z.mul_comm; apply Z.abs_sgn). rewrite <- Z.mul_assoc in H.
    apply (Z.mul_reg_l _ _ (Z.sgn n)); [|exact H]. destruct n; cbn; lia. }
  destruct (Z_lt_le_dec w (2 ^ b)) as [L|L].
  - replace (w * 2 ^ Z.of_nat E) with (w * 2 ^ Z.of_nat E * 1) in H' by ring. rewrite nearest_exact in H'; try lia.
    { rewrite Z.abs_mul, (Z.abs_eq (2 ^ _)) by lia. rewrite T. transitivity (w * 2 ^ Z.of_nat E * 5 ^ Z.of_nat E); [ring|]. rewrite H'. reflexivity. }
    exists w, (Z.of_nat E). repeat split; lia.
  - exfalso. assert (2 ^ (b + Z.of_nat E) <= nearest b (w * 2 ^ Z.of_nat E) 1) as G.
    { apply nearest_big; [exact Hb|lia|lia|]. rewrite Z.mul_1_r, Z.pow_add_r by lia. apply Z.mul_le_mono_nonneg_r; lia. }
    rewrite H', Z.pow_add_r in G by lia. apply Z.mul_le_mono_pos_r in G; lia.
Qed.
Lemma printed_bound E p n : 0 <= printed E p n <= 2 * (Z.abs n * 5 ^ Z.of_nat E).
Proof.
  unfold printed. set (P := Nat.max 1 p). assert (HP : (1 <= P)%nat) by (unfold P; lia). assert (P5 : 0 < 5 ^ Z.of_nat E) by (apply pow5_pos; lia).
  set (a := Z.abs n * 5 ^ Z.of_nat E). assert (A : 0 <= a) by (apply Z.mul_nonneg_nonneg; lia).
  split; [apply shown_abs_nonneg; assumption|]. destruct (Z.eq_dec a 0) as [->|N]; [rewrite shown_abs_0; lia|].
  pose proof (shown_abs_error P a HP ltac:(lia)) as ER.
  assert (1 <= 10 ^ Z.of_nat (P - 1)) by (pose proof (pow10_pos (Z.of_nat (P - 1)) ltac:(lia)); lia).
  set (z := shown_abs P a) in *. assert (2 * Z.abs (z - a) * 1 <= a).
  { apply (Z.le_trans _ (2 * Z.abs (z - a) * 10 ^ Z.of_nat (P - 1))); [apply Z.mul_le_mono_nonneg_l; lia|exact ER]. }
  lia.
Qed.
Lemma back_bound b E p n j : 0 < b -> b <= j -> 2 * Z.abs n < 2 ^ j -> Z.abs (back b E p n) <= 2 ^ j.
Proof.
  intros Hb J N. pose proof (printed_bound E p n) as [B0 B1]. assert (P5 : 0 < 5 ^ Z.of_nat E) by (apply pow5_pos; lia).
  assert (2 * Z.abs n * 5 ^ Z.of_nat E < 2 ^ j * 5 ^ Z.of_nat E) by (apply Z.mul_lt_mono_pos_r; lia).
  destruct (nearest_bound b Hb (printed E p n) (5 ^ Z.of_nat E) j) as [N0 N1]; try lia. unfold back. rewrite Z.abs_mul.
  assert (Z.abs (Z.sgn n) <= 1) by (destruct n; cbn; lia). rewrite (Z.abs_eq (nearest _ _ _)) by exact N0.
  assert (Z.abs (Z.sgn n) * nearest b (printed E p n) (5 ^ Z.of_nat E) <= 1 * nearest b (printed E p n) (5 ^ Z.of_nat E)) by (apply Z.mul_le_mono_nonneg_r; lia).
  lia.
Qed.

(** ** the texts *)
Lemma digit_char_ok d : 0 <= d < 10 -> is_digit (digit_char d) = true /\ digit_value (digit_char d) = d.
Proof.
  intros H. assert (C : d = 0 \/ d = 1 \/ d = 2 \/ d = 3 \/ d = 4 \/ d = 5 \/ d = 6 \/ d = 7 \/ d = 8 \/ d = 9) by lia.
  repeat (destruct C as [-> | C]; [vm_compute; split; reflexivity|]). subst d. vm_compute. split; reflexivity.
Qed.
Lemma digits_snoc t c : digits_value (t ++ [c]) = 10 * digits_value t + digit_value c.
Proof. unfold digits_value. rewrite fold_left_app. reflexivity. Qed.
Lemma digits_app t u : digits_value (t ++ u) = digits_value t * 10 ^ Z.of_nat (List.length u) + digits_value u.
Proof.
  induction u as [|c u IH] using rev_ind.
  - rewrite app_nil_r. cbn [List.length]. change (10 ^ Z.of_nat 0) with 1. change (digits_value []) with 0. lia.
  - rewrite app_assoc, !digits_snoc, IH, app_length, Nat.add_comm. cbn [List.length Nat.add]. rewrite Nat2Z.inj_succ, Z.pow_succ_r by lia. ring.
Qed.
Lemma fixed_ok f : forall r, 0 <= r < 10 ^ Z.of_nat f ->
  List.length (fixed f r) = f /\ forallb is_digit (fixed f r) = true /\ digits_value (fixed f r) = r.
Proof.
  induction f as [|f IH]; intros r R.
  - cbn in R |- *. repeat split. lia.
  - rewrite Nat2Z.inj_succ, Z.pow_succ_r in R by lia. cbn [fixed].
    pose proof (Z.div_mod r 10 ltac:(lia)). pose proof (Z.mod_pos_bound r 10 ltac:(lia)) as B.
    destruct (IH (r / 10)) as (I1 & I2 & I3); [split; [apply Z.div_pos; lia|apply Z.div_lt_upper_bound; lia]|].
    destruct (digit_char_ok (r mod 10) B) as [D1 D2]. rewrite app_length, I1, forallb_app, I2, digits_snoc, I3, D2. cbn [forallb List.length].
    rewrite D1. repeat split; [lia|lia].
Qed.
Lemma strip_ok f : forall d, let '(g, e) := strip f d in (g <= f)%nat /\ d = e * 10 ^ Z.of_nat (f - g).
Proof.
  induction f as [|f IH]; intros d; cbn [strip].
  - split; [lia|]. cbn. lia.
  - destruct (Z.eqb_spec (d mod 10) 0) as [M|M].
    + specialize (IH (d / 10)). destruct (strip f (d / 10)) as [g e]. destruct IH as [G E]. split; [lia|].
      replace (S f - g)%nat with (S (f - g)) by lia. rewrite Nat2Z.inj_succ, Z.pow_succ_r by lia.
      pose proof (Z.div_mod d 10 ltac:(lia)). rewrite E in H. lia.
    + split; [lia|]. rewrite Nat.sub_diag. cbn. lia.
Qed.
Lemma nat_text_ok a : 0 <= a -> int_text a <> [] /\ forallb is_digit (int_text a) = true /\ digits_value (int_text a) = a.
Proof.
  intros A. destruct a as [|a|a]; [vm_compute; repeat split; discriminate| |lia]. unfold int_text. cbn [Z.to_int].
  pose proof (DecimalPos.Unsigned.to_uint_nonnil a) as N. split; [destruct (Pos.to_uint a); cbn; congruence|]. split; [apply uint_text_digits|].
  rewrite digits_uint, DecimalPos.Unsigned.of_to. reflexivity.
Qed.

Lemma follow_ok c : list_follow c = true ->
  is_digit c = false /\ Ascii.eqb c "." = false /\ Ascii.eqb c "e" || Ascii.eqb c "E" = false.
Proof. destruct c as [[] [] [] [] [] [] [] []]; vm_compute; intuition congruence. Qed.
Inductive fraction : text -> text -> Prop := | Fr_none : fraction [] [] | Fr_some fp : forallb is_digit fp = true -> fraction (chars ".") fp.
Inductive exponent : text -> Z -> Prop :=
| Ex_none : exponent [] 0
| Ex_plus ed : ed <> [] -> forallb is_digit ed = true -> exponent (chars "e+" ++ ed) (digits_value ed)
| Ex_minus ed : ed <> [] -> forallb is_digit ed = true -> exponent (chars "e-" ++ ed) (- digits_value ed).
Lemma exponent_text_ok x : exponent (exponent_text x) x.
Proof.
  unfold exponent_text. destruct (nat_text_ok (Z.abs x)) as (X1 & X2 & X3); [lia|].
  set (ed := (if Z.abs x <? 10 then chars "0" else []) ++ int_text (Z.abs x)).
  assert (Hed : ed <> [] /\ forallb is_digit ed = true /\ digits_value ed = Z.abs x).
  { unfold ed. split; [destruct (Z.abs x <? 10); [discriminate|exact X1]|]. split; [rewrite forallb_app, X2; destruct (Z.abs x <? 10); reflexivity|].
    rewrite digits_app, X3. destruct (Z.abs x <? 10); cbn [chars String.list_ascii_of_string]; vm_compute (digits_value _); lia. }
  destruct Hed as (H1 & H2 & H3). destruct (Z.ltb_spec x 0) as [L|L].
  - replace x with (- digits_value ed) by lia. constructor; assumption.
  - replace x with (digits_value ed) by lia. constructor; assumption.
Qed.
Lemma converted_is b E m e i j z c : 0 < c -> 0 <= i -> 0 <= j -> e = i - j -> m * 10 ^ i * 2 ^ Z.of_nat E * c = z * 10 ^ j -> converted b E m e = nearest b z c.
Proof.
  intros C I J EE H. unfold converted. destruct (Z.leb_spec 0 e) as [L|L].
  - apply nearest_ratio; [lia|exact C|]. apply (Z.mul_reg_r _ _ (10 ^ j)); [pose proof (pow10_pos j J); lia|].
    replace i with (e + j) in H by lia. rewrite Z.pow_add_r in H by lia. lia.
  - apply nearest_ratio; [apply pow10_pos; lia|exact C|]. apply (Z.mul_reg_r _ _ (10 ^ i)); [pose proof (pow10_pos i I); lia|].
    replace j with (- e + i) in H by lia. rewrite Z.pow_add_r in H by lia. lia.
Qed.

Section Reader.
  Context (b emax : Z) (E : nat).
  Lemma float_reads alpha sg ip pt fp et e x : (sg = [] \/ sg = chars "-") -> ip <> [] -> forallb is_digit ip = true ->
    fraction pt fp -> exponent et e -> converted b E (digits_value (ip ++ fp)) (e - Z.of_nat (List.length fp)) = x ->
    x < 2 ^ (emax + Z.of_nat E) ->
    reads_as (read_float b emax E) alpha list_follow (match sg with [] => x | _ => - x end) (sg ++ ip ++ pt ++ fp ++ et).
  Proof.
    intros HS HI HD HF HE HZ HB. destruct ip as [|d ip]; [congruence|]. clear HI.
    assert (Dd : is_digit d = true) by (cbn in HD; now apply andb_true_iff in HD).
    destruct (digit_cases d Dd) as (Sd & Md & Pd). set (u := pt ++ fp ++ et).
    assert (Hstart : exists c0 t', sg ++ (d :: ip) ++ u = c0 :: t' /\ is_space c0 = false).
    { destruct HS as [-> | ->]; do 2 eexists; (split; [reflexivity|]); [exact Sd|reflexivity]. }
    split; [exact Hstart|]. intros s w c r Hg Hal Hw Ha Hc. destruct Hstart as (c0 & t' & Hst & Hc0).
    destruct (follow_ok c Hc) as (C1 & C2 & C3).
    assert (Ha' : i_after s = w ++ c0 :: (t' ++ c :: r)) by (rewrite Ha, Hst; reflexivity).
    unfold read_float. rewrite (sentry_at s w c0 (t' ++ c :: r) Hg Ha' Hw Hc0). cbn [i_after advance].
    replace (c0 :: t' ++ c :: r) with (sg ++ (d :: ip) ++ (u ++ c :: r)) by (rewrite !app_assoc, <- app_assoc, <- app_assoc, app_assoc, app_assoc; rewrite <- (app_assoc sg), Hst; reflexivity).
    assert (Hts : take_sign (sg ++ (d :: ip) ++ u ++ c :: r) = (sg, match sg with [] => false | _ => true end, (d :: ip) ++ u ++ c :: r)).
    { destruct HS as [-> | ->]; [|reflexivity]. cbn [app take_sign]. rewrite Md, Pd. reflexivity. }
    rewrite Hts.
    assert (E1 : exists c1 r1, et ++ c :: r = c1 :: r1 /\ is_digit c1 = false /\ Ascii.eqb c1 "." = false).
    { destruct HE as [|ed N D|ed N D]; [exists c, r; auto| |]; (do 2 eexists; split; [reflexivity|]; split; reflexivity). }
    assert (Hip : span is_digit ((d :: ip) ++ u ++ c :: r) = (d :: ip, u ++ c :: r)).
    { apply span_app; [exact HD|]. right. unfold u. destruct HF as [|fp' D'].
      - destruct E1 as (c1 & r1 & E0 & D1 & _). exists c1, r1. split; [exact E0|exact D1].
      - do 2 eexists. split; [reflexivity|reflexivity]. }
    rewrite Hip.
    assert (Hfr : take_fraction (u ++ c :: r) = (pt, fp, et ++ c :: r)).
    { unfold u. destruct E1 as (c1 & r1 & E0 & D1 & P1). destruct HF as [|fp' D'].
      - cbn [app]. rewrite E0. unfold take_fraction. rewrite P1. reflexivity.
      - rewrite <- !app_assoc. cbn [chars String.list_ascii_of_string app take_fraction]. rewrite (span_app is_digit fp' (et ++ c :: r) D').
        + reflexivity.
        + right. eauto. }
    rewrite Hfr. cbn [app] in HZ |- *.
    assert (Hex : take_exponent (et ++ c :: r) = (et, Some e, c :: r)).
    { destruct HE as [|ed N D|ed N D].
      1: cbn [app take_exponent]; rewrite C3; reflexivity.
      all: rewrite <- app_assoc; cbn [chars String.list_ascii_of_string app take_exponent]; cbn [Ascii.eqb Bool.eqb orb take_sign].
      all: rewrite (span_app is_digit ed (c :: r) D) by (right; eauto); destruct ed as [|d0 ed]; [congruence|]; reflexivity. }
    rewrite Hex, HZ. cbv zeta.
    destruct (Z.leb_spec (2 ^ (emax + Z.of_nat E)) x); [lia|].
    replace (match sg with [] => x | _ => - x end) with (if match sg with [] => false | _ => true end then - x else x) by (destruct sg; reflexivity).
    eexists. split; [reflexivity|]. unfold if_eof. cbn [i_after advance]. split; [exact Hg|].
    rewrite advance_advance. apply moved_advance. rewrite Ha. unfold u. rewrite <- !app_assoc. cbn [app]. rewrite <- !app_assoc. reflexivity.
  Qed.

  Lemma decimal_reads alpha sg f d et e x i j z c : (sg = [] \/ sg = chars "-") -> 0 <= d -> exponent et e ->
    0 < c -> 0 <= i -> 0 <= j -> e - Z.of_nat f = i - j -> d * 10 ^ i * 2 ^ Z.of_nat E * c = z * 10 ^ j -> nearest b z c = x -> x < 2 ^ (emax + Z.of_nat E) ->
    reads_as (read_float b emax E) alpha list_follow (match sg with [] => x | _ => - x end) (sg ++ decimal f d ++ et).
  Proof.
    intros HS D HE C I J EF EQ X B. unfold decimal. pose proof (strip_ok f d) as S. destruct (strip f d) as [g d']. destruct S as [G E0].
    assert (0 < 10 ^ Z.of_nat (f - g)) by (apply pow10_pos; lia). assert (0 <= d') as D' by (apply (Z.mul_le_mono_pos_r _ _ (10 ^ Z.of_nat (f - g))); lia).
    assert (P : 0 < 10 ^ Z.of_nat g) by (apply pow10_pos; lia).
    destruct (nat_text_ok (d' / 10 ^ Z.of_nat g)) as (I1 & I2 & I3); [apply Z.div_pos; lia|].
    destruct (fixed_ok g (d' mod 10 ^ Z.of_nat g)) as (F1 & F2 & F3); [apply Z.mod_pos_bound; exact P|].
    set (ip := int_text (d' / 10 ^ Z.of_nat g)) in *. set (fp := fixed g (d' mod 10 ^ Z.of_nat g)) in *.
    assert (HV : digits_value (ip ++ fp) = d').
    { rewrite digits_app, I3, F1, F3. pose proof (Z.div_mod d' (10 ^ Z.of_nat g) ltac:(lia)). lia. }
    assert (HT : exists pt, fraction pt fp /\ (if (g =? 0)%nat then [] else chars "." ++ fp) = pt ++ fp).
    { destruct (Nat.eqb_spec g 0) as [->|N]; [exists []; split; [constructor|reflexivity]|]. exists (chars "."). split; [constructor; exact F2|reflexivity]. }
    destruct HT as (pt & HF & HT). rewrite HT. rewrite <- !app_assoc.
    apply (float_reads alpha sg ip pt fp et e x HS I1 I2 HF HE); [|exact B].
    rewrite HV, F1, <- X. apply (converted_is b E d' _ (Z.of_nat (f - g) + i) j z c); try lia.
    rewrite <- EQ, E0, Z.pow_add_r by lia. ring.
  Qed.

  Lemma float_text_reads alpha p n : Z.abs (back b E p n) < 2 ^ (emax + Z.of_nat E) ->
    reads_as (read_float b emax E) alpha list_follow (back b E p n) (float_text E p n).
  Proof.
    intros B. unfold float_text. set (P := Nat.max 1 p). assert (HP : (1 <= P)%nat) by (unfold P; lia).
    set (a := Z.abs n * 5 ^ Z.of_nat E). set (sg := if n <? 0 then chars "-" else []).
    assert (HS : sg = [] \/ sg = chars "-") by (unfold sg; destruct (n <? 0); auto).
    assert (P5 : 0 < 5 ^ Z.of_nat E) by (apply pow5_pos; lia).
    destruct (Z.eqb_spec n 0) as [N|N].
    - subst n. cbn in sg. subst sg. change (back b E p 0) with 0 in *.
      assert (H0 : converted b E 0 0 = 0) by (apply nearest_0; lia).
      apply (float_reads alpha [] (chars "0") [] [] [] 0 0 HS ltac:(discriminate) eq_refl Fr_none Ex_none H0). lia.
    - set (x0 := nearest b (shown_abs P a) (5 ^ Z.of_nat E)).
      assert (HX : back b E p n = match sg with [] => x0 | _ => - x0 end).
      { unfold back, printed, sg. fold P a x0. destruct (Z.ltb_spec n 0) as [L|L]; [rewrite Z.sgn_neg by lia; cbn [chars String.list_ascii_of_string]; lia|].
        rewrite Z.sgn_pos by lia. lia. }
      assert (HB : x0 < 2 ^ (emax + Z.of_nat E)) by (destruct sg; lia). rewrite HX.
      assert (A : 0 < a) by (apply Z.mul_pos_pos; lia). pose proof (rounded_ok P a HP A) as R. destruct (rounded P a) as [d y]. destruct R as [D R].
      set (x := Z.of_nat y - Z.of_nat E).
      assert (EQ : d * 10 ^ Z.of_nat y * 2 ^ Z.of_nat E * 5 ^ Z.of_nat E = shown_abs P a * 10 ^ (Z.of_nat (P - 1) + Z.of_nat E)).
      { rewrite Z.pow_add_r, (ten_power (Z.of_nat E)) by lia. rewrite <- R. ring. }
      destruct ((x <? -4) || (Z.of_nat P <=? x)) eqn:ST.
      + apply (decimal_reads alpha sg (P - 1) d (exponent_text x) x x0 (Z.of_nat y) (Z.of_nat (P - 1) + Z.of_nat E) (shown_abs P a) (5 ^ Z.of_nat E));
          auto; try lia. apply exponent_text_ok.
      + apply orb_false_iff in ST. destruct ST as [_ ST]. apply Z.leb_gt in ST.
        rewrite <- (app_nil_r (decimal _ _)).
        apply (decimal_reads alpha sg (Z.to_nat (Z.of_nat P - 1 - x)) d [] 0 x0 (Z.of_nat y) (Z.of_nat (P - 1) + Z.of_nat E) (shown_abs P a) (5 ^ Z.of_nat E));
          auto; try lia. constructor.
  Qed.
  Lemma float_text_first p n t' : float_text E p n <> "]"%char :: t'.
  Proof.
    unfold float_text. destruct (n <? 0) eqn:S0; [discriminate|]. cbn [app]. destruct (Z.eqb_spec n 0) as [N|N]; [discriminate|].
    assert (G : forall a u, 0 <= a -> int_text a ++ u <> "]"%char :: t').
    { intros a u A. destruct (nat_text_ok a A) as (I1 & I2 & _). destruct (int_text a) as [|c t]; [congruence|]. intros E0. cbn in E0. injection E0 as -> _.
      cbn in I2. discriminate. }
    assert (S : forall f d u, 0 <= d -> decimal f d ++ u <> "]"%char :: t').
    { intros f d u D. unfold decimal. pose proof (strip_ok f d) as S. destruct (strip f d) as [g d']. destruct S as [_ E0]. rewrite <- app_assoc. apply G.
      apply Z.div_pos; [|apply pow10_pos; lia]. assert (0 < 10 ^ Z.of_nat (f - g)) by (apply pow10_pos; lia).
      apply (Z.mul_le_mono_pos_r _ _ (10 ^ Z.of_nat (f - g))); lia. }
    pose proof (rounded_ok (Nat.max 1 p) (Z.abs n * 5 ^ Z.of_nat E) ltac:(lia) ltac:(apply Z.mul_pos_pos; [lia|apply pow5_pos; lia])) as R.
    destruct (rounded _ _) as [d y]. destruct R as [D _]. destruct (_ || _); [|rewrite <- (app_nil_r (decimal _ _))]; apply S; exact D.
  Qed.
End Reader.

(** ** lists: the reader, made to tell what it has read *)
Definition mapres {S A B} (f : A -> B) (r : res S A) : res S B :=
  match r with Ret a s => Ret (f a) s | Exc e s => Exc e s | Ub u => Ub u | Abort => Abort | Fuel => Fuel end.
Section Tagged.
  Context {T : Type} (rd : M istream T).
  Definition taken (s s' : istream) : text :=
    snd (span is_space (rev (firstn (List.length (i_before s') - List.length (i_before s)) (i_before s')))).
  Definition tagged : M istream (text * T) := fun s =>
    match rd s with Ret x s' => Ret (taken s s', x) s' | Exc e s' => Exc e s' | Ub u => Ub u | Abort => Abort | Fuel => Fuel end.
  Lemma tagged_reads alpha fol x t : reads_as rd alpha fol x t -> reads_as tagged alpha fol (t, x) t.
  Proof.
    intros [H1 H2]. split; [exact H1|]. intros s w c r Hg Hal Hw Ha Hc. destruct (H2 s w c r Hg Hal Hw Ha Hc) as (s' & R & G & M).
    exists s'. split; [|auto]. unfold tagged. rewrite R. f_equal. f_equal. destruct M as (_ & Mb & _). unfold taken. rewrite Mb, app_length, Nat.add_sub.
    rewrite firstn_app, Nat.sub_diag, firstn_all, firstn_O, app_nil_r, rev_involutive. rewrite span_app; [reflexivity|exact Hw|]. right.
    destruct H1 as (c0 & t' & E & S). eauto.
  Qed.
  Lemma loop_tagged cl sep fuel : forall c v s,
    read_loop rd cl sep fuel c (map snd v) s = mapres (map snd) (read_loop tagged cl sep fuel c v s).
  Proof.
    induction fuel as [|f IH]; intros c v s; [reflexivity|]. cbn [read_loop]. destruct c as [ch|]; [|reflexivity]. cbn [read_var].
    destruct (Ascii.eqb ch cl); [reflexivity|]. destruct (i_eof s); [reflexivity|]. destruct (negb _); [reflexivity|].
    unfold bind. unfold tagged at 1. destruct (rd s) as [x s1| | | |]; try reflexivity. destruct (i_failed s1); [reflexivity|].
    destruct (extract_char (Some ch) s1) as [c' s2| | | |]; try reflexivity. specialize (IH c' (v ++ [(taken s s1, x)]) s2).
    rewrite map_app in IH. exact IH.
  Qed.
  Lemma vector_tagged s : read_vector rd s = mapres (map snd) (read_vector tagged s).
  Proof.
    unfold read_vector, read_sequence, bind. destruct (extract_char None s) as [c s1| | | |]; try reflexivity. destruct c as [ch|]; [|reflexivity]. cbn [read_var].
    destruct (negb _); [reflexivity|]. destruct (extract_char (Some ch) s1) as [c1 s2| | | |]; try reflexivity.
    destruct c1 as [ch1|]; [|reflexivity]. cbn [read_var]. destruct (Ascii.eqb ch1 "]").
    - exact (loop_tagged "]" "," _ (Some ch1) [] s2).
    - destruct (putback ch1 s2) as [u s3| | | |]; try reflexivity. exact (loop_tagged "]" "," _ (Some ","%char) [] s3).
  Qed.
End Tagged.
Lemma map_pair_fst {A B C} (f : A -> B) (g : A -> C) l : map fst (map (fun a => (f a, g a)) l) = map f l.
Proof. rewrite map_map. reflexivity. Qed.
Lemma map_pair_snd {A B C} (f : A -> B) (g : A -> C) l : map snd (map (fun a => (f a, g a)) l) = map g l.
Proof. rewrite map_map. reflexivity. Qed.

Section Lists.
  Context (b emax : Z) (E : nat) (Hb : 0 < b).
  Lemma lists_read alpha p v s rest : Forall (fun n => Z.abs (back b E p n) < 2 ^ (emax + Z.of_nat E)) v ->
    i_good s = true -> i_boolalpha s = alpha -> i_after s = o_text (print_vector (print_float E p) v (mkO [] alpha)) ++ rest ->
    exists s', read_vector (read_float b emax E) s = Ret (map (fun n => back b E p n) v) s' /\ i_good s' = true /\ i_after s' = rest.
  Proof.
    intros HV Hg Hal Ha. set (w := map (fun n => (float_text E p n, back b E p n)) v).
    assert (HP : o_text (print_vector (print_float E p) v (mkO [] alpha)) = ["["%char] ++ separated [","%char] (map fst w) ++ ["]"%char]).
    { unfold w. rewrite map_pair_fst.
      destruct (printing_formats Z (print_float E p) v (mkO [] alpha)) as (_ & _ & _ & _ & _ & Q).
      destruct (Q (float_text E p)) as [Q1 _]; [intros n o; reflexivity|]. rewrite Q1. reflexivity. }
    rewrite HP in Ha.
    assert (HR : Forall (readable (tagged (read_float b emax E)) fst list_follow "]" alpha) w).
    { unfold w. apply Forall_map. eapply Forall_impl; [|exact HV]. intros n N. cbn beta in *. split; [|intros t'; apply float_text_first].
      cbn [fst]. apply tagged_reads. apply float_text_reads. exact N. }
    destruct (vector_round_trip (tagged (read_float b emax E)) fst alpha w _ HR (separated_layout fst list_follow "[" "]" "," w eq_refl eq_refl)
      s [] rest Hg Hal eq_refl Ha) as (s' & R & G & _ & A).
    exists s'. split; [|auto]. rewrite vector_tagged, R. cbn [mapres]. unfold w. rewrite map_pair_snd. reflexivity.
  Qed.

  Lemma map_same (f : Z -> Z) v : Forall (fun n => f n = n) v -> map f v = v.
  Proof. induction 1 as [|n v N _ IH]; cbn; [reflexivity|]. now rewrite N, IH. Qed.
  Lemma few_digits_read_back (p : nat) (alpha : bool) (v : list Z) s rest : (1 <= p)%nat -> Forall (fun n => value_of b emax E n /\ significant E p n) v ->
    i_good s = true -> i_boolalpha s = alpha -> i_after s = o_text (print_vector (print_float E p) v (mkO [] alpha)) ++ rest ->
    exists s', read_vector (read_float b emax E) s = Ret v s' /\ i_good s' = true /\ i_after s' = rest.
  Proof.
    intros P HV Hg Hal Ha.
    assert (EV : Forall (fun n => Z.abs n < 2 ^ (emax + Z.of_nat E) /\ back b E p n = n) v).
    { eapply Forall_impl; [|exact HV]. intros n [[B N] S]. split; [exact B|]. apply printed_significant in S; [|exact P]. now apply back_exact. }
    destruct (lists_read alpha p v s rest) as (s' & R & G & A); auto.
    - eapply Forall_impl; [|exact EV]. intros n [B N]. now rewrite N.
    - exists s'. rewrite R. split; [|auto]. f_equal. apply map_same. eapply Forall_impl; [|exact EV]. intros n [_ N]. now rewrite N.
  Qed.
  Lemma decimals_read_back (p : nat) (alpha : bool) (v : list Z) s rest : (1 <= p)%nat -> 10 ^ Z.of_nat p <= 2 ^ (b - 1) ->
    Forall (fun n => value_of b emax E n /\ (significant E p n \/ 2 ^ (b - 1) <= Z.abs n /\ closest b E p n)) v ->
    i_good s = true -> i_boolalpha s = alpha -> i_after s = o_text (print_vector (print_float E p) v (mkO [] alpha)) ++ rest ->
    exists s', read_vector (read_float b emax E) s = Ret v s' /\ i_good s' = true /\ i_after s' = rest.
  Proof.
    intros P D HV Hg Hal Ha.
    assert (EV : Forall (fun n => Z.abs n < 2 ^ (emax + Z.of_nat E) /\ back b E p n = n) v).
    { eapply Forall_impl; [|exact HV]. intros n [[B N] [S|[L S]]]; (split; [exact B|]).
      - apply printed_significant in S; [|exact P]. now apply back_exact.
      - now apply closest_printed. }
    destruct (lists_read alpha p v s rest) as (s' & R & G & A); auto.
    - eapply Forall_impl; [|exact EV]. intros n [B N]. now rewrite N.
    - exists s'. rewrite R. split; [|auto]. f_equal. apply map_same. eapply Forall_impl; [|exact EV]. intros n [_ N]. now rewrite N.
  Qed.
  Lemma enough_digits_read_back (p : nat) (alpha : bool) (v : list Z) s rest : (1 <= p)%nat -> 2 ^ b < 10 ^ Z.of_nat (p - 1) -> Forall (value_of b emax E) v ->
    i_good s = true -> i_boolalpha s = alpha -> i_after s = o_text (print_vector (print_float E p) v (mkO [] alpha)) ++ rest ->
    exists s', read_vector (read_float b emax E) s = Ret v s' /\ i_good s' = true /\ i_after s' = rest.
  Proof.
    intros P D HV Hg Hal Ha.
    assert (EV : Forall (fun n => Z.abs n < 2 ^ (emax + Z.of_nat E) /\ back b E p n = n) v).
    { eapply Forall_impl; [|exact HV]. intros n [B N]. split; [exact B|]. now apply nearest_printed. }
    destruct (lists_read alpha p v s rest) as (s' & R & G & A); auto.
    - eapply Forall_impl; [|exact EV]. intros n [B N]. now rewrite N.
    - exists s'. rewrite R. split; [|auto]. f_equal. apply map_same. eapply Forall_impl; [|exact EV]. intros n [_ N]. now rewrite N.
  Qed.
  Lemma others_change (p : nat) (alpha : bool) (v : list Z) s rest : (1 <= p)%nat -> b + 2 <= emax -> Forall (fun n => Z.abs n < 2 ^ b) v ->
    i_good s = true -> i_boolalpha s = alpha ->
    i_after s = o_text (print_vector (print_float E p) (map (fun n => n * 2 ^ Z.of_nat E) v) (mkO [] alpha)) ++ rest ->
    exists s' w, read_vector (read_float b emax E) s = Ret w s' /\ i_good s' = true /\ i_after s' = rest /\
      Forall2 (fun n x => x = n * 2 ^ Z.of_nat E <-> significant E p (n * 2 ^ Z.of_nat E)) v w.
  Proof.
    intros P M HV Hg Hal Ha. assert (P2 : 0 < 2 ^ Z.of_nat E) by (apply pow2_pos; lia).
    destruct (lists_read alpha p (map (fun n => n * 2 ^ Z.of_nat E) v) s rest) as (s' & R & G & A); auto.
    - apply Forall_map. eapply Forall_impl; [|exact HV]. intros n N. cbn beta in N |- *.
      assert (Z.abs (back b E p (n * 2 ^ Z.of_nat E)) <= 2 ^ (b + 1 + Z.of_nat E)) as B.
      { apply back_bound; [exact Hb|lia|]. rewrite Z.abs_mul, (Z.abs_eq (2 ^ _)), Z.pow_add_r, Z.add_1_r, Z.pow_succ_r, Z.mul_assoc by lia.
        apply Z.mul_lt_mono_pos_r; lia. }
      apply (Z.le_lt_trans _ _ _ B). apply Z.pow_lt_mono_r; lia.
    - exists s', (map (fun n => back b E p (n * 2 ^ Z.of_nat E)) v). split; [rewrite R, map_map; reflexivity|]. split; [exact G|]. split; [exact A|].
      clear R Ha. induction HV as [|n v N _ IH]; cbn [map]; constructor; [|exact IH]. now apply integer_differs.
  Qed.
End Lists.
(** a criterion *)
Lemma closest_intro b E p M K d i j : 0 < b -> 0 <= K -> 2 ^ (b - 1) < M < 2 ^ b -> 0 <= i -> 0 <= j -> Z.abs d < 10 ^ Z.of_nat p ->
  2 * Z.abs (M * 2 ^ K * 10 ^ j - d * 10 ^ i * 2 ^ Z.of_nat E) < 2 ^ K * 10 ^ j -> closest b E p (M * 2 ^ K).
Proof.
  intros Hb HK HM I J D N. exists d, i, j. split; [exact I|]. split; [exact J|]. split; [exact D|]. intros m k Hk Hm NE.
  set (V := d * 10 ^ i * 2 ^ Z.of_nat E) in *. assert (PJ : 0 < 10 ^ j) by (apply pow10_pos; exact J). assert (PK : 0 < 2 ^ K) by (apply pow2_pos; exact HK).
  assert (SP : 2 ^ K <= Z.abs (m * 2 ^ k - M * 2 ^ K)).
  { destruct (Z_le_gt_dec K k) as [G|G].
    - assert (EK : 2 ^ k = 2 ^ (k - K) * 2 ^ K) by (rewrite <- Z.pow_add_r by lia; f_equal; lia). rewrite EK, Z.mul_assoc in *.
      rewrite <- Z.mul_sub_distr_r, Z.abs_mul, (Z.abs_eq (2 ^ K)) by lia. assert (m * 2 ^ (k - K) <> M) by congruence.
      rewrite <- (Z.mul_1_l (2 ^ K)) at 1. apply Z.mul_le_mono_nonneg_r; lia.
    - assert (P2 : 0 < 2 ^ k) by (apply pow2_pos; exact Hk).
      assert (B1 : m * 2 ^ k <= 2 ^ b * 2 ^ (K - 1)).
      { apply (Z.le_trans _ (2 ^ b * 2 ^ k)); [apply Z.mul_le_mono_nonneg_r; lia|]. apply Z.mul_le_mono_nonneg_l; [apply Z.pow_nonneg; lia|]. apply Z.pow_le_mono_r; lia. }
      assert (E1 : 2 ^ b * 2 ^ (K - 1) = 2 ^ (b - 1) * 2 ^ K) by (rewrite <- !Z.pow_add_r by lia; f_equal; lia).
      assert ((2 ^ (b - 1) + 1) * 2 ^ K <= M * 2 ^ K) by (apply Z.mul_le_mono_nonneg_r; lia). rewrite Z.mul_add_distr_r in *. lia. }
  assert (2 ^ K * 10 ^ j <= Z.abs (m * 2 ^ k * 10 ^ j - M * 2 ^ K * 10 ^ j)).
  { rewrite <- Z.mul_sub_distr_r, Z.abs_mul, (Z.abs_eq (10 ^ j)) by lia. apply Z.mul_le_mono_nonneg_r; lia. }
  lia.
Qed.

(** ** lists with an element that cannot be read *)
Section Failing.
  Context {T : Type} (rd : M istream T) (alpha : bool).
  Definition passes (t : text) : Prop :=
    (exists c t', t = c :: t' /\ is_space c = false /\ c <> "]"%char) /\
    forall s c r, i_good s = true -> i_boolalpha s = alpha -> i_after s = t ++ c :: r -> list_follow c = true ->
      exists y s1, rd s = Ret y s1 /\ (i_failed s1 = true \/ i_good s1 = true /\ moved s t s1).
  Definition fails (t : text) : Prop :=
    forall s c r, i_good s = true -> i_boolalpha s = alpha -> i_after s = t ++ c :: r -> list_follow c = true ->
      exists y s1, rd s = Ret y s1 /\ i_failed s1 = true.
  Lemma loop_fails ts : Forall passes ts -> Exists fails ts ->
    forall s rest fuel acc, i_good s = true -> i_boolalpha s = alpha -> i_after s = separated [","%char] ts ++ "]"%char :: rest ->
      (List.length ts <= fuel)%nat -> exists s', read_loop rd "]" "," fuel (Some ","%char) acc s = Exc EIosFailure s'.
  Proof.
    intros HP. induction HP as [|t ts Ht HP IH]; intros HF s rest fuel acc Hg Hal Ha Hl; [inversion HF|].
    destruct fuel as [|fuel]; [cbn in Hl; lia|]. cbn [read_loop]. unfold read_var. cbn [Ascii.eqb Bool.eqb negb].
    destruct (good_eof s Hg) as [He _]. rewrite He. unfold bind at 1.
    assert (Hs : exists c r, i_after s = t ++ c :: r /\ list_follow c = true /\ (ts = [] \/ c = ","%char /\ r = separated [","%char] ts ++ "]"%char :: rest)).
    { rewrite Ha. destruct ts as [|t2 ts]; cbn [separated]; [exists "]"%char, rest; repeat split; auto|].
      exists ","%char. eexists. rewrite <- app_assoc. cbn [app]. split; [reflexivity|]. split; [reflexivity|]. right. split; reflexivity. }
    destruct Hs as (c & r & Hs & Hc & Hrest).
    destruct Ht as [_ Hrd]. destruct (Hrd s c r Hg Hal Hs Hc) as (y & s1 & R & [F|[G M]]); rewrite R.
    - rewrite F. eauto.
    - destruct (good_eof s1 G) as [_ F1]. rewrite F1.
      inversion HF as [? ? Hf|? ? Hf]; subst.
      + destruct (Hf s c r Hg Hal Hs Hc) as (y' & s1' & R' & F). rewrite R' in R. injection R as -> ->. congruence.
      + destruct Hrest as [->|[-> ->]]; [inversion Hf|].
        assert (A1 : i_after s1 = [] ++ ","%char :: separated [","%char] ts ++ "]"%char :: rest).
        { destruct M as (M & _). rewrite Hs in M. apply app_inv_head in M. symmetry. exact M. }
        unfold bind. rewrite (extract_char_at _ s1 [] "," _ G A1 eq_refl eq_refl). cbn [app].
        apply (IH Hf _ rest); [exact G| |reflexivity|cbn in Hl; lia]. cbn [i_boolalpha advance]. destruct M as (_ & _ & ->). exact Hal.
  Qed.
  Lemma passes_length ts rest : Forall passes ts -> (List.length ts <= List.length (separated [","%char] ts ++ "]"%char :: rest))%nat.
  Proof.
    induction 1 as [|t ts [(c & t' & -> & _) _] _ IH]; [cbn; lia|]. destruct ts as [|t2 ts]; [cbn; lia|]. cbn [separated] in *.
    rewrite !app_length in *. cbn [List.length app] in *. lia.
  Qed.
  Lemma list_fails ts : Forall passes ts -> Exists fails ts ->
    forall s rest, i_good s = true -> i_boolalpha s = alpha -> i_after s = ["["%char] ++ separated [","%char] ts ++ ["]"%char] ++ rest ->
      exists s', read_vector rd s = Exc EIosFailure s'.
  Proof.
    intros HP HF s rest Hg Hal Ha. unfold read_vector, read_sequence, bind at 1.
    rewrite (extract_char_at None s [] "[" (separated [","%char] ts ++ "]"%char :: rest) Hg Ha eq_refl eq_refl).
    unfold read_var at 1. cbn [Ascii.eqb Bool.eqb negb app]. unfold bind at 1. set (s1 := advance ["["%char] _ s).
    assert (H0 : exists c u, separated [","%char] ts ++ "]"%char :: rest = c :: u /\ is_space c = false /\ c <> "]"%char).
    { destruct HP as [|t ts [(c & t' & -> & C1 & C2) _] _]; [inversion HF|]. destruct ts; do 2 eexists; (split; [reflexivity|]; split; assumption). }
    destruct H0 as (c & u & Hu & Hsp & Hcl).
    rewrite (extract_char_at _ s1 [] c u); [|exact Hg|cbn; exact Hu|reflexivity|exact Hsp].
    unfold read_var at 1, bind. rewrite (eqb_neq c "]" Hcl). rewrite (putback_last s1 [] c u Hg). unfold ret.
    apply (loop_fails ts HP HF _ rest); [exact Hg|exact Hal|cbn [i_after advance]; symmetry; exact Hu|].
    cbn [i_after advance]. rewrite <- Hu. pose proof (passes_length ts rest HP). lia.
  Qed.
End Failing.
Section Nonfinite.
  Context (b emax : Z) (E : nat).
  Lemma other_range emax' s y s' : read_float b emax' E s = Ret y s' -> i_good s' = true ->
    exists y' s1, read_float b emax E s = Ret y' s1 /\ (i_failed s1 = true \/ s1 = s').
  Proof.
    unfold read_float. destruct (sentry false s) as [ok s0]. destruct ok; [|intros H G; injection H as <- <-; eauto].
    destruct (take_sign (i_after s0)) as [[sg neg] r]. destruct (span is_digit r) as [ip r1]. destruct (take_fraction r1) as [[pt fp] r2].
    destruct (ip ++ fp) as [|m0 m]; [intros H G; injection H as <- <-; eauto|].
    destruct (take_exponent r2) as [[et ex] r3]. destruct ex as [e|]; [|intros H G; injection H as <- <-; eauto]. cbv zeta.
    match goal with |- context [converted b E ?q ?r] => set (x := converted b E q r) end.
    destruct (2 ^ (emax' + Z.of_nat E) <=? x); intros H G; injection H as <- <-.
    - unfold i_good in G. cbn [i_fail set_fail] in G. rewrite orb_true_r in G. discriminate.
    - destruct (2 ^ (emax + Z.of_nat E) <=? x); do 2 eexists; (split; [reflexivity|]); [left|right; reflexivity]. reflexivity.
  Qed.
  Lemma finite_passes alpha p n : passes (read_float b emax E) alpha (float_text E p n).
  Proof.
    set (e := Z.abs (back b E p n)).
    assert (B : Z.abs (back b E p n) < 2 ^ (e + Z.of_nat E)).
    { assert (e < 2 ^ e) by (apply Z.pow_gt_lin_r; lia). assert (2 ^ e <= 2 ^ (e + Z.of_nat E)) by (apply Z.pow_le_mono_r; lia). fold e. lia. }
    destruct (float_text_reads b e E alpha p n B) as [(c & t' & Ec & Sc) R]. split.
    - exists c, t'. split; [exact Ec|]. split; [exact Sc|]. intros ->. now apply (float_text_first E p n t').
    - intros s c0 r Hg Hal Ha Hc. destruct (R s [] c0 r Hg Hal eq_refl Ha Hc) as (s' & Q & G & M).
      destruct (other_range e s _ s' Q G) as (y & s1 & Q1 & [F| ->]); exists y; eexists; (split; [exact Q1|]); auto.
  Qed.
  Lemma word_fails alpha (neg : bool) (w : text) : (exists c w', w = c :: w' /\ is_space c = false /\ is_digit c = false /\ Ascii.eqb c "." = false /\
      Ascii.eqb c "-" = false /\ Ascii.eqb c "+" = false /\ c <> "]"%char) ->
    let t := (if neg then chars "-" else []) ++ w in fails (read_float b emax E) alpha t /\ passes (read_float b emax E) alpha t.
  Proof.
    intros (c & w' & -> & W1 & W2 & W3 & W4 & W5 & W6) t.
    assert (F : fails (read_float b emax E) alpha t).
    { intros s c0 r Hg Hal Ha Hc. unfold read_float.
      assert (H0 : exists c1 u, t ++ c0 :: r = c1 :: u /\ is_space c1 = false) by (unfold t; destruct neg; do 2 eexists; (split; [reflexivity|]); [reflexivity|exact W1]).
      destruct H0 as (c1 & u & Hu & Sp). rewrite (sentry_at s [] c1 u Hg (eq_trans Ha Hu) eq_refl Sp). cbn [i_after advance]. rewrite <- Hu.
      assert (Hs : take_sign (t ++ c0 :: r) = (if neg then chars "-" else [], neg, c :: w' ++ c0 :: r)).
      { unfold t. destruct neg; cbn; [reflexivity|]. rewrite W4, W5. reflexivity. }
      rewrite Hs. cbn [span]. rewrite W2. unfold take_fraction. rewrite W3. cbn [app].
      do 2 eexists. split; [reflexivity|]. reflexivity. }
    split; [exact F|]. split.
    - unfold t. destruct neg; do 2 eexists; (split; [reflexivity|]); split; auto; discriminate.
    - intros s c0 r Hg Hal Ha Hc. destruct (F s c0 r Hg Hal Ha Hc) as (y & s1 & R & Q). eauto.
  Qed.
  Lemma nonfinite_unread (p : nat) (alpha : bool) (v : list number) s rest : Exists (fun x => forall n, x <> Finite n) v ->
    i_good s = true -> i_boolalpha s = alpha -> i_after s = o_text (print_vector (print_number E p) v (mkO [] alpha)) ++ rest ->
    exists s', read_vector (read_float b emax E) s = Exc EIosFailure s'.
  Proof.
    intros HE Hg Hal Ha.
    assert (HP : o_text (print_vector (print_number E p) v (mkO [] alpha)) = ["["%char] ++ separated [","%char] (map (number_text E p) v) ++ ["]"%char]).
    { destruct (printing_formats number (print_number E p) v (mkO [] alpha)) as (_ & _ & _ & _ & _ & Q).
      destruct (Q (number_text E p)) as [Q1 _]; [intros n o; reflexivity|]. rewrite Q1. reflexivity. }
    rewrite HP, <- !app_assoc in Ha.
    assert (HW : forall (neg : bool) w, w = chars "inf" \/ w = chars "nan" ->
      let t := (if neg then chars "-" else []) ++ w in fails (read_float b emax E) alpha t /\ passes (read_float b emax E) alpha t).
    { intros neg w Hw. apply word_fails. destruct Hw as [-> | ->]; do 2 eexists; (split; [reflexivity|]); repeat split; discriminate. }
    apply (list_fails (read_float b emax E) alpha (map (number_text E p) v)) with (rest := rest); auto.
    - apply Forall_map. apply Forall_forall. intros x _. destruct x as [n|neg|neg]; [apply finite_passes|apply HW; auto|apply HW; auto].
    - apply Exists_exists in HE. destruct HE as (x & Hx & N). apply Exists_exists. exists (number_text E p x). split; [now apply in_map|].
      destruct x as [n|neg|neg]; [now destruct (N n)|apply HW; auto|apply HW; auto].
  Qed.
End Nonfinite.
