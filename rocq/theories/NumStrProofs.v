(** NumStrProofs.v -- lemmas about to_string of floating-point numbers. *)
From Verif Require Import Base StreamModel StlioModel StlioSpec StlioProofs FpioModel FpioSpec FpioProofs NumStrModel NumStrSpec.
Open Scope list_scope.
Open Scope Z_scope.

Lemma is_digit_digit c : is_digit c = true -> digit c (digit_value c).
Proof.
  unfold is_digit, digit, digit_value. rewrite andb_true_iff, !Nat.leb_le. intros [A B]. split; [lia|].
  replace (48 + Z.to_nat (Z.of_nat (nat_of_ascii c) - 48))%nat with (nat_of_ascii c) by lia. symmetry. apply ascii_nat_embedding.
Qed.
Lemma digits_of t : t <> [] -> forallb is_digit t = true -> digits t (digits_value t).
Proof.
  induction t as [|c t IH] using rev_ind; [congruence|]. intros _ H. rewrite forallb_app in H. apply andb_true_iff in H. destruct H as [H1 H2].
  cbn in H2. rewrite andb_true_r in H2. apply is_digit_digit in H2. destruct t as [|c0 t].
  - replace (digits_value ([] ++ [c])) with (digit_value c) by (cbn; lia). now apply (D_first c (digit_value c)).
  - rewrite digits_snoc. apply D_next; [apply IH; [discriminate|exact H1]|exact H2].
Qed.
(** a decimal text *)
Lemma decimal_plain f d : 0 <= d -> exists m e, plain (decimal f d) m e /\
  forall i j, 0 <= i -> 0 <= j -> e = i - j -> m * 10 ^ i * 10 ^ Z.of_nat f = d * 10 ^ j.
Proof.
  intros D. unfold decimal. pose proof (strip_ok f d) as S. destruct (strip f d) as [g d']. destruct S as [G E0].
  assert (0 < 10 ^ Z.of_nat (f - g)) by (apply pow10_pos; lia). assert (0 <= d') as D' by (apply (Z.mul_le_mono_pos_r _ _ (10 ^ Z.of_nat (f - g))); lia).
  assert (P : 0 < 10 ^ Z.of_nat g) by (apply pow10_pos; lia).
  destruct (nat_text_ok (d' / 10 ^ Z.of_nat g)) as (I1 & I2 & I3); [apply Z.div_pos; lia|].
  destruct (fixed_ok g (d' mod 10 ^ Z.of_nat g)) as (F1 & F2 & F3); [apply Z.mod_pos_bound; exact P|].
  set (ip := int_text (d' / 10 ^ Z.of_nat g)) in *. set (fp := fixed g (d' mod 10 ^ Z.of_nat g)) in *.
  exists d', (- Z.of_nat g). split.
  - pose proof (digits_of ip I1 I2) as DI. rewrite I3 in DI. destruct (Nat.eqb_spec g 0) as [G0|N].
    + rewrite app_nil_r. rewrite G0 in DI |- *. change (10 ^ Z.of_nat 0) with 1 in DI. rewrite Z.div_1_r in DI. constructor. exact DI.
    + assert (NE : fp <> []) by (intros X; rewrite X in F1; cbn in F1; lia). pose proof (digits_of fp NE F2) as DF. rewrite F3 in DF.
      pose proof (P_point ip _ fp _ DI DF) as PP. rewrite F1 in PP.
      replace (d' / 10 ^ Z.of_nat g * 10 ^ Z.of_nat g + d' mod 10 ^ Z.of_nat g) with d' in PP by (pose proof (Z.div_mod d' (10 ^ Z.of_nat g) ltac:(lia)); lia).
      exact PP.
  - intros i j I J EJ. rewrite E0. replace j with (i + Z.of_nat g) by lia. rewrite Z.pow_add_r by lia.
    replace (Z.of_nat f) with (Z.of_nat (f - g) + Z.of_nat g) by lia. rewrite Z.pow_add_r by lia. ring.
Qed.
(** the digits: exactly P of them *)
Lemma rounded_size P a : (1 <= P)%nat -> 0 < a -> let '(d, y) := rounded P a in 10 ^ Z.of_nat (P - 1) <= d < 10 ^ Z.of_nat P.
Proof.
  intros HP A. pose proof (exponent10_ok a A) as [X1 X2]. unfold rounded. set (x := exponent10 a) in *. destruct (Nat.ltb_spec x P) as [L|L].
  - set (k := 10 ^ Z.of_nat (P - 1 - x)). assert (K : 0 < k) by (apply pow10_pos; lia). split.
    + replace (Z.of_nat (P - 1)) with (Z.of_nat x + Z.of_nat (P - 1 - x)) by lia. rewrite Z.pow_add_r by lia. apply Z.mul_le_mono_nonneg_r; lia.
    + replace (Z.of_nat P) with (Z.of_nat x + 1 + Z.of_nat (P - 1 - x)) by lia. rewrite (Z.pow_add_r 10 (Z.of_nat x + 1)) by lia. apply Z.mul_lt_mono_pos_r; lia.
  - set (k := (x - (P - 1))%nat). assert (K : 0 < 10 ^ Z.of_nat k) by (apply pow10_pos; lia).
    assert (E1 : 10 ^ Z.of_nat x = 10 ^ Z.of_nat (P - 1) * 10 ^ Z.of_nat k) by (rewrite <- Z.pow_add_r by lia; f_equal; lia).
    assert (E2 : 10 ^ (Z.of_nat x + 1) = 10 ^ Z.of_nat P * 10 ^ Z.of_nat k) by (rewrite <- Z.pow_add_r by lia; f_equal; lia).
    assert (E3 : 10 ^ Z.of_nat P = 10 * 10 ^ Z.of_nat (P - 1)) by (rewrite <- Z.pow_succ_r by lia; f_equal; lia).
    assert (Q : 0 < 10 ^ Z.of_nat (P - 1)) by (apply pow10_pos; lia).
    assert (B1 : 10 ^ Z.of_nat (P - 1) <= half_even a (10 ^ Z.of_nat k)).
    { apply (Z.le_trans _ (a / 10 ^ Z.of_nat k)); [|apply half_even_floor; exact K]. apply Z.div_le_lower_bound; lia. }
    assert (B2 : half_even a (10 ^ Z.of_nat k) <= 10 ^ Z.of_nat P) by (apply half_even_upper; lia).
    destruct (Z.eqb_spec (half_even a (10 ^ Z.of_nat k)) (10 ^ Z.of_nat P)) as [E|E]; [|lia].
    rewrite E, E3, Z.mul_comm, Z.div_mul by lia. lia.
Qed.
(** they and the exponent are determined by the number printed *)
Lemma rounded_same P a b : (1 <= P)%nat -> 0 < a -> 0 < b -> shown_abs P a = shown_abs P b -> rounded P a = rounded P b.
Proof.
  intros HP A B H. pose proof (rounded_ok P a HP A) as RA. pose proof (rounded_ok P b HP B) as RB.
  pose proof (rounded_size P a HP A) as SA. pose proof (rounded_size P b HP B) as SB.
  destruct (rounded P a) as [d y], (rounded P b) as [d2 y2]. destruct RA as [_ RA], RB as [_ RB]. rewrite H, RB in RA.
  assert (E3 : 10 ^ Z.of_nat P = 10 ^ Z.of_nat (P - 1) * 10) by (rewrite Z.mul_comm, <- Z.pow_succ_r by lia; f_equal; lia).
  assert (Q : 0 < 10 ^ Z.of_nat (P - 1)) by (apply pow10_pos; lia).
  assert (W : forall u v (k l : nat), 10 ^ Z.of_nat (P - 1) <= u -> v < 10 ^ Z.of_nat P -> u * 10 ^ Z.of_nat k = v * 10 ^ Z.of_nat l -> (k <= l)%nat).
  { intros u v k l U V E. destruct (Nat.le_gt_cases k l) as [|G]; [assumption|exfalso].
    replace (Z.of_nat k) with (Z.of_nat (k - l - 1) + 1 + Z.of_nat l) in E by lia. rewrite !Z.pow_add_r in E by lia.
    pose proof (pow10_pos (Z.of_nat (k - l - 1)) ltac:(lia)). pose proof (pow10_pos (Z.of_nat l) ltac:(lia)) as L0. rewrite Z.mul_assoc in E.
    apply Z.mul_reg_r in E; [|lia]. change (10 ^ 1) with 10 in E. assert (u * 1 <= u * 10 ^ Z.of_nat (k - l - 1)) by (apply Z.mul_le_mono_nonneg_l; lia). lia. }
  assert (y = y2).
  { pose proof (W d2 d y2 y ltac:(lia) ltac:(lia) RA). pose proof (W d d2 y y2 ltac:(lia) ltac:(lia) ltac:(lia)). lia. }
  subst y2. f_equal. apply (Z.mul_reg_r _ _ (10 ^ Z.of_nat y)); [pose proof (pow10_pos (Z.of_nat y)); lia|lia].
Qed.

(** the text and the number it stands for, in units of 10^-E *)
Lemma digits_zero : digits (chars "0") 0.
Proof. apply (D_first "0" 0). split; [lia|reflexivity]. Qed.
Lemma scaled_abs E p n : n <> 0 -> exists t m e,
  float_text E p n = (if n <? 0 then chars "-" else []) ++ t /\ scaled t m e /\
  forall i j, 0 <= i -> 0 <= j -> e = i - j -> m * 10 ^ i * 10 ^ Z.of_nat E = printed E p n * 10 ^ j.
Proof.
  intros N. unfold float_text, printed. set (P := Nat.max 1 p). assert (HP : (1 <= P)%nat) by (unfold P; lia).
  assert (P5 : 0 < 5 ^ Z.of_nat E) by (apply pow5_pos; lia).
  set (a := Z.abs n * 5 ^ Z.of_nat E). destruct (Z.eqb_spec n 0) as [|_]; [contradiction|].
  assert (A : 0 < a) by (apply Z.mul_pos_pos; lia). pose proof (rounded_ok P a HP A) as R. destruct (rounded P a) as [d y]. destruct R as [D R].
  set (x := Z.of_nat y - Z.of_nat E). set (z := shown_abs P a) in *.
  destruct ((x <? -4) || (Z.of_nat P <=? x)) eqn:ST.
  - destruct (decimal_plain (P - 1) d D) as (m & e & PL & V). exists (decimal (P - 1) d ++ exponent_text x), m, (e + x). split; [reflexivity|]. split.
    + destruct (exponent_text_ok x) as [|ed N1 D1|ed N1 D1].
      * rewrite app_nil_r, Z.add_0_r. now constructor.
      * apply S_plus; [exact PL|now apply digits_of].
      * apply S_minus; [exact PL|now apply digits_of].
    + intros i j I J EJ.
      (* e = (i + E) - (j + y) *)
      specialize (V (i + Z.of_nat E) (j + Z.of_nat y) ltac:(lia) ltac:(lia) ltac:(unfold x in EJ; lia)).
      rewrite !Z.pow_add_r in V by lia.
      apply (Z.mul_reg_r _ _ (10 ^ Z.of_nat (P - 1))); [pose proof (pow10_pos (Z.of_nat (P - 1))); lia|].
      transitivity (d * 10 ^ Z.of_nat y * 10 ^ j); [|rewrite <- R; ring].
      transitivity (m * (10 ^ i * 10 ^ Z.of_nat E) * 10 ^ Z.of_nat (P - 1)); [ring|]. rewrite V. ring.
  - apply orb_false_iff in ST. destruct ST as [_ ST]. apply Z.leb_gt in ST. set (f := Z.to_nat (Z.of_nat P - 1 - x)).
    destruct (decimal_plain f d D) as (m & e & PL & V). exists (decimal f d), m, e. split; [reflexivity|]. split; [now constructor|].
    intros i j I J EJ. specialize (V i j I J EJ).
    apply (Z.mul_reg_r _ _ (10 ^ Z.of_nat (P - 1) * 10 ^ Z.of_nat f)).
    { pose proof (pow10_pos (Z.of_nat (P - 1)) ltac:(lia)). pose proof (pow10_pos (Z.of_nat f) ltac:(lia)). apply Z.neq_mul_0. lia. }
    transitivity (m * 10 ^ i * 10 ^ Z.of_nat f * (10 ^ Z.of_nat E * 10 ^ Z.of_nat (P - 1))); [ring|]. rewrite V, <- Z.pow_add_r by lia.
    transitivity (z * 10 ^ Z.of_nat (P - 1) * (10 ^ j * 10 ^ Z.of_nat f)); [|ring]. rewrite R.
    replace (Z.of_nat E + Z.of_nat (P - 1)) with (Z.of_nat f + Z.of_nat y) by (unfold f, x; lia). rewrite Z.pow_add_r by lia. ring.
Qed.
Lemma float_numeral E p n : exists m e, numeral (float_text E p n) m e /\
  forall i j, 0 <= i -> 0 <= j -> e = i - j -> m * 10 ^ i * 10 ^ Z.of_nat E = Z.sgn n * printed E p n * 10 ^ j.
Proof.
  destruct (Z.eq_dec n 0) as [->|N].
  - exists 0, 0. split; [apply N_plus, S_plain, P_whole, digits_zero|]. intros i j _ _ _. cbn. ring.
  - destruct (scaled_abs E p n N) as (t & m & e & -> & S & V). destruct (Z.ltb_spec n 0) as [L|L].
    + exists (- m), e. split; [apply (N_minus t m e S)|]. intros i j I J EJ. rewrite Z.sgn_neg by lia. specialize (V i j I J EJ). lia.
    + exists m, e. split; [apply (N_plus t m e S)|]. intros i j I J EJ. rewrite Z.sgn_pos by lia. specialize (V i j I J EJ). lia.
Qed.
Lemma sgn_abs_5 E n : Z.sgn n * (Z.abs n * 5 ^ Z.of_nat E) = n * 5 ^ Z.of_nat E.
Proof. rewrite Z.mul_assoc, (Z.mul_comm (Z.sgn n)), Z.abs_sgn. reflexivity. Qed.
(** the best approximation *)
Lemma best_multiple h u a M : 0 < u -> 2 * Z.abs (h * u - a) <= u -> Z.abs (h * u - a) <= Z.abs (M * u - a).
Proof.
  intros U H. destruct (Z.eq_dec M h) as [->|N]; [lia|]. assert (u <= Z.abs (M * u - h * u)); [|lia].
  rewrite <- Z.mul_sub_distr_r, Z.abs_mul, (Z.abs_eq u) by lia. assert (1 * u <= Z.abs (M - h) * u) by (apply Z.mul_le_mono_nonneg_r; lia). lia.
Qed.
Lemma shown_best P a d k l : (1 <= P)%nat -> 0 < a -> 0 <= k -> 0 <= l -> 0 <= d < 10 ^ Z.of_nat P ->
  Z.abs (shown_abs P a - a) * 10 ^ l <= Z.abs (d * 10 ^ k - a * 10 ^ l).
Proof.
  intros HP A K L D. unfold shown_abs. pose proof (exponent10_ok a A) as [X1 X2]. set (x := exponent10 a) in *.
  assert (PL : 0 < 10 ^ l) by (apply pow10_pos; exact L).
  destruct (Nat.ltb_spec x P) as [G|G]; [rewrite Z.sub_diag; cbn [Z.abs]; lia|].
  set (q := (x - (P - 1))%nat). set (u := 10 ^ Z.of_nat q). assert (U : 0 < u) by (apply pow10_pos; lia).
  pose proof (half_even_near a u U) as H. set (h := half_even a u) in *.
  assert (R : forall M, Z.abs (h * u - a) * 10 ^ l <= Z.abs (M * u * 10 ^ l - a * 10 ^ l)).
  { intros M. rewrite <- Z.mul_sub_distr_r, Z.abs_mul, (Z.abs_eq (10 ^ l)) by lia. apply Z.mul_le_mono_nonneg_r; [lia|]. now apply best_multiple. }
  destruct (Z_le_gt_dec (d * 10 ^ k) (10 ^ Z.of_nat x * 10 ^ l)) as [S|S].
  - specialize (R (10 ^ Z.of_nat (P - 1))). unfold u in R at 2. rewrite <- Z.pow_add_r in R by lia. replace (Z.of_nat (P - 1) + Z.of_nat q) with (Z.of_nat x) in R by lia.
    assert (10 ^ Z.of_nat x * 10 ^ l <= a * 10 ^ l) by (apply Z.mul_le_mono_nonneg_r; lia). lia.
  - assert (Z.of_nat x + l < Z.of_nat P + k) as Q.
    { apply (Z.pow_lt_mono_r_iff 10); [lia|lia|]. rewrite !Z.pow_add_r by lia. apply (Z.lt_le_trans _ (d * 10 ^ k)); [lia|]. apply Z.mul_le_mono_nonneg_r; [apply Z.pow_nonneg; lia|lia]. }
    specialize (R (d * 10 ^ (k - Z.of_nat q - l))).
    replace (d * 10 ^ (k - Z.of_nat q - l) * u * 10 ^ l) with (d * 10 ^ k) in R; [exact R|].
    unfold u. rewrite <- !Z.mul_assoc, <- !Z.pow_add_r by lia. do 2 f_equal. lia.
Qed.
Lemma stands_for E n : exists m e, numeral (number_to_string E (Finite n)) m e /\ nearly E n m e /\ best E 6 n m e /\ (exactly E n m e <-> significant E 6 n).
Proof.
  destruct (float_numeral E 6 n) as (m & e & NU & V). exists m, e. split; [exact NU|].
  assert (P5 : 0 < 5 ^ Z.of_nat E) by (apply pow5_pos; lia). assert (P2 : 0 < 2 ^ Z.of_nat E) by (apply pow2_pos; lia).
  assert (T : 10 ^ Z.of_nat E = 2 ^ Z.of_nat E * 5 ^ Z.of_nat E) by (apply ten_power; lia).
  assert (EA : forall i j, 0 <= i -> 0 <= j -> e = i - j ->
    Z.abs (m * 10 ^ i * 2 ^ Z.of_nat E - n * 10 ^ j) * 5 ^ Z.of_nat E = Z.abs (printed E 6 n - Z.abs n * 5 ^ Z.of_nat E) * 10 ^ j).
  { intros i j I J EJ. specialize (V i j I J EJ). assert (PJ : 0 < 10 ^ j) by (apply pow10_pos; exact J). destruct (Z.eq_dec n 0) as [->|N].
    { cbn [Z.sgn] in V. rewrite !Z.mul_0_l in *. assert (m = 0).
      { pose proof (pow10_pos i I). pose proof (pow10_pos (Z.of_nat E) ltac:(lia)). apply Z.mul_eq_0_l in V; [|lia]. apply Z.mul_eq_0_l in V; lia. }
      subst m. reflexivity. }
    set (z := printed E 6 n) in *.
    assert (ED : (m * 10 ^ i * 2 ^ Z.of_nat E - n * 10 ^ j) * 5 ^ Z.of_nat E = Z.sgn n * (z - Z.abs n * 5 ^ Z.of_nat E) * 10 ^ j).
    { rewrite Z.mul_sub_distr_l, sgn_abs_5, !Z.mul_sub_distr_r. f_equal; [|ring]. rewrite <- V, T. ring. }
    rewrite <- (Z.abs_eq (5 ^ Z.of_nat E)) at 1 by lia. rewrite <- Z.abs_mul, ED, !Z.abs_mul, (Z.abs_eq (10 ^ j)) by lia.
    assert (Z.abs (Z.sgn n) = 1) as -> by (destruct n; cbn; lia). ring. }
  split; [|split].
  - intros i j I J EJ. specialize (EA i j I J EJ). assert (PJ : 0 < 10 ^ j) by (apply pow10_pos; exact J).
    assert (ER : 200000 * Z.abs (printed E 6 n - Z.abs n * 5 ^ Z.of_nat E) <= Z.abs n * 5 ^ Z.of_nat E).
    { destruct (Z.eq_dec n 0) as [->|N]; [cbn; lia|].
      pose proof (shown_abs_error 6 (Z.abs n * 5 ^ Z.of_nat E) ltac:(lia) ltac:(apply Z.mul_pos_pos; lia)) as ER.
      change (shown_abs 6 (Z.abs n * 5 ^ Z.of_nat E)) with (printed E 6 n) in ER. change (10 ^ Z.of_nat (6 - 1)) with 100000 in ER. lia. }
    apply (Z.mul_le_mono_pos_r _ _ (5 ^ Z.of_nat E)); [exact P5|].
    rewrite <- Z.mul_assoc, EA, Z.abs_mul, (Z.abs_eq (10 ^ j)) by lia.
    apply (Z.le_trans _ (Z.abs n * 5 ^ Z.of_nat E * 10 ^ j)); [|lia]. rewrite Z.mul_assoc. apply Z.mul_le_mono_nonneg_r; lia.
  - intros i j I J EJ d k l K L D. specialize (EA i j I J EJ). assert (PJ : 0 < 10 ^ j) by (apply pow10_pos; exact J).
    assert (PL : 0 < 10 ^ l) by (apply pow10_pos; exact L). assert (PK : 0 < 10 ^ k) by (apply pow10_pos; exact K).
    apply (Z.mul_le_mono_pos_r _ _ (5 ^ Z.of_nat E)); [exact P5|].
    set (z := printed E 6 n) in *. set (y := Z.abs n * 5 ^ Z.of_nat E) in *.
    assert (B : Z.abs (z - y) * 10 ^ l <= Z.abs (Z.abs d * 10 ^ (k + Z.of_nat E) - y * 10 ^ l)).
    { destruct (Z.eq_dec n 0) as [N|N].
      { assert (z = 0) as -> by (unfold z; subst n; reflexivity). assert (y = 0) as -> by (unfold y; subst n; reflexivity). cbn [Z.sub Z.abs Z.opp Z.add]. lia. }
      apply (shown_best 6 y (Z.abs d)); lia. }
    assert (C : Z.abs (Z.abs d * 10 ^ (k + Z.of_nat E) - y * 10 ^ l) <= Z.abs (d * 10 ^ k * 2 ^ Z.of_nat E - n * 10 ^ l) * 5 ^ Z.of_nat E).
    { assert (P5' : Z.abs (5 ^ Z.of_nat E) = 5 ^ Z.of_nat E) by (apply Z.abs_eq; lia). rewrite <- P5' at 1. rewrite <- Z.abs_mul, Z.mul_sub_distr_r.
      set (U := d * 10 ^ k * 2 ^ Z.of_nat E * 5 ^ Z.of_nat E). set (W := n * 10 ^ l * 5 ^ Z.of_nat E).
      assert (Z.abs d * 10 ^ (k + Z.of_nat E) = Z.abs U) as ->.
      { unfold U. rewrite Z.pow_add_r, T, !Z.abs_mul by lia. rewrite P5', (Z.abs_eq (10 ^ k)), (Z.abs_eq (2 ^ Z.of_nat E)) by lia. ring. }
      assert (y * 10 ^ l = Z.abs W) as -> by (unfold W, y; rewrite !Z.abs_mul, P5', (Z.abs_eq (10 ^ l)) by lia; ring).
      lia. }
    replace (Z.abs (m * 10 ^ i * 2 ^ Z.of_nat E - n * 10 ^ j) * 10 ^ l * 5 ^ Z.of_nat E) with (Z.abs (z - y) * 10 ^ l * 10 ^ j)
      by (transitivity (Z.abs (m * 10 ^ i * 2 ^ Z.of_nat E - n * 10 ^ j) * 5 ^ Z.of_nat E * 10 ^ l); [rewrite EA; ring|ring]).
    replace (Z.abs (d * 10 ^ k * 2 ^ Z.of_nat E - n * 10 ^ l) * 10 ^ j * 5 ^ Z.of_nat E) with (Z.abs (d * 10 ^ k * 2 ^ Z.of_nat E - n * 10 ^ l) * 5 ^ Z.of_nat E * 10 ^ j) by ring.
    apply Z.mul_le_mono_nonneg_r; lia.
  - rewrite <- printed_significant by lia. set (z := printed E 6 n) in *.
    assert (ZE : m * 10 ^ (Z.max e 0) * 10 ^ Z.of_nat E = Z.sgn n * z * 10 ^ (Z.max (- e) 0)) by (apply V; lia).
    assert (PJ : 0 < 10 ^ (Z.max (- e) 0)) by (apply pow10_pos; lia). split.
    + intros X. specialize (X (Z.max e 0) (Z.max (- e) 0) ltac:(lia) ltac:(lia) ltac:(lia)).
      assert (Q : Z.sgn n * z = n * 5 ^ Z.of_nat E).
      { apply (Z.mul_reg_r _ _ (10 ^ (Z.max (- e) 0))); [lia|]. rewrite <- ZE, T. transitivity (m * 10 ^ Z.max e 0 * 2 ^ Z.of_nat E * 5 ^ Z.of_nat E); [ring|]. rewrite X. ring. }
      destruct (Z.eq_dec n 0) as [N|N].
      { unfold z. subst n. reflexivity. }
      rewrite <- sgn_abs_5 in Q. apply Z.mul_reg_l in Q; [exact Q|]. destruct n; cbn; lia.
    + intros X i j I J EJ. specialize (V i j I J EJ). rewrite X, sgn_abs_5 in V. apply (Z.mul_reg_r _ _ (5 ^ Z.of_nat E)); [lia|].
      rewrite <- Z.mul_assoc, <- T, V. ring.
Qed.

(** numerals are unambiguous: the parts that reading finds *)
Definition parts (t : text) : bool * Z * option Z * nat :=
  let '(_, neg, r) := take_sign t in
  let '(ip, r1) := span is_digit r in
  let '(_, fp, r2) := take_fraction r1 in
  let '(_, ex, _) := take_exponent r2 in
  (neg, digits_value (ip ++ fp), ex, List.length fp).
Lemma digit_is c d : digit c d -> is_digit c = true /\ digit_value c = d.
Proof. intros [D ->]. apply (digit_char_ok d). lia. Qed.
Lemma digits_are t v : digits t v -> t <> [] /\ forallb is_digit t = true /\ digits_value t = v.
Proof.
  induction 1 as [c d H|t v c d H (I1 & I2 & I3) H2].
  - apply digit_is in H. destruct H as [H1 H2]. cbn [forallb]. rewrite H1. repeat split; [discriminate|]. cbn. rewrite H2. lia.
  - apply digit_is in H2. destruct H2 as [H1 H2]. rewrite forallb_app, I2, digits_snoc, I3, H2. cbn [forallb]. rewrite H1. repeat split. destruct t; discriminate.
Qed.
Lemma plain_are t m e : plain t m e -> exists ip pt fp, t = ip ++ pt ++ fp /\ ip <> [] /\ forallb is_digit ip = true /\ fraction pt fp /\
  m = digits_value (ip ++ fp) /\ e = - Z.of_nat (List.length fp).
Proof.
  intros [u v H|u v w x H H2]; destruct (digits_are _ _ H) as (H3 & H4 & H5).
  - exists u, [], []. cbn [app]. rewrite !app_nil_r. repeat split; auto. constructor.
  - destruct (digits_are _ _ H2) as (H6 & H7 & H8). exists u, (chars "."), w. split; [reflexivity|]. split; [exact H3|]. split; [exact H4|].
    split; [constructor; exact H7|]. rewrite digits_app, H5, H8. split; reflexivity.
Qed.
Lemma scaled_are t m e : scaled t m e -> exists ip pt fp et x, t = ip ++ pt ++ fp ++ et /\ ip <> [] /\ forallb is_digit ip = true /\ fraction pt fp /\
  exponent et x /\ m = digits_value (ip ++ fp) /\ e = x - Z.of_nat (List.length fp).
Proof.
  intros [u k x H|u k x w y H H2|u k x w y H H2]; destruct (plain_are _ _ _ H) as (ip & pt & fp & -> & I1 & I2 & F & -> & ->); exists ip, pt, fp.
  - exists [], 0. rewrite app_nil_r. repeat split; auto. constructor.
  - destruct (digits_are _ _ H2) as (H6 & H7 & <-). exists (chars "e+" ++ w), (digits_value w). rewrite <- !app_assoc. repeat split; auto; [now constructor|lia].
  - destruct (digits_are _ _ H2) as (H6 & H7 & <-). exists (chars "e-" ++ w), (- digits_value w). rewrite <- !app_assoc. repeat split; auto; [now constructor|lia].
Qed.
Lemma parts_are sg ip pt fp et x : (sg = [] \/ sg = chars "-") -> ip <> [] -> forallb is_digit ip = true -> fraction pt fp -> exponent et x ->
  parts (sg ++ ip ++ pt ++ fp ++ et) = (match sg with [] => false | _ => true end, digits_value (ip ++ fp), Some x, List.length fp).
Proof.
  intros HS HI HD HF HE. destruct ip as [|d ip]; [congruence|]. clear HI.
  assert (Dd : is_digit d = true) by (cbn in HD; now apply andb_true_iff in HD). destruct (digit_cases d Dd) as (Sd & Md & Pd). unfold parts.
  assert (Hts : take_sign (sg ++ (d :: ip) ++ pt ++ fp ++ et) = (sg, match sg with [] => false | _ => true end, (d :: ip) ++ pt ++ fp ++ et)).
  { destruct HS as [-> | ->]; [|reflexivity]. cbn [app take_sign]. rewrite Md, Pd. reflexivity. }
  rewrite Hts.
  assert (E1 : et = [] \/ exists c1 r1, et = c1 :: r1 /\ is_digit c1 = false /\ Ascii.eqb c1 "." = false).
  { destruct HE as [|ed N D|ed N D]; [left; reflexivity| |]; right; (do 2 eexists; split; [reflexivity|]; split; reflexivity). }
  assert (Hip : span is_digit ((d :: ip) ++ pt ++ fp ++ et) = (d :: ip, pt ++ fp ++ et)).
  { apply span_app; [exact HD|]. destruct HF as [|fp' D'].
    - destruct E1 as [->|(c1 & r1 & E0 & D1 & _)]; [left; reflexivity|]. right. exists c1, r1. split; [exact E0|exact D1].
    - right. do 2 eexists. split; [reflexivity|reflexivity]. }
  rewrite Hip.
  assert (Hfr : take_fraction (pt ++ fp ++ et) = (pt, fp, et)).
  { destruct HF as [|fp' D'].
    - cbn [app]. destruct E1 as [->|(c1 & r1 & -> & D1 & P1)]; [reflexivity|]. unfold take_fraction. rewrite P1. reflexivity.
    - cbn [chars String.list_ascii_of_string app take_fraction Ascii.eqb Bool.eqb]. rewrite (span_app is_digit fp' et D'); [reflexivity|].
      destruct E1 as [->|(c1 & r1 & E0 & D1 & _)]; [left; reflexivity|]. right. eauto. }
  rewrite Hfr.
  assert (Hex : take_exponent et = (et, Some x, [])).
  { destruct HE as [|ed N D|ed N D]; [reflexivity| |].
    all: cbn [chars String.list_ascii_of_string app take_exponent]; cbn [Ascii.eqb Bool.eqb orb take_sign].
    all: rewrite <- (app_nil_r ed) at 1; rewrite (span_app is_digit ed [] D) by (left; reflexivity); destruct ed as [|d0 ed]; [congruence|]; reflexivity. }
  rewrite Hex. reflexivity.
Qed.
Lemma numeral_parts t m e : numeral t m e -> exists M x l, parts t = (match t with c :: _ => Ascii.eqb c "-" | [] => false end, M, Some x, l) /\
  m = (match t with c :: _ => if Ascii.eqb c "-" then - M else M | [] => M end) /\ e = x - Z.of_nat l.
Proof.
  intros [u k y H|u k y H]; destruct (scaled_are _ _ _ H) as (ip & pt & fp & et & x & -> & I1 & I2 & F & X & -> & ->).
  - exists (digits_value (ip ++ fp)), x, (List.length fp). pose proof (parts_are [] ip pt fp et x (or_introl eq_refl) I1 I2 F X) as P. cbn [app] in P. rewrite P.
    destruct ip as [|d ip]; [congruence|]. assert (Dd : is_digit d = true) by (cbn in I2; now apply andb_true_iff in I2).
    destruct (digit_cases d Dd) as (Sd & Md & Pd). cbn [app]. rewrite Md. repeat split.
  - exists (digits_value (ip ++ fp)), x, (List.length fp). pose proof (parts_are (chars "-") ip pt fp et x (or_intror eq_refl) I1 I2 F X) as P.
    cbn [chars String.list_ascii_of_string app] in P |- *. rewrite P. repeat split.
Qed.
Lemma unambiguous t m e m' e' : numeral t m e -> numeral t m' e' -> m = m' /\ e = e'.
Proof.
  intros H H'. destruct (numeral_parts _ _ _ H) as (M & x & l & P & -> & ->). destruct (numeral_parts _ _ _ H') as (M' & x' & l' & P' & -> & ->).
  rewrite P in P'. injection P' as -> -> ->. split; reflexivity.
Qed.
Lemma stands_for_all E n : (exists m e, numeral (number_to_string E (Finite n)) m e) /\
  forall m e, numeral (number_to_string E (Finite n)) m e -> nearly E n m e /\ best E 6 n m e /\ (exactly E n m e <-> significant E 6 n).
Proof.
  destruct (stands_for E n) as (m & e & N & H). split; [eauto|]. intros m' e' N'. destruct (unambiguous _ _ _ _ _ N N') as [<- <-]. exact H.
Qed.

(** the number that the text of [n] stands for has the same text *)
Lemma printed_printed P a : (1 <= P)%nat -> 0 < a -> shown_abs P (shown_abs P a) = shown_abs P a /\ 0 < shown_abs P a.
Proof.
  intros HP A. pose proof (rounded_ok P a HP A) as R. pose proof (rounded_size P a HP A) as S. destruct (rounded P a) as [d y]. destruct R as [_ R].
  assert (Q : 0 < 10 ^ Z.of_nat (P - 1)) by (apply pow10_pos; lia). assert (Y : 0 < 10 ^ Z.of_nat y) by (apply pow10_pos; lia).
  assert (G : 0 < shown_abs P a).
  { apply (Z.mul_pos_cancel_r (shown_abs P a) (10 ^ Z.of_nat (P - 1))); [lia|]. rewrite R. apply Z.mul_pos_pos; lia. }
  split; [|exact G]. apply shown_abs_significant; [exact HP|exact G|]. unfold shown_abs. pose proof (exponent10_ok a A) as [X1 X2].
  set (x := exponent10 a) in *. destruct (Nat.ltb_spec x P) as [L|L].
  - exists a, 0. split; [lia|]. split; [|change (10 ^ 0) with 1; lia]. rewrite Z.abs_eq by lia. apply (Z.lt_le_trans _ _ _ X2). apply Z.pow_le_mono_r; lia.
  - destruct (Z.le_gt_cases (Z.of_nat (P - 1)) (Z.of_nat y)) as [LE|GT].
    + exists d, (Z.of_nat y - Z.of_nat (P - 1)). split; [lia|]. split; [lia|]. unfold shown_abs in R. fold x in R. destruct (Nat.ltb_spec x P); [lia|].
      apply (Z.mul_reg_r _ _ (10 ^ Z.of_nat (P - 1))); [lia|]. rewrite R, <- Z.mul_assoc, <- Z.pow_add_r by lia. do 2 f_equal. lia.
    + exfalso. unfold shown_abs in R. fold x in R. destruct (Nat.ltb_spec x P); [lia|]. set (k := (x - (P - 1))%nat) in *.
      assert (B1 : 10 ^ Z.of_nat (P - 1) <= half_even a (10 ^ Z.of_nat k)).
      { assert (0 < 10 ^ Z.of_nat k) by (apply pow10_pos; lia). apply (Z.le_trans _ (a / 10 ^ Z.of_nat k)); [|apply half_even_floor; assumption]. apply Z.div_le_lower_bound; [lia|].
        rewrite <- Z.pow_add_r by lia. replace (Z.of_nat k + Z.of_nat (P - 1)) with (Z.of_nat x) by lia. exact X1. }
      assert (d * 10 ^ Z.of_nat y < 10 ^ Z.of_nat P * 10 ^ Z.of_nat y) by (apply Z.mul_lt_mono_pos_r; lia).
      assert (10 ^ Z.of_nat P * 10 ^ Z.of_nat y <= 10 ^ Z.of_nat (P - 1) * 10 ^ Z.of_nat (P - 1)).
      { rewrite <- !Z.pow_add_r by lia. apply Z.pow_le_mono_r; lia. }
      assert (1 <= 10 ^ Z.of_nat k) by (pose proof (pow10_pos (Z.of_nat k)); lia).
      assert (10 ^ Z.of_nat (P - 1) * 1 <= half_even a (10 ^ Z.of_nat k) * 10 ^ Z.of_nat k) by (apply Z.mul_le_mono_nonneg; lia).
      assert (10 ^ Z.of_nat (P - 1) * 10 ^ Z.of_nat (P - 1) <= half_even a (10 ^ Z.of_nat k) * 10 ^ Z.of_nat k * 10 ^ Z.of_nat (P - 1)) by (apply Z.mul_le_mono_nonneg_r; lia).
      lia.
Qed.
Lemma same_text E p n n' : n <> 0 -> Z.sgn n' = Z.sgn n -> Z.abs n' * 5 ^ Z.of_nat E = printed E p n -> float_text E p n' = float_text E p n.
Proof.
  intros N S H. assert (P5 : 0 < 5 ^ Z.of_nat E) by (apply pow5_pos; lia).
  assert (N' : n' <> 0) by (destruct n, n'; cbn in S; congruence || lia). unfold float_text.
  assert ((n' <? 0) = (n <? 0)) as -> by (destruct (Z.ltb_spec n' 0), (Z.ltb_spec n 0); try reflexivity; destruct n, n'; cbn in *; lia).
  destruct (Z.eqb_spec n' 0); [contradiction|]. destruct (Z.eqb_spec n 0); [contradiction|]. unfold printed in H.
  rewrite (rounded_same (Nat.max 1 p) (Z.abs n' * 5 ^ Z.of_nat E) (Z.abs n * 5 ^ Z.of_nat E)); [reflexivity|lia|apply Z.mul_pos_pos; lia|apply Z.mul_pos_pos; lia|].
  rewrite H. apply printed_printed; [lia|apply Z.mul_pos_pos; lia].
Qed.
Lemma integers_share b emax E n : 0 < b -> b <= emax -> Z.abs n < 2 ^ (b - 1) -> ~ significant E 6 (n * 2 ^ Z.of_nat E) ->
  exists n', n' <> n /\ value_of b emax E (n' * 2 ^ Z.of_nat E) /\
    number_to_string E (Finite (n' * 2 ^ Z.of_nat E)) = number_to_string E (Finite (n * 2 ^ Z.of_nat E)).
Proof.
  intros Hb He Hn NS. assert (P5 : 0 < 5 ^ Z.of_nat E) by (apply pow5_pos; lia). assert (P2 : 0 < 2 ^ Z.of_nat E) by (apply pow2_pos; lia).
  assert (T : 10 ^ Z.of_nat E = 2 ^ Z.of_nat E * 5 ^ Z.of_nat E) by (apply ten_power; lia).
  assert (AB : forall k, Z.abs (k * 2 ^ Z.of_nat E) = Z.abs k * 2 ^ Z.of_nat E) by (intros k; rewrite Z.abs_mul, (Z.abs_eq (2 ^ _)) by lia; reflexivity).
  assert (SG : forall k, Z.sgn (k * 2 ^ Z.of_nat E) = Z.sgn k) by (intros k; rewrite Z.sgn_mul, (Z.sgn_pos (2 ^ _)) by lia; lia).
  assert (N0 : n <> 0).
  { intros ->. apply NS. exists 0, 0, 0. split; [lia|]. split; [lia|]. split; reflexivity. }
  destruct (printed_integer E 6 n ltac:(lia)) as [I|(w & W & I)]; [apply printed_significant in I; [contradiction|lia]|].
  pose proof (printed_bound E 6 (n * 2 ^ Z.of_nat E)) as [_ B]. rewrite I, AB, T in B.
  assert (WB : w <= 2 * Z.abs n).
  { apply (Z.mul_le_mono_pos_r _ _ (2 ^ Z.of_nat E * 5 ^ Z.of_nat E)); [apply Z.mul_pos_pos; lia|]. lia. }
  assert (TB : 2 ^ b = 2 * 2 ^ (b - 1)) by (rewrite <- Z.pow_succ_r by lia; f_equal; lia).
  assert (W0 : w <> 0).
  { intros ->. destruct (printed_printed 6 (Z.abs (n * 2 ^ Z.of_nat E) * 5 ^ Z.of_nat E)) as [_ G]; [lia|rewrite AB; apply Z.mul_pos_pos; [apply Z.mul_pos_pos; lia|lia]|].
    change (shown_abs 6 (Z.abs (n * 2 ^ Z.of_nat E) * 5 ^ Z.of_nat E)) with (printed E 6 (n * 2 ^ Z.of_nat E)) in G. lia. }
  assert (AW : Z.abs (Z.sgn n * w) = w) by (rewrite Z.abs_mul, (Z.abs_eq w) by lia; assert (Z.abs (Z.sgn n) = 1) as -> by (destruct n; cbn; lia); lia).
  exists (Z.sgn n * w). split; [|split].
  - intros EQ. apply NS. apply printed_significant; [lia|]. rewrite I, AB, T. rewrite <- EQ, AW. ring.
  - split; [|exists (Z.sgn n * w), (Z.of_nat E); split; [lia|]; split; [lia|reflexivity]].
    rewrite AB, AW, Z.pow_add_r by lia. apply Z.mul_lt_mono_pos_r; [lia|]. apply (Z.lt_le_trans _ (2 ^ b)); [lia|]. apply Z.pow_le_mono_r; lia.
  - unfold number_to_string, print_number, number_text. cbn [o_text put_text]. f_equal. apply same_text.
    + apply Z.neq_mul_0. lia.
    + rewrite !SG, Z.sgn_mul, (Z.sgn_pos w) by lia. destruct n; reflexivity.
    + rewrite I, AB, AW, T. ring.
Qed.

(** infinities and NaN *)
Lemma digits_start t v : digits t v -> exists c t', t = c :: t' /\ exists d, digit c d.
Proof.
  induction 1 as [c d H|t v c d H IH H2]; [eauto 6|]. destruct IH as (c0 & t' & -> & D). exists c0, (t' ++ [c]). eauto.
Qed.
Lemma scaled_start t m e : scaled t m e -> exists c t', t = c :: t' /\ exists d, digit c d.
Proof.
  assert (PL : forall t m e, plain t m e -> exists c t', t = c :: t' /\ exists d, digit c d).
  { intros u k x [? ? H|? ? ? ? H _]; apply digits_start in H; [exact H|]. destruct H as (c & t' & -> & D). do 2 eexists. split; [reflexivity|exact D]. }
  intros [? ? ? H|? ? ? ? ? H _|? ? ? ? ? H _]; apply PL in H; [exact H| |]; destruct H as (c & t' & -> & D); do 2 eexists; (split; [reflexivity|exact D]).
Qed.
Lemma not_digit c d : digit c d -> c <> "i"%char /\ c <> "n"%char /\ c <> "-"%char.
Proof.
  intros [D ->]. assert (C : d = 0 \/ d = 1 \/ d = 2 \/ d = 3 \/ d = 4 \/ d = 5 \/ d = 6 \/ d = 7 \/ d = 8 \/ d = 9) by lia.
  repeat (destruct C as [-> | C]; [repeat split; discriminate|]). subst d. repeat split; discriminate.
Qed.
Lemma no_numeral E x m e : (forall n, x <> Finite n) -> ~ numeral (number_to_string E x) m e.
Proof.
  intros NF H. assert (W : exists s c w, number_to_string E x = s ++ c :: w /\ (s = [] \/ s = chars "-") /\ (c = "i"%char \/ c = "n"%char)).
  { destruct x as [n|neg|neg]; [congruence| |]; destruct neg; [exists (chars "-")|exists []|exists (chars "-")|exists []]; do 2 eexists; (split; [reflexivity|]); auto. }
  destruct W as (s & c & w & EQ & S & C). rewrite EQ in H. inversion H as [t m' e' SC E1 E2 E3|t m' e' SC E1 E2 E3].
  - apply scaled_start in SC. destruct SC as (c0 & t' & E0 & d & D). apply not_digit in D. destruct S as [-> | ->]; cbn in E0; injection E0 as <- _; destruct C as [-> | ->]; intuition congruence.
  - apply scaled_start in SC. destruct SC as (c0 & t' & E0 & d & D). apply not_digit in D. destruct S as [-> | ->]; cbn in E1.
    + injection E1 as E1 _. destruct C as [-> | ->]; discriminate.
    + injection E1 as E1. rewrite E0 in E1. injection E1 as <- _. destruct C as [-> | ->]; intuition congruence.
Qed.
Lemma inserted E x t : insert_number E 6 x t = t ++ number_to_string E x /\ number_to_str E x = number_to_string E x.
Proof. split; reflexivity. Qed.
