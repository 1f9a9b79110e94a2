(** FloatProofs.v -- rounding of double conversions and divisions, as computed by Coq's SpecFloat. *)
From Coq Require Import Floats.SpecFloat.
From Verif Require Import Base.
Local Open Scope Z_scope.

Lemma digits_spec p : 2 ^ (Zpos (digits2_pos p) - 1) <= Zpos p < 2 ^ Zpos (digits2_pos p).
Proof.
  induction p as [p IH|p IH|]; cbn [digits2_pos].
  - rewrite Pos2Z.inj_succ. replace (Z.succ (Zpos (digits2_pos p)) - 1) with (Z.succ (Zpos (digits2_pos p) - 1)) by lia.
    rewrite !Z.pow_succ_r by lia. rewrite (Pos2Z.inj_xI p). lia.
  - rewrite Pos2Z.inj_succ. replace (Z.succ (Zpos (digits2_pos p)) - 1) with (Z.succ (Zpos (digits2_pos p) - 1)) by lia.
    rewrite !Z.pow_succ_r by lia. rewrite (Pos2Z.inj_xO p). lia.
  - simpl. lia.
Qed.
Lemma digits_unique m d : 0 < d -> 2 ^ (d - 1) <= m < 2 ^ d -> Zdigits2 m = d.
Proof.
  intros Hd Hm. destruct m as [|p|p].
  - pose proof (Z.pow_pos_nonneg 2 (d - 1)). lia.
  - simpl. pose proof (digits_spec p) as Hp. set (e := Zpos (digits2_pos p)) in *.
    assert (d - 1 < e) by (apply (Z.pow_lt_mono_r_iff 2); lia).
    assert (e - 1 < d) by (apply (Z.pow_lt_mono_r_iff 2); lia). lia.
  - pose proof (Z.pow_pos_nonneg 2 (d - 1)). lia.
Qed.

Notation aux := (binary_round_aux 53 1024).
Notation sfexp := (shr_fexp 53 1024).

Lemma fexp_eq d e : -1074 <= d + e - 53 -> fexp 53 1024 (d + e) - e = d - 53.
Proof. intros H. unfold fexp, emin. lia. Qed.
Lemma shr_fexp_0 m e l : 2 ^ 52 <= m < 2 ^ 53 -> -1074 <= e -> sfexp m e l = (shr_record_of_loc m l, e).
Proof.
  intros Hm He. unfold shr_fexp. rewrite (digits_unique m 53) by lia. rewrite fexp_eq by lia. reflexivity.
Qed.
Lemma shr_fexp_1 m e l : 2 ^ 53 <= m < 2 ^ 54 -> -1074 <= e -> sfexp m e l = (shr_1 (shr_record_of_loc m l), e + 1).
Proof.
  intros Hm He. unfold shr_fexp. rewrite (digits_unique m 54) by lia. rewrite fexp_eq by lia. reflexivity.
Qed.
Lemma shr_1_eq m r s : 0 < m -> shr_1 (Build_shr_record m r s) = Build_shr_record (m / 2) (Z.odd m) (r || s).
Proof.
  intros Hm. destruct m as [|[p|p|]|p]; try lia; simpl; f_equal.
  - rewrite (Pos2Z.inj_xI p). rewrite Z.mul_comm, Z.div_add_l by lia. reflexivity.
  - rewrite (Pos2Z.inj_xO p). rewrite Z.mul_comm, Z.div_mul by lia. reflexivity.
Qed.
(** the end of the rounding: a mantissa of 53 bits, or 2^53 *)
Lemma aux_end m e : 2 ^ 52 <= m <= 2 ^ 53 -> -1074 <= e -> e + 1 <= 971 ->
  (let '(mrs'', e'') := sfexp m e loc_Exact in
   match shr_m mrs'' with
   | Z0 => S754_zero false
   | Zpos m => if Zle_bool e'' (1024 - 53) then S754_finite false m e'' else S754_infinity false
   | _ => S754_nan
   end) =
  if m =? 2 ^ 53 then S754_finite false (2 ^ 52) (e + 1) else S754_finite false (Z.to_pos m) e.
Proof.
  intros Hm He He'. destruct (Z.eqb_spec m (2 ^ 53)) as [->|Hne].
  - rewrite shr_fexp_1 by lia. simpl. destruct (Z.leb_spec (e + 1) 971); [reflexivity|lia].
  - rewrite shr_fexp_0 by lia. simpl. destruct m as [|p|p]; try lia. simpl. destruct (Z.leb_spec e 971); [reflexivity|lia].
Qed.

(** [aux q e l] for the value N/D * 2^e with quotient q and location l of the remainder *)
Lemma aux_spec N D e : 0 < D -> 2 ^ 52 * D <= N -> N < (2 ^ 54 - 1) * D -> -1074 <= e -> e + 2 <= 971 ->
  exists m e', aux false (N / D) e (new_location D (N mod D)) = S754_finite false m e' /\
    2 ^ 52 <= Zpos m < 2 ^ 53 /\
    ((e' = e /\ 2 * Z.abs (Zpos m * D - N) <= D) \/ (e' = e + 1 /\ Z.abs (2 * Zpos m * D - N) <= D)).
Proof.
  intros HD H1 H2 He He'. pose proof (Z.div_mod N D ltac:(lia)) as Edm. pose proof (Z.mod_pos_bound N D HD) as Hr.
  set (q := N / D) in *. set (r := N mod D) in *.
  assert (Hq1 : 2 ^ 52 <= q) by (apply Z.div_le_lower_bound; lia).
  assert (Hq2 : q < 2 ^ 54 - 1) by (apply Z.div_lt_upper_bound; lia).
  assert (Hl : match new_location D r with
               | loc_Exact => r = 0
               | loc_Inexact Lt => 0 < r /\ 2 * r < D
               | loc_Inexact Eq => 2 * r = D
               | loc_Inexact Gt => D < 2 * r
               end).
  { unfold new_location. destruct (Z.even D) eqn:Ev.
    - unfold new_location_even. destruct (Zeq_bool r 0) eqn:E0; [apply Zeq_bool_eq in E0; exact E0|].
      apply Zeq_bool_neq in E0. destruct (Z.compare_spec (2 * r) D); cbv iota; lia.
    - unfold new_location_odd. destruct (Zeq_bool r 0) eqn:E0; [apply Zeq_bool_eq in E0; exact E0|].
      apply Zeq_bool_neq in E0. assert (Ho : Z.odd D = true) by (rewrite <- Z.negb_even, Ev; reflexivity).
      apply Z.odd_spec in Ho as [j Hj]. destruct (Z.compare_spec (2 * r + 1) D); cbv iota; lia. }
  set (l := new_location D r) in *. clearbody l. clearbody q r. unfold aux.
  destruct (Z.lt_ge_cases q (2 ^ 53)) as [Hlt|Hge].
  - rewrite shr_fexp_0 by lia.
    set (m := round_nearest_even (shr_m (shr_record_of_loc q l)) (loc_of_shr_record (shr_record_of_loc q l))).
    assert (Hm : m = q \/ m = q + 1) by (destruct l as [|[| |]]; unfold m; simpl; try destruct (Z.even q); auto).
    assert (Hd : 2 * Z.abs (m * D - N) <= D).
    { destruct l as [|[| |]]; unfold m in *; cbn [round_nearest_even shr_m shr_record_of_loc loc_of_shr_record] in *; try destruct (Z.even q); nia. }
    clearbody m. rewrite aux_end by lia. destruct (Z.eqb_spec m (2 ^ 53)) as [->|Hne].
    + exists (2 ^ 52)%positive, (e + 1). split; [reflexivity|]. split; [lia|]. right. split; [reflexivity|]. lia.
    + exists (Z.to_pos m), e. rewrite !Z2Pos.id by lia. split; [reflexivity|]. split; [lia|]. left. split; [reflexivity|exact Hd].
  - rewrite shr_fexp_1 by lia.
    assert (Er : exists r0 s0, shr_record_of_loc q l = Build_shr_record q r0 s0 /\ (r0 || s0 = false -> r = 0) /\ (r0 || s0 = true -> 0 < r)).
    { destruct l as [|[| |]]; cbn [shr_record_of_loc] in *; do 2 eexists; (split; [reflexivity|]); split; simpl; intros; try discriminate; lia. }
    destruct Er as (r0 & s0 & -> & Hr0 & Hr1). rewrite shr_1_eq by lia.
    set (st := r0 || s0) in *. clearbody st.
    pose proof (Z.div_mod q 2 ltac:(lia)) as Eq2. rewrite Zmod_odd in Eq2.
    set (h := q / 2) in *.
    set (m := round_nearest_even (shr_m {| shr_m := h; shr_r := Z.odd q; shr_s := st |}) (loc_of_shr_record {| shr_m := h; shr_r := Z.odd q; shr_s := st |})).
    assert (Hd : Z.abs (2 * m * D - N) <= D /\ (m = h \/ m = h + 1) /\ (m = h + 1 -> Z.odd q = true)).
    { unfold m. destruct (Z.odd q), st; cbn [round_nearest_even shr_m shr_record_of_loc loc_of_shr_record]; [specialize (Hr1 eq_refl)|specialize (Hr0 eq_refl)|specialize (Hr1 eq_refl)|specialize (Hr0 eq_refl)];
        try destruct (Z.even h); split; try split; auto; nia. }
    destruct Hd as (Hd & Hm & Ho). clearbody m.
    assert (m < 2 ^ 53).
    { destruct Hm as [->|Hm]; [destruct (Z.odd q); lia|]. rewrite (Ho Hm) in Eq2. lia. }
    assert (2 ^ 52 <= m) by (destruct (Z.odd q); lia).
    rewrite aux_end by lia. destruct (Z.eqb_spec m (2 ^ 53)) as [->|Hne]; [lia|].
    exists (Z.to_pos m), (e + 1). rewrite !Z2Pos.id by lia. split; [reflexivity|]. split; [lia|]. right. split; [reflexivity|exact Hd].
Qed.

(** conversion is exact below 2^53 *)
Lemma normalize_exact p : Zpos p < 2 ^ 53 ->
  exists m k, binary_normalize 53 1024 (Zpos p) 0 false = S754_finite false m (- k) /\
    0 <= k <= 52 /\ Zpos m = Zpos p * 2 ^ k /\ 2 ^ 52 <= Zpos m < 2 ^ 53 /\ k = 53 - Zpos (digits2_pos p).
Proof.
  intros Hp. pose proof (digits_spec p) as Hd. set (d := Zpos (digits2_pos p)) in *.
  assert (Hd1 : 1 <= d <= 53).
  { split; [unfold d; lia|]. assert (d - 1 < 53) by (apply (Z.pow_lt_mono_r_iff 2); lia). lia. }
  set (k := 53 - d).
  assert (Hm : 2 ^ 52 <= Zpos p * 2 ^ k < 2 ^ 53).
  { assert (E1 : 2 ^ 52 = 2 ^ (d - 1) * 2 ^ k) by (rewrite <- Z.pow_add_r by lia; f_equal; lia).
    assert (E2 : 2 ^ 53 = 2 ^ d * 2 ^ k) by (rewrite <- Z.pow_add_r by lia; f_equal; lia).
    rewrite E1, E2. pose proof (Z.pow_pos_nonneg 2 k). nia. }
  assert (Ea : shl_align p 0 (fexp 53 1024 (d + 0)) = (Z.to_pos (Zpos p * 2 ^ k), - k)).
  { unfold shl_align. assert (Ef : fexp 53 1024 (d + 0) = - k) by (unfold fexp, emin; lia). rewrite Ef.
    destruct (Z.eq_dec k 0) as [Ek|Hk].
    - rewrite Ek. change (2 ^ 0) with 1. rewrite Z.mul_1_r. reflexivity.
    - replace (- k - 0) with (- k) by lia. destruct k as [|j|j] eqn:Ej; [lia| |lia]. change (- Zpos j) with (Zneg j). cbv iota. f_equal.
      apply Pos2Z.inj. rewrite Z2Pos.id by lia. rewrite shift_pos_correct, Z.pow_pos_fold. lia. }
  exists (Z.to_pos (Zpos p * 2 ^ k)), k. rewrite Z2Pos.id by lia. split; [|split; [lia|split; [reflexivity|split; [exact Hm|reflexivity]]]].
  simpl. unfold binary_round. fold d. rewrite Ea. unfold binary_round_aux.
  rewrite Z2Pos.id by lia. rewrite shr_fexp_0 by lia.
  change (round_nearest_even _ _) with (Zpos p * 2 ^ k). rewrite aux_end by lia.
  destruct (Z.eqb_spec (Zpos p * 2 ^ k) (2 ^ 53)); [lia|reflexivity].
Qed.

(** the quotient of two integers below 2^53 is within half a unit in the last place *)
Lemma div_correct p d : Zpos p < 2 ^ 53 -> Zpos d < 2 ^ 53 ->
  exists m n, SFdiv 53 1024 (binary_normalize 53 1024 (Zpos p) 0 false) (binary_normalize 53 1024 (Zpos d) 0 false) = S754_finite false m (- n) /\
    0 <= n /\ 2 ^ 52 <= Zpos m < 2 ^ 53 /\ 2 * Z.abs (Zpos m * Zpos d - Zpos p * 2 ^ n) <= Zpos d.
Proof.
  intros Hp Hd. destruct (normalize_exact p Hp) as (m1 & k1 & E1 & K1 & M1 & B1 & D1).
  destruct (normalize_exact d Hd) as (m2 & k2 & E2 & K2 & M2 & B2 & D2). rewrite E1, E2.
  unfold SFdiv, SFdiv_core_binary. rewrite (digits_unique (Zpos m1) 53), (digits_unique (Zpos m2) 53) by lia.
  replace (53 + - k1 - (53 + - k2)) with (k2 - k1) by lia.
  replace (Z.min (fexp 53 1024 (k2 - k1)) (- k1 - - k2)) with (k2 - k1 - 53) by (unfold fexp, emin; lia).
  replace (- k1 - - k2 - (k2 - k1 - 53)) with 53 by lia.
  rewrite Z.shiftl_mul_pow2 by lia.
  set (N := Zpos m1 * 2 ^ 53). pose proof (Z_div_mod N (Zpos m2) ltac:(lia)) as Hdm.
  assert (Eq : fst (Z.div_eucl N (Zpos m2)) = N / Zpos m2) by (unfold Z.div; destruct (Z.div_eucl N (Zpos m2)); reflexivity).
  assert (Er : snd (Z.div_eucl N (Zpos m2)) = N mod Zpos m2) by (unfold Z.modulo; destruct (Z.div_eucl N (Zpos m2)); reflexivity).
  destruct (Z.div_eucl N (Zpos m2)) as [q r]. simpl in Eq, Er. subst q r. simpl xorb.
  destruct (aux_spec N (Zpos m2) (k2 - k1 - 53)) as (m & e' & Em & Bm & Hm); try lia.
  rewrite Em. exists m, (- e'). rewrite Z.opp_involutive. split; [reflexivity|].
  assert (Hn : 0 <= - e').
  { destruct Hm as [[-> _]|[-> Hm]]; lia. }
  split; [exact Hn|]. split; [exact Bm|].
  (* scale back *)
  destruct Hm as [[-> Hm]|[-> Hm]].
  - replace (- (k2 - k1 - 53)) with (k1 + (53 - k2)) by lia. rewrite Z.pow_add_r by lia.
    assert (EN : N = Zpos p * 2 ^ k1 * (2 ^ (53 - k2) * 2 ^ k2)) by (unfold N; rewrite M1, <- Z.pow_add_r by lia; do 2 f_equal; lia).
    rewrite EN, M2 in Hm. pose proof (Z.pow_pos_nonneg 2 k2 ltac:(lia) ltac:(lia)) as Hk.
    replace (Zpos m * (Zpos d * 2 ^ k2) - Zpos p * 2 ^ k1 * (2 ^ (53 - k2) * 2 ^ k2))
      with ((Zpos m * Zpos d - Zpos p * (2 ^ k1 * 2 ^ (53 - k2))) * 2 ^ k2) in Hm by ring.
    rewrite Z.abs_mul, (Z.abs_eq (2 ^ k2)) in Hm by lia. nia.
  - replace (- (k2 - k1 - 53 + 1)) with (k1 + (52 - k2)) by lia. rewrite Z.pow_add_r by lia.
    assert (EN : N = 2 * (Zpos p * 2 ^ k1 * (2 ^ (52 - k2) * 2 ^ k2))).
    { unfold N. rewrite M1, <- Z.pow_add_r by lia. replace (52 - k2 + k2) with 52 by lia. change (2 ^ 53) with (2 * 2 ^ 52). ring. }
    rewrite EN, M2 in Hm. pose proof (Z.pow_pos_nonneg 2 k2 ltac:(lia) ltac:(lia)) as Hk.
    replace (2 * Zpos m * (Zpos d * 2 ^ k2) - 2 * (Zpos p * 2 ^ k1 * (2 ^ (52 - k2) * 2 ^ k2)))
      with (2 * (Zpos m * Zpos d - Zpos p * (2 ^ k1 * 2 ^ (52 - k2))) * 2 ^ k2) in Hm by ring.
    rewrite !Z.abs_mul, (Z.abs_eq (2 ^ k2)), (Z.abs_eq 2) in Hm by lia. nia.
Qed.
