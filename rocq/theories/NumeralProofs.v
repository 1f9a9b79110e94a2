(** NumeralProofs.v -- the numerals of StreamModel.v. *)
From Coq Require Import DecimalFacts DecimalPos DecimalZ DecimalN.
From Verif Require Import Base StreamModel StlioModel StlioSpec StlioProofs NumeralSpec.

Lemma space_iff c : is_space c = true <-> In (nat_of_ascii c) blanks.
Proof.
  unfold is_space, blanks. rewrite orb_true_iff, andb_true_iff, Nat.eqb_eq, !Nat.leb_le. cbn [In]. lia.
Qed.
Lemma digit_iff c : is_digit c = true <-> exists d, digit c d.
Proof.
  split.
  - destruct c as [[] [] [] [] [] [] [] []]; intros H; try discriminate H;
      [> first [now exists 0 | now exists 1 | now exists 2 | now exists 3 | now exists 4 | now exists 5 | now exists 6 | now exists 7 | now exists 8 | now exists 9] ..].
  - intros [d Hd]. unfold digit, digit_list in Hd. do 10 (destruct d as [|d]; [injection Hd as <-; reflexivity|]). destruct d; discriminate Hd.
Qed.
Lemma digit_val c d : digit c d -> digit_value c = Z.of_nat d.
Proof. unfold digit, digit_list. intros Hd. do 10 (destruct d as [|d]; [injection Hd as <-; reflexivity|]). destruct d; discriminate Hd. Qed.
Lemma digit_unique c d d' : digit c d -> digit c d' -> d = d'.
Proof. intros H H'. apply digit_val in H. apply digit_val in H'. lia. Qed.
Lemma digits_value_snoc t c : digits_value (t ++ [c]) = (10 * digits_value t + digit_value c)%Z.
Proof. unfold digits_value. rewrite fold_left_app. reflexivity. Qed.
Lemma denotes_iff t n : denotes t n <-> forallb is_digit t = true /\ digits_value t = n.
Proof.
  split.
  - induction 1 as [|t n c d _ [IH1 IH2] Hd]; [split; reflexivity|]. rewrite forallb_app, digits_value_snoc, IH1, IH2, (digit_val c d Hd). cbn.
    split; [|reflexivity]. rewrite andb_true_r. apply digit_iff. eauto.
  - intros [H <-]. induction t as [|c t IH] using rev_ind; [constructor|]. rewrite forallb_app in H. apply andb_true_iff in H as [H1 H2].
    cbn in H2. rewrite andb_true_r in H2. apply digit_iff in H2 as [d Hd]. rewrite digits_value_snoc, (digit_val c d Hd). constructor; auto.
Qed.
Lemma uint_text_zero d t : uint_text d = "0"%char :: t -> exists d', d = Decimal.D0 d' /\ t = uint_text d'.
Proof. destruct d; cbn; intros E; try discriminate E. injection E as <-. eauto. Qed.
Lemma pos_no_zero p d : Pos.to_uint p <> Decimal.D0 d.
Proof.
  intros E. pose proof (DecimalPos.Unsigned.of_to p) as H. pose proof (DecimalPos.Unsigned.to_of (Pos.to_uint p)) as K. rewrite H in K. cbn [N.to_uint] in K.
  unfold Decimal.unorm in K. rewrite E in K at 2. cbn [Decimal.nzhead] in K. destruct (Decimal.nzhead d) eqn:N; rewrite ?E in K; try discriminate K.
  - injection K as ->. cbn in E. rewrite E in H. cbn in H. discriminate H.
  - exact (nzhead_nonzero _ _ N).
Qed.
Lemma pos_text p : digits_of (Z.pos p) (uint_text (Pos.to_uint p)).
Proof.
  split; [|split].
  - destruct (Pos.to_uint p) eqn:E; cbn; try discriminate. pose proof (DecimalPos.Unsigned.of_to p) as H. rewrite E in H. discriminate H.
  - apply denotes_iff. split; [apply uint_text_digits|]. rewrite digits_uint, DecimalPos.Unsigned.of_to. reflexivity.
  - intros t' E. apply uint_text_zero in E as [d [E _]]. exfalso. exact (pos_no_zero _ _ E).
Qed.
Lemma int_numeral z : numeral z (int_text z).
Proof.
  unfold numeral, int_text. destruct z as [|p|p]; cbn [Z.to_int].
  - left. split; [lia|]. split; [discriminate|]. split; [apply denotes_iff; split; reflexivity|]. intros t' E. injection E as <-. reflexivity.
  - left. split; [lia|]. apply pos_text.
  - right. split; [lia|]. eexists. split; [reflexivity|]. apply pos_text.
Qed.

(** a number has one numeral *)
Lemma denotes_pos t n : denotes t n -> (0 <= n)%Z.
Proof. induction 1; lia. Qed.
Lemma denotes_zero t : denotes t 0 -> t = repeat "0"%char (List.length t).
Proof.
  intros H. remember 0%Z as z eqn:E. induction H as [|t n c d H IH Hd]; [reflexivity|].
  pose proof (denotes_pos _ _ H). assert (n = 0%Z) as -> by lia. assert (d = 0) as -> by lia. rewrite app_length. cbn [List.length].
  rewrite repeat_app. cbn [repeat]. rewrite <- (IH eq_refl). injection Hd as <-. reflexivity.
Qed.
Lemma digit_lt c d : digit c d -> d < 10.
Proof. intros H. change 10 with (List.length digit_list). apply nth_error_Some. unfold digit in H. rewrite H. discriminate. Qed.
Definition no_zero (t : text) : Prop := forall t', t <> "0"%char :: t'.
Lemma denotes_unique t1 n : denotes t1 n -> forall t2, denotes t2 n -> no_zero t1 -> no_zero t2 -> t1 = t2.
Proof.
  assert (forall t c, no_zero (t ++ [c]) -> no_zero t) as Z1 by (intros t c H t' ->; exact (H (t' ++ [c]) eq_refl)).
  assert (forall t, denotes t 0 -> no_zero t -> t = []) as Z2.
  { intros t H N. apply denotes_zero in H. destruct t as [|a t]; [reflexivity|]. cbn in H. injection H as -> _. exfalso. exact (N t eq_refl). }
  assert (forall t c d k, denotes t k -> digit c d -> (0 = 10 * k + Z.of_nat d)%Z -> ~ no_zero (t ++ [c])) as Z3.
  { intros t c d k H Hd E N. pose proof (denotes_pos _ _ H). assert (k = 0%Z) as -> by lia. assert (d = 0) as -> by lia.
    rewrite (Z2 t H (Z1 _ _ N)) in N. injection Hd as <-. exact (N [] eq_refl). }
  induction 1 as [|t n c d H IH Hd]; intros t2 H2 N1 N2.
  - symmetry. apply Z2; assumption.
  - inversion H2 as [E0 E|t' n' c' d' H' Hd' E0 E].
    + exfalso. exact (Z3 t c d n H Hd E N1).
    + change (10 * n' + Z.of_nat d' = 10 * n + Z.of_nat d)%Z in E. subst t2. pose proof (digit_lt _ _ Hd). pose proof (digit_lt _ _ Hd'). assert (n' = n) as -> by lia. assert (d' = d) as -> by lia.
      rewrite (IH t' H' (Z1 _ _ N1) (Z1 _ _ N2)). unfold digit in *. congruence.
Qed.
Lemma digits_unique n t1 t2 : digits_of n t1 -> digits_of n t2 -> t1 = t2.
Proof.
  intros (N1 & D1 & Z1) (N2 & D2 & Z2).
  assert (forall t, t <> [] -> denotes t n -> (forall t', t = "0"%char :: t' -> t' = []) -> (t = chars "0" /\ n = 0%Z) \/ (no_zero t)) as C.
  { intros t N D Z. destruct t as [|a t]; [congruence|]. destruct (ascii_dec a "0"%char) as [->|Ha].
    - left. pose proof (Z t eq_refl) as ->. split; [reflexivity|]. apply denotes_iff in D as [_ D]. symmetry. exact D.
    - right. intros t' E. injection E as -> _. congruence. }
  assert (forall t, t <> [] -> denotes t 0 -> no_zero t -> False) as Y.
  { intros t N D Z. apply denotes_zero in D. destruct t as [|a t]; [congruence|]. cbn in D. injection D as -> _. exact (Z t eq_refl). }
  destruct (C t1 N1 D1 Z1) as [[-> E1]|Y1], (C t2 N2 D2 Z2) as [[-> E2]|Y2].
  - reflexivity.
  - subst n. exfalso. exact (Y t2 N2 D2 Y2).
  - subst n. exfalso. exact (Y t1 N1 D1 Y1).
  - exact (denotes_unique t1 n D1 t2 D2 Y1 Y2).
Qed.
Lemma digits_no_minus n t : ~ digits_of n ("-"%char :: t).
Proof. intros (_ & D & _). apply denotes_iff in D as [D _]. discriminate D. Qed.
Lemma numeral_iff z t : numeral z t <-> t = int_text z.
Proof.
  split; [|intros ->; apply int_numeral]. intros H. destruct (int_numeral z) as [[K1 K2]|[K1 [u [E K2]]]], H as [[H1 H2]|[H1 [v [F H2]]]]; try lia.
  - exact (digits_unique _ _ _ H2 K2).
  - rewrite E, F. f_equal. exact (digits_unique _ _ _ H2 K2).
Qed.
Lemma int_format z o t : print_int z o = put_text t o <-> numeral z t.
Proof.
  rewrite numeral_iff. unfold print_int, put_text. split; [|intros ->; reflexivity]. intros E. injection E as E. apply app_inv_head in E. symmetry. exact E.
Qed.
Lemma characters : (forall c, is_space c = true <-> In (nat_of_ascii c) blanks) /\ (forall c, is_digit c = true <-> exists d, digit c d) /\
  (forall t n, forallb is_digit t = true /\ digits_value t = n <-> denotes t n).
Proof. split; [exact space_iff|]. split; [exact digit_iff|]. intros t n. symmetry. apply denotes_iff. Qed.
