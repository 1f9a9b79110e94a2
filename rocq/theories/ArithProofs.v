(** ArithProofs.v -- proofs for C155. *)
From Verif Require Import Base ArithModel ArithSpec.

Section Arith.
  Context (m : impl) (Hm : conforming m).
  Definition promoted (t : arith) : bool :=
    match t with AInt | AUInt | ALong | AULong | ALLong | AULLong | AFloat | ADouble | ALDouble => true | _ => false end.
  Lemma promote_promoted t : promoted (promote m t) = true.
  Proof. destruct t; cbn; unfold promote_unsigned; try reflexivity; try destruct (char_signed m); try destruct (_ <? _); reflexivity. Qed.
  Lemma promote_id t : promoted t = true -> promote m t = t.
  Proof. destruct t; cbn; (discriminate || reflexivity). Qed.
  Lemma is_promote f a b : In f [ALDouble; ADouble; AFloat] -> is f (promote m a) (promote m b) = is f a b.
  Proof.
    unfold is. intros Hf. assert (forall t, arith_eqb (promote m t) f = arith_eqb t f) as E.
    { intros t. destruct Hf as [<-|[<-|[<-|[]]]]; destruct t; cbn; unfold promote_unsigned; try reflexivity; try destruct (char_signed m); try destruct (_ <? _); reflexivity. }
    rewrite !E. reflexivity.
  Qed.
  Lemma usual_promote a b : usual m a b = usual m (promote m a) (promote m b).
  Proof.
    unfold usual. rewrite !is_promote by (cbn; tauto). rewrite !(promote_id (promote m _)) by apply promote_promoted. reflexivity.
  Qed.
  (** the join of promoted types *)
  Definition lw : bool := w_int m <? w_long m.
  Definition ll : bool := w_long m <? w_llong m.
  Ltac bools := destruct Hm as (_ & _ & W1 & W2);
    assert ((w_int m <? w_llong m) = lw || ll) as W3 by
      (unfold lw, ll; destruct (Nat.ltb_spec (w_int m) (w_llong m)), (Nat.ltb_spec (w_int m) (w_long m)), (Nat.ltb_spec (w_long m) (w_llong m)); cbn; lia || reflexivity);
    change (w_int m <? w_llong m) with (wider m ALLong AUInt) in W3;
    assert (wider m ALLong AULong = ll) as W4 by reflexivity; assert (wider m ALong AUInt = lw) as W5 by reflexivity.
  Lemma usual_comm a b : promoted a = true -> promoted b = true -> usual m a b = usual m b a.
  Proof. bools. intros Ha Hb. destruct a, b; try discriminate; cbn -[wider lw ll]; rewrite ?W3, ?W4, ?W5; try reflexivity; destruct lw, ll; reflexivity. Qed.
  Lemma usual_idem a : promoted a = true -> usual m a a = a.
  Proof. intros Ha. destruct a; try discriminate; reflexivity. Qed.
  Lemma usual_closed a b : promoted (usual m a b) = true.
  Proof.
    rewrite usual_promote. pose proof (promote_promoted a) as Ha. pose proof (promote_promoted b) as Hb. revert Ha Hb.
    generalize (promote m a) (promote m b). clear a b. intros a b Ha Hb.
    destruct a, b; try discriminate; cbn -[wider lw ll]; try reflexivity; destruct (wider m _ _); reflexivity.
  Qed.
  Lemma usual_assoc a b c : promoted a = true -> promoted b = true -> promoted c = true -> usual m a (usual m b c) = usual m (usual m a b) c.
  Proof.
    bools. intros Ha Hb Hc. destruct a; try discriminate; destruct b; try discriminate; destruct c; try discriminate; cbn -[wider lw ll]; rewrite ?W3, ?W4, ?W5; cbn -[wider lw ll]; try reflexivity;
      destruct lw, ll; cbn -[wider lw ll]; rewrite ?W3, ?W4, ?W5; cbn -[wider lw ll]; reflexivity.
  Qed.
  Definition below (a b : arith) : Prop := usual m a b = b.

  Lemma type_below e : promoted (promote m (type_of m e)) = true /\
    (forall t, In t (leaves e) -> below (promote m t) (promote m (type_of m e))) /\
    (forall u, promoted u = true -> (forall t, In t (leaves e) -> below (promote m t) u) -> below (promote m (type_of m e)) u).
  Proof.
    split; [apply promote_promoted|]. induction e as [t|e [IH1 IH2]|o e1 [A1 A2] e2 [B1 B2]].
    - cbn [leaves type_of]. split.
      + intros t' [<-|[]]. apply usual_idem, promote_promoted.
      + intros u Hu H. apply H. left. reflexivity.
    - cbn [leaves type_of]. unfold NegationType. rewrite (promote_id (promote m _)) by apply promote_promoted. split; assumption.
    - assert (type_of m (XBin o e1 e2) = usual m (promote m (type_of m e1)) (promote m (type_of m e2))) as ->
        by (rewrite <- usual_promote; destruct o; reflexivity).
      cbn [leaves]. rewrite (promote_id (usual m _ _)) by apply usual_closed.
      pose proof (promote_promoted (type_of m e1)) as P1. pose proof (promote_promoted (type_of m e2)) as P2.
      set (x := promote m (type_of m e1)) in *. set (y := promote m (type_of m e2)) in *. split.
      + intros t Ht. pose proof (promote_promoted t) as Pt. apply in_app_or in Ht as [Ht|Ht].
        * specialize (A1 t Ht). unfold below in *. rewrite usual_assoc, A1 by assumption. reflexivity.
        * specialize (B1 t Ht). unfold below in *. rewrite (usual_comm x y), usual_assoc, B1 by assumption. reflexivity.
      + intros u Hu H. unfold below in *. rewrite <- usual_assoc by assumption.
        rewrite B2 by (try assumption; intros t Ht; apply H, in_or_app; right; exact Ht).
        apply A2; [assumption|]. intros t Ht. apply H, in_or_app. left. exact Ht.
  Qed.
  Lemma type_promoted e : has_operator e = true -> promote m (type_of m e) = type_of m e.
  Proof.
    intros H. apply promote_id. destruct e as [t|e|o e1 e2]; [discriminate|apply promote_promoted|destruct o; apply usual_closed].
  Qed.
  Lemma same_leaves e1 e2 : has_operator e1 = true -> has_operator e2 = true -> (forall t, In t (leaves e1) <-> In t (leaves e2)) -> type_of m e1 = type_of m e2.
  Proof.
    intros H1 H2 H. destruct (type_below e1) as (P1 & A1 & B1). destruct (type_below e2) as (P2 & A2 & B2).
    assert (below (promote m (type_of m e1)) (promote m (type_of m e2))) as L by (apply B1; [exact P2|intros t Ht; apply A2, H, Ht]).
    assert (below (promote m (type_of m e2)) (promote m (type_of m e1))) as R by (apply B2; [exact P1|intros t Ht; apply A1, H, Ht]).
    unfold below in *. rewrite usual_comm in R by assumption. rewrite L in R. rewrite !type_promoted in R by assumption. symmetry. exact R.
  Qed.
  Lemma arithmetic_type e x1 x2 : has_operator e = true -> (forall t, In t (leaves e) <-> t = x1 \/ t = x2) -> type_of m e = ArithmeticType m x1 x2.
  Proof.
    intros H Hl. change (ArithmeticType m x1 x2) with (type_of m (XBin BAdd (XBin BMul (XLeaf x1) (XLeaf x2)) (XBin BMul (XLeaf x1) (XLeaf x2)))).
    apply same_leaves; [exact H|reflexivity|]. intros t. rewrite Hl. cbn. intuition congruence.
  Qed.
  Lemma closed x1 x2 : let A := ArithmeticType m x1 x2 in SumType m A A = A /\ DifferenceType m A A = A /\ ProductType m A A = A /\ QuotientType m A A = A /\ NegationType m A = A.
  Proof.
    cbn zeta. unfold SumType, DifferenceType, ProductType, QuotientType, NegationType, ArithmeticType.
    repeat split; try (apply usual_idem, usual_closed). apply promote_id, usual_closed.
  Qed.
End Arith.

(** ** room for the values *)
Lemma pow_le a b : a <= b -> (2 ^ Z.of_nat a <= 2 ^ Z.of_nat b)%Z.
Proof. intros H. apply Z.pow_le_mono_r; lia. Qed.
Lemma pow_lt a b : a < b -> (2 * 2 ^ Z.of_nat a <= 2 ^ Z.of_nat b)%Z.
Proof. intros H. replace (2 * 2 ^ Z.of_nat a)%Z with (2 ^ Z.of_nat (S a))%Z; [apply pow_le; lia|]. rewrite Nat2Z.inj_succ, Z.pow_succ_r; lia. Qed.
Lemma sum_room m : conforming m -> 8 <= w_char m -> forall t1 t2, ~ floating t1 -> ~ floating t2 -> room m t1 t2 (SumType m t1 t2).
Proof.
  destruct m as [cs wc ws wi wl wll]. unfold conforming. cbn [w_char w_short w_int w_long w_llong]. intros (H1 & H2 & H3 & H4) H8.
  pose proof (pow_le _ _ H1) as P1. pose proof (pow_le _ _ H2) as P2. pose proof (pow_le _ _ H3) as P3. pose proof (pow_le _ _ H4) as P4.
  pose proof (pow_le _ _ H8) as P8. change (2 ^ Z.of_nat 8)%Z with 256%Z in P8.
  intros t1 t2 F1 F2. unfold room. destruct cs;
  destruct t1; try (exfalso; apply F1; unfold floating; tauto); destruct t2; try (exfalso; apply F2; unfold floating; tauto); clear F1 F2;
  unfold SumType, usual, is, promote, promote_unsigned, usual_promoted, mixed_sign, wider, rank, width, is_unsigned, to_unsigned;
  cbn [arith_eqb orb w_char w_short w_int w_long w_llong char_signed];
  repeat match goal with |- context [?a <? ?b] =>
    let E := fresh "E" in destruct (a <? b) eqn:E; [apply Nat.ltb_lt in E; try (exfalso; lia); pose proof (pow_lt _ _ E) | apply Nat.ltb_ge in E; try (exfalso; lia); pose proof (pow_le _ _ E)]; cbn [arith_eqb orb Bool.eqb Nat.leb]
  end;
  unfold holds, bits_signed, bits_unsigned; cbn [w_char w_short w_int w_long w_llong char_signed arith_eqb orb Bool.eqb Nat.leb];
  first [left; intros z [K|K]; lia
    | right; split; [intros z K; lia | split; [intros z K0 [K|K]; lia |]];
      first [exists (2 ^ Z.of_nat wc - 1)%Z; split; [lia | intros z' K; lia]
            |exists (2 ^ Z.of_nat ws - 1)%Z; split; [lia | intros z' K; lia]
            |exists (2 ^ Z.of_nat wi - 1)%Z; split; [lia | intros z' K; lia]
            |exists (2 ^ Z.of_nat wl - 1)%Z; split; [lia | intros z' K; lia]
            |exists (2 ^ Z.of_nat wll - 1)%Z; split; [lia | intros z' K; lia]]].
Qed.
Lemma arithmetic_room m : conforming m -> 8 <= w_char m -> forall x1 x2,
  (floating x1 \/ floating x2 -> floating (ArithmeticType m x1 x2)) /\
  (~ floating x1 -> ~ floating x2 -> room m x1 x2 (ArithmeticType m x1 x2)).
Proof.
  intros Hm H8 x1 x2. assert (ArithmeticType m x1 x2 = SumType m x1 x2) as ->.
  { unfold ArithmeticType, SumType, ProductType. apply usual_idem. apply usual_closed. }
  split; [|apply sum_room; assumption].
  unfold SumType, usual, is, floating. intros [[->|[->| ->]]|[->|[->| ->]]]; [destruct x2|destruct x2|destruct x2|destruct x1|destruct x1|destruct x1]; cbn; tauto.
Qed.
