(** MixProofs.v -- proofs for C154. *)
From Verif Require Import Base IterModel IterSpec IterProofs MixModel MixSpec.

Lemma run_cmp_pos {T R} (k : core T R) lo hi pos : lawful k lo hi pos -> forall o a b, run_cmp k o a b = cmp_positions o (pos a) (pos b).
Proof.
  intros H o a b. destruct H as [_ _ He Hd _ _]. destruct o; cbn [run_cmp cmp_positions]; unfold f_eq, f_ne, f_lt, f_le, f_gt, f_ge; try rewrite Hd.
  - specialize (He a b). destruct (c_equal k a b), (Z.eqb_spec (pos a) (pos b)); tauto || (exfalso; intuition congruence).
  - specialize (He a b). destruct (c_equal k a b), (Z.eqb_spec (pos a) (pos b)); tauto || (exfalso; intuition congruence).
  - destruct (Z.ltb_spec 0 (pos b - pos a)), (Z.ltb_spec (pos a) (pos b)); lia || reflexivity.
  - destruct (Z.leb_spec 0 (pos b - pos a)), (Z.leb_spec (pos a) (pos b)); lia || reflexivity.
  - destruct (Z.ltb_spec (pos b - pos a) 0), (Z.ltb_spec (pos b) (pos a)); lia || reflexivity.
  - destruct (Z.leb_spec (pos b - pos a) 0), (Z.leb_spec (pos b) (pos a)); lia || reflexivity.
Qed.
Lemma diff_pos {T R} (k : core T R) lo hi pos : lawful k lo hi pos -> forall a b, f_diff k a b tt = Ret (pos a - pos b)%Z tt.
Proof. intros H a b. unfold f_diff, neg_diff. destruct H as [Hf Hin _ Hd _ _]. rewrite Hd. pose proof (Hin a). pose proof (Hin b). destruct (Z.eqb_spec (pos b - pos a) (- 2 ^ 63)); [lia|]. f_equal. lia. Qed.

Section Mix.
  Context {TI TC Ref CRef : Type} (ki : core TI Ref) (kc : core TC CRef) (lo hi : Z) (pi : TI -> Z) (pc : TC -> Z)
          (Hi : lawful ki lo hi pi) (Hc : lawful kc lo hi pc) (v : convs) (up : TI -> TC) (down : TC -> TI)
          (Hup : keeps pi pc up) (Hdown : keeps pc pi down).
  Notation at_pos := (at_position pi pc).
  Lemma as_i_pos x : pi (as_i down x) = at_pos x.
  Proof. destruct x as [i|c]; [reflexivity|apply Hdown]. Qed.
  Lemma as_c_pos x : pc (as_c up x) = at_pos x.
  Proof. destruct x as [i|c]; [apply Hup|reflexivity]. Qed.
  Lemma compare_right o x y b : compare_expr ki kc v up down o x y = Some b -> b = cmp_positions o (at_pos x) (at_pos y).
  Proof.
    unfold compare_expr. destruct (pick_friend v (cls x) (cls y)) as [[]|]; intros [= <-].
    - rewrite (run_cmp_pos ki lo hi pi Hi), !as_i_pos. reflexivity.
    - rewrite (run_cmp_pos kc lo hi pc Hc), !as_c_pos. reflexivity.
  Qed.
  Lemma minus_right x y r : minus_expr ki kc v up down x y = Some r -> r = Ret (at_pos x - at_pos y)%Z tt.
  Proof.
    unfold minus_expr. destruct (pick_member v (cls x) (cls y)) as [[]|]; intros [= <-].
    - rewrite (diff_pos ki lo hi pi Hi), !as_i_pos. reflexivity.
    - rewrite (diff_pos kc lo hi pc Hc), !as_c_pos. reflexivity.
  Qed.
  (** what compiles *)
  Lemma compare_compiles o x y : compare_expr ki kc v up down o x y <> None <-> cls x = cls y \/ i_to_c v <> c_to_i v.
  Proof. unfold compare_expr. destruct v as [[] []], x, y; cbn; (split; [intros H; try congruence; try (left; reflexivity); right; discriminate|intros [H|H]; congruence]). Qed.
  Lemma minus_compiles x y : minus_expr ki kc v up down x y <> None <-> converts v (cls y) (cls x) = true.
  Proof. unfold minus_expr, pick_member. destruct (converts v (cls y) (cls x)); [split; [reflexivity|destruct (cls x); discriminate]|split; [congruence|discriminate]]. Qed.
End Mix.
Lemma const_minus_iterator {TI TC Ref CRef} (ki : core TI Ref) (kc : core TC CRef) lo hi pi pc (Hi : lawful ki lo hi pi) (Hc : lawful kc lo hi pc)
  up down (Hup : keeps pi pc up) : forall x y, minus_expr ki kc (mkConvs true false) up down x y =
  match x, y with OI _, OC _ => None | _, _ => Some (Ret (at_position pi pc x - at_position pi pc y)%Z tt) end.
Proof.
  intros [i|c] [j|d]; cbn; try reflexivity.
  - rewrite (diff_pos ki lo hi pi Hi). reflexivity.
  - rewrite (diff_pos kc lo hi pc Hc), Hup. reflexivity.
  - rewrite (diff_pos kc lo hi pc Hc). reflexivity.
Qed.
Lemma compare_mixed {TI TC Ref CRef} (ki : core TI Ref) (kc : core TC CRef) lo hi pi pc (Hi : lawful ki lo hi pi) (Hc : lawful kc lo hi pc)
  up down (Hup : keeps pi pc up) : forall o x y, compare_expr ki kc (mkConvs true false) up down o x y =
  Some (cmp_positions o (at_position pi pc x) (at_position pi pc y)).
Proof.
  intros o [i|c] [j|d]; unfold compare_expr; cbn [pick_friend cls as_i as_c resolve friends filter viable converts icls_eqb andb orb i_to_c c_to_i at_position].
  - rewrite (run_cmp_pos ki lo hi pi Hi). reflexivity.
  - cbn. rewrite (run_cmp_pos kc lo hi pc Hc), Hup. reflexivity.
  - cbn. rewrite (run_cmp_pos kc lo hi pc Hc), Hup. reflexivity.
  - rewrite (run_cmp_pos kc lo hi pc Hc). reflexivity.
Qed.
Lemma not_all_compile {TI TC Ref CRef} (ki : core TI Ref) (kc : core TC CRef) up down (i : TI) (c : TC) : forall v,
  ~ (compare_expr ki kc v up down CEq (OI i) (OC c) <> None /\ minus_expr ki kc v up down (OI i) (OC c) <> None /\ minus_expr ki kc v up down (OC c) (OI i) <> None).
Proof. intros [[] []] (H1 & H2 & H3); cbn in *; congruence. Qed.
Lemma whatever_compiles {TI TC Ref CRef} (ki : core TI Ref) (kc : core TC CRef) lo hi pi pc : lawful ki lo hi pi -> lawful kc lo hi pc ->
  forall v up down, keeps pi pc up -> keeps pc pi down -> forall x y,
    (forall o b, compare_expr ki kc v up down o x y = Some b -> b = cmp_positions o (at_position pi pc x) (at_position pi pc y)) /\
    (forall r, minus_expr ki kc v up down x y = Some r -> r = Ret (at_position pi pc x - at_position pi pc y)%Z tt) /\
    (forall o, compare_expr ki kc v up down o x y <> None <-> cls x = cls y \/ i_to_c v <> c_to_i v) /\
    (minus_expr ki kc v up down x y <> None <->
     match x, y with OI _, OC _ => c_to_i v = true | OC _, OI _ => i_to_c v = true | _, _ => True end).
Proof.
  intros Hi Hc v up down Hup Hdown x y. split; [|split; [|split]].
  - intros o b. apply (compare_right ki kc lo hi); assumption.
  - intros r. apply (minus_right ki kc lo hi); assumption.
  - intros o. apply compare_compiles.
  - rewrite minus_compiles. destruct x, y; cbn; tauto.
Qed.
