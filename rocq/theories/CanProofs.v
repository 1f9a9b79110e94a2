(** CanProofs.v -- proofs for C156. *)
From Verif Require Import Base CanModel CanSpec.

Lemma filter_ext_all {A} (f g : A -> bool) l : (forall x, In x l -> f x = g x) -> filter f l = filter g l.
Proof. induction l as [|x l IH]; intros H; cbn; [reflexivity|]. rewrite (H x) by (left; reflexivity). rewrite IH by (intros; apply H; right; assumption). reflexivity. Qed.
Lemma find_ext_all {A} (f g : A -> bool) l : (forall x, In x l -> f x = g x) -> find f l = find g l.
Proof. induction l as [|x l IH]; intros H; cbn; [reflexivity|]. rewrite (H x) by (left; reflexivity). rewrite IH by (intros; apply H; right; assumption). reflexivity. Qed.
Lemma forallb_ext_all {A} (f g : A -> bool) l : (forall x, In x l -> f x = g x) -> forallb f l = forallb g l.
Proof. induction l as [|x l IH]; intros H; cbn; [reflexivity|]. rewrite (H x) by (left; reflexivity). rewrite IH by (intros; apply H; right; assumption). reflexivity. Qed.

Lemma binds_indifferent lv t p : indifferent p = true -> binds lv t p = true.
Proof. destruct p; (reflexivity || discriminate). Qed.
Lemma better_indifferent lv p q : indifferent p = true -> indifferent q = true -> better lv p q = false.
Proof. destruct p, q; (reflexivity || discriminate). Qed.
Lemma select_same t1 t2 ops : forallb indifferent_op ops = true -> select true t1 t2 ops = select false t1 t2 ops.
Proof.
  rewrite forallb_forall. intros H. unfold select.
  assert (filter (fun c => binds true t1 (fst c) && binds true t2 (snd c)) ops = filter (fun c => binds false t1 (fst c) && binds false t2 (snd c)) ops) as ->.
  { apply filter_ext_all. intros [p q] Hc. specialize (H _ Hc). unfold indifferent_op in H. cbn [fst snd] in *. apply andb_true_iff in H as [H1 H2].
    rewrite !binds_indifferent by assumption. reflexivity. }
  apply find_ext_all. intros [p q] Hc. apply filter_In in Hc as [Hc _]. pose proof (H _ Hc) as Hi. apply andb_true_iff in Hi as [H1 H2]. cbn [fst snd] in *.
  apply forallb_ext_all. intros [p' q'] Hd. apply filter_In in Hd as [Hd _]. pose proof (H _ Hd) as Hj. apply andb_true_iff in Hj as [H3 H4]. cbn [fst snd] in *.
  unfold cand_better. cbn [fst snd]. rewrite !better_indifferent by assumption. reflexivity.
Qed.
Lemma agree t1 t2 ops : ordinary t1 -> ordinary t2 -> forallb indifferent_op ops = true -> can_op t1 t2 ops = op_type t1 t2 ops.
Proof.
  intros [A1 C1] [A2 C2] H. unfold can_op, op_type, compiles. rewrite A1, A2, (select_same t1 t2 ops H). cbn [negb andb].
  destruct (select false t1 t2 ops) as [[p q]|]; [|reflexivity]. cbn [fst snd]. f_equal.
  - destruct p; cbn; congruence.
  - destruct q; cbn; congruence.
Qed.
(** an operator that is the only one *)
Lemma only t1 t2 p q lv : select lv t1 t2 [(p, q)] = if binds lv t1 p && binds lv t2 q then Some (p, q) else None.
Proof. unfold select. cbn. destruct (binds lv t1 p && binds lv t2 q); cbn; [|reflexivity]. unfold cand_eqb. destruct p, q; reflexivity. Qed.
Lemma only_one t1 t2 p q : can_op t1 t2 [(p, q)] = negb (is_abstract t1) && negb (is_abstract t2) &&
    (binds true t1 p && binds true t2 q && (initialises true t1 p && initialises true t2 q)) /\
  op_type t1 t2 [(p, q)] = binds false t1 p && binds false t2 q && (initialises false t1 p && initialises false t2 q).
Proof. unfold can_op, op_type, compiles. rewrite !only. destruct (binds true t1 p && binds true t2 q), (binds false t1 p && binds false t2 q); split; cbn; reflexivity. Qed.
Lemma differ : 
  (exists t ops, ordinary t /\ can_op t t ops = true /\ op_type t t ops = false) /\
  (exists t ops, ordinary t /\ can_op t t ops = false /\ op_type t t ops = true) /\
  (exists t ops, forallb indifferent_op ops = true /\ from_lvalue t = from_xvalue t /\ can_op t t ops = false /\ op_type t t ops = true) /\
  (exists t ops, is_abstract t = false /\ forallb indifferent_op ops = true /\ can_op t t ops = false /\ op_type t t ops = true).
Proof.
  split; [|split; [|split]].
  - exists (mkType false false true true), [(PRef, PRef)]. repeat split.
  - exists (mkType false false true true), [(PRv, PCRef)]. repeat split.
  - exists (mkType false true false false), [(PCRef, PCRef)]. repeat split.
  - exists (mkType false false false true), [(PVal, PVal)]. repeat split.
Qed.

Lemma binds_takes lv t p : binds lv t p = true <-> takes t lv p.
Proof.
  split.
  - destruct p, lv; cbn; intros H; try discriminate; try (apply negb_true_iff in H); constructor; assumption.
  - intros H. destruct H; cbn; try reflexivity; rewrite H; reflexivity.
Qed.
Lemma better_closer lv p q : better lv p q = true <-> closer lv p q.
Proof.
  split.
  - destruct p, q, lv; cbn; intros H; try discriminate; constructor; cbn; auto.
  - intros H. destruct H as [|p H|]; try reflexivity. destruct H as [<-|[<-|[]]]; reflexivity.
Qed.
Lemma better_not lv p q : negb (better lv p q) = true <-> ~ closer lv p q.
Proof. rewrite negb_true_iff, <- better_closer. destruct (better lv p q); split; intros H; congruence || (exfalso; apply H; reflexivity). Qed.
Lemma cand_better_beats lv c d : cand_better lv c d = true <-> beats lv c d.
Proof.
  unfold cand_better, beats. rewrite !andb_true_iff, orb_true_iff, !better_not, !better_closer. tauto.
Qed.
Lemma param_eqb_iff p q : param_eqb p q = true <-> p = q.
Proof. destruct p, q; cbn; split; intros H; congruence. Qed.
Lemma cand_eqb_iff c d : cand_eqb c d = true <-> c = d.
Proof.
  destruct c as [p q], d as [p' q']. unfold cand_eqb. rewrite andb_true_iff, !param_eqb_iff. cbn [fst snd].
  split; [intros [-> ->]; reflexivity|intros H; injection H; auto].
Qed.
Lemma beats_asym lv c d : beats lv c d -> ~ beats lv d c.
Proof. unfold beats. tauto. Qed.
Lemma select_chosen lv t1 t2 ops c : select lv t1 t2 ops = Some c <-> chosen lv t1 t2 ops c.
Proof.
  unfold select. cbn zeta.
  match goal with |- context [find _ ?w] => set (v := w) end.
  assert (Hv : forall d : cand, In d v <-> In d ops /\ viable lv t1 t2 d).
  { intros d. unfold v. rewrite filter_In, andb_true_iff, !binds_takes. reflexivity. }
  clearbody v.
  assert (Hb : forall x, forallb (fun d => cand_eqb x d || cand_better lv x d) v = true <-> forall d, In d v -> d = x \/ beats lv x d).
  { intros x. rewrite forallb_forall. split; intros H d Hd; specialize (H d Hd); rewrite orb_true_iff, cand_eqb_iff, cand_better_beats in *; intuition. }
  split.
  - intros H. apply find_some in H as [Hc H]. apply Hv in Hc as [Hc Hw]. rewrite Hb in H. split; [exact Hc|]. split; [exact Hw|].
    intros d Hd Hdv. apply H. apply Hv. auto.
  - intros (Hc & Hw & H).
    assert (Hcv : In c v) by (apply Hv; auto).
    match goal with |- ?w = _ => destruct w as [x|] eqn:E end.
    + apply find_some in E as [Hx Hxb]. rewrite Hb in Hxb. apply Hv in Hx as [Hx Hxv].
      destruct (H x Hx Hxv) as [->|B1]; [reflexivity|]. destruct (Hxb c Hcv) as [->|B2]; [reflexivity|].
      exfalso. exact (beats_asym _ _ _ B1 B2).
    + exfalso. apply (find_none _ _ E) in Hcv. rewrite <- not_true_iff_false in Hcv. apply Hcv. apply Hb.
      intros d Hd. apply Hv in Hd as [Hd Hdv]. auto.
Qed.
Lemma initialises_passes lv t p : initialises lv t p = true <-> passes t lv p.
Proof.
  split.
  - destruct p; cbn; intros H; try (constructor; discriminate). destruct lv; constructor; exact H.
  - intros H. destruct H as [H|H|lv p H]; cbn; try exact H. destruct p; try reflexivity. contradiction.
Qed.
Lemma compiles_iff lv t1 t2 ops : compiles lv t1 t2 ops = true <-> well_formed lv t1 t2 ops.
Proof.
  unfold compiles, well_formed. split.
  - destruct (select lv t1 t2 ops) as [c|] eqn:E; [|discriminate]. apply select_chosen in E. rewrite andb_true_iff, !initialises_passes.
    intros H. exists c. auto.
  - intros (c & Hc & Hp). apply select_chosen in Hc. rewrite Hc, andb_true_iff, !initialises_passes. exact Hp.
Qed.
Lemma by_the_rules t1 t2 ops :
  (can_op t1 t2 ops = true <-> is_abstract t1 = false /\ is_abstract t2 = false /\ well_formed true t1 t2 ops) /\
  (op_type t1 t2 ops = true <-> well_formed false t1 t2 ops).
Proof.
  unfold can_op, op_type. rewrite !andb_true_iff, !negb_true_iff, !compiles_iff. tauto.
Qed.
