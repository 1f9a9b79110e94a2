(** RangeAlgoProofs.v -- lemmas for C151. *)
From Verif Require Import Base AlgoModel RangeModel RangeSpec RangeProofs RangeAlgoModel RangeAlgoSpec.

Lemma missing_input : forall q, In q required_input -> (meets range_iterator q = false <-> In q [Expr (OpInc, [It; Int]); Expr (OpEq, [It; It]); Traits]).
Proof. intros q Hq. repeat (destruct Hq as [<-|Hq]; [split; [vm_compute; tauto || discriminate|intros H; repeat (destruct H as [H|H]; [discriminate H || reflexivity|]); destruct H]|]). destruct Hq. Qed.
Lemma accepted_exact (a : algorithm) : accepted range_iterator a = true <-> In a [ForEach; Accumulate; Transform; InnerProduct].
Proof. destruct a; vm_compute; split; intros H; try reflexivity; try discriminate H; try tauto; repeat (destruct H as [H|H]; [discriminate H|]); destruct H. Qed.

Section Loops.
  Context {X : Type}.
  Lemma step (a b : Z) : is_size_t a -> is_size_t b -> (a < b)%Z -> ri_neq a b = true /\ ri_incr a = (a + 1)%Z /\ is_size_t (a + 1) /\ numbers a b = a :: numbers (a + 1) b.
  Proof.
    unfold is_size_t, ri_neq, ri_incr, numbers, wrap64. intros Ha Hb Hab. split; [|split; [|split]].
    - apply negb_true_iff, Z.eqb_neq. lia.
    - apply Z.mod_small. lia.
    - lia.
    - replace (Z.to_nat (b - a)) with (S (Z.to_nat (b - (a + 1)))) by lia. reflexivity.
  Qed.
  Lemma done (a : Z) : ri_neq a a = false /\ numbers a a = [].
  Proof. unfold ri_neq, numbers. rewrite Z.eqb_refl, Z.sub_diag. split; reflexivity. Qed.

  Lemma accumulate_ok (op : X -> Z -> X) (b : Z) (Hb : is_size_t b) fuel : forall a init, is_size_t a -> (a <= b)%Z -> (b - a < Z.of_nat fuel)%Z ->
    accumulate op fuel a b init = Some (fold_left op (numbers a b) init).
  Proof.
    induction fuel as [|n IH]; intros a init Ha Hab Hf; [lia|]. cbn [accumulate]. destruct (Z.eq_dec a b) as [->|Hne].
    - destruct (done b) as [-> ->]. reflexivity.
    - destruct (step a b Ha Hb ltac:(lia)) as (-> & -> & Ha' & ->). apply IH; [exact Ha'|lia|lia].
  Qed.
  Lemma transform_ok (op : Z -> X) (b : Z) (Hb : is_size_t b) fuel : forall a out, is_size_t a -> (a <= b)%Z -> (b - a < Z.of_nat fuel)%Z ->
    transform op fuel a b out = Some (out ++ map op (numbers a b)).
  Proof.
    induction fuel as [|n IH]; intros a out Ha Hab Hf; [lia|]. cbn [transform]. destruct (Z.eq_dec a b) as [->|Hne].
    - destruct (done b) as [-> ->]. now rewrite app_nil_r.
    - destruct (step a b Ha Hb ltac:(lia)) as (-> & -> & Ha' & ->). rewrite IH; [|exact Ha'|lia|lia]. cbn [map]. now rewrite <- app_assoc.
  Qed.
  Lemma inner_ok (op : X -> Z -> Z -> X) (b : Z) (Hb : is_size_t b) fuel : forall a c init, is_size_t a -> is_size_t c -> (a <= b)%Z -> (b - a < Z.of_nat fuel)%Z ->
    (c + (b - a) < 2 ^ 64)%Z ->
    inner_product op fuel a b c init = Some (fold_left (fun x p => op x (fst p) (snd p)) (combine (numbers a b) (numbers c (c + (b - a)))) init).
  Proof.
    induction fuel as [|n IH]; intros a c init Ha Hc Hab Hf Hw; [lia|]. cbn [inner_product]. destruct (Z.eq_dec a b) as [->|Hne].
    - destruct (done b) as [-> ->]. reflexivity.
    - destruct (step a b Ha Hb ltac:(lia)) as (-> & -> & Ha' & ->).
      assert (Hd : is_size_t (c + (b - a))) by (unfold is_size_t in *; lia).
      destruct (step c (c + (b - a)) Hc Hd ltac:(lia)) as (_ & -> & Hc' & ->). rewrite IH; [|exact Ha'|exact Hc'|lia|lia|lia].
      cbn [combine fold_left fst snd]. replace (c + 1 + (b - (a + 1)))%Z with (c + (b - a))%Z by lia. reflexivity.
  Qed.
End Loops.
