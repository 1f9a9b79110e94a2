(** CallProofs.v -- lemmas about CallModel.v *)
From Verif Require Import Base CallModel CallSpec.
Local Open Scope monad_scope.

Section Using.
  Context {T R : Type}.
  Notation Vec := (vec T).

  Lemma run_keeps (p : prog T R) : keeps_size p -> forall (v v' : Vec) r, run_prog p v = Ret r v' ->
    epoch v' = epoch v /\ length (elems v') = length (elems v).
  Proof.
    induction p as [r0|e|i k IH|k IH|i x k IH|x k IH|k IH]; cbn [keeps_size run_prog]; intros H v v' r E; try contradiction.
    - injection E as _ <-. auto.
    - discriminate.
    - destruct (nth_error (elems v) i); [|discriminate]. eauto.
    - eauto.
    - destruct (nth_error (elems v) i); [|discriminate]. destruct (IH H _ _ _ E) as [A B]. cbn [epoch elems] in *.
      rewrite upd_length in B. auto.
  Qed.
  Lemma run_reads (p : prog T R) : reads_only p -> forall (v v' : Vec) r, run_prog p v = Ret r v' -> v' = v.
  Proof.
    induction p as [r0|e|i k IH|k IH|i x k IH|x k IH|k IH]; cbn [reads_only run_prog]; intros H v v' r E; try contradiction.
    - congruence.
    - discriminate.
    - destruct (nth_error (elems v) i); [|discriminate]. eauto.
    - eauto.
  Qed.
  Lemma reads_keeps (p : prog T R) : reads_only p -> keeps_size p.
  Proof. induction p; cbn; auto; contradiction. Qed.

  Lemma apply_current (f : T -> prog T R) : (forall x, keeps_size (f x)) -> forall n i e (v : Vec), epoch v = e ->
    apply_from f e i n v = on_current f i n v.
  Proof.
    intros Hf. induction n as [|n IH]; intros i e v He; cbn [apply_from on_current]; [reflexivity|].
    destruct (nth_error (elems v) i) as [x|]; [|reflexivity]. unfold bind at 1.
    destruct (run_prog (f x) v) as [r v1| | | |] eqn:E; try reflexivity.
    destruct (run_keeps _ (Hf x) _ _ _ E) as [He1 _]. rewrite He1, He, Nat.eqb_refl. unfold bind. rewrite (IH (S i) e v1) by congruence.
    destruct (on_current f (S i) n v1); reflexivity.
  Qed.
  Lemma elementwise_current (f : T -> prog T R) : (forall x, keeps_size (f x)) -> forall n i fuel (v : Vec), i + n = length (elems v) -> n < fuel ->
    elementwise_from fuel f i v = on_current f i n v.
  Proof.
    intros Hf. induction n as [|n IH]; intros i fuel v Hl Hfu; (destruct fuel as [|fuel]; [lia|]); cbn [elementwise_from on_current].
    - replace (i =? length (elems v)) with true by (symmetry; apply Nat.eqb_eq; lia). reflexivity.
    - replace (i =? length (elems v)) with false by (symmetry; apply Nat.eqb_neq; lia).
      destruct (nth_error (elems v) i) as [x|]; [|reflexivity]. unfold bind.
      destruct (run_prog (f x) v) as [r v1| | | |] eqn:E; try reflexivity.
      destruct (run_keeps _ (Hf x) _ _ _ E) as [_ Hl1]. rewrite (IH (S i) fuel v1) by lia.
      destruct (on_current f (S i) n v1); reflexivity.
  Qed.
  Lemma current_each (f : T -> prog T R) : (forall x, reads_only (f x)) -> forall l pre (v : Vec), elems v = pre ++ l ->
    on_current f (length pre) (length l) v = on_each f l v.
  Proof.
    intros Hf. induction l as [|x l IH]; intros pre v Hv; cbn [length on_current on_each]; [reflexivity|].
    rewrite Hv, nth_error_app2, Nat.sub_diag by lia. cbn [nth_error].
    destruct (run_prog (f x) v) as [r v1| | | |] eqn:E; try reflexivity. apply run_reads in E; [subst v1|apply Hf].
    specialize (IH (pre ++ [x]) v). rewrite app_length in IH. cbn [length] in IH. replace (S (length pre)) with (length pre + 1) by lia.
    rewrite IH; [reflexivity|]. now rewrite <- app_assoc.
  Qed.

  Lemma reading (f : T -> prog T R) fuel (v : Vec) : (forall x, reads_only (f x)) -> length (elems v) < fuel ->
    apply_call f v = on_each f (elems v) v /\ elementwise_call fuel f v = on_each f (elems v) v.
  Proof.
    intros Hf Hfu. assert (forall x, keeps_size (f x)) as Hk by (intros; now apply reads_keeps).
    rewrite <- (current_each f Hf (elems v) [] v eq_refl). split.
    - unfold apply_call. now rewrite (apply_current f Hk).
    - unfold elementwise_call. cbn [length]. now apply (elementwise_current f Hk).
  Qed.
  Lemma assigning (f : T -> prog T R) fuel (v : Vec) : (forall x, keeps_size (f x)) -> length (elems v) < fuel ->
    apply_call f v = on_current f 0 (length (elems v)) v /\ elementwise_call fuel f v = on_current f 0 (length (elems v)) v.
  Proof.
    intros Hk Hfu. split.
    - unfold apply_call. now rewrite (apply_current f Hk).
    - unfold elementwise_call. now apply (elementwise_current f Hk).
  Qed.
  Lemma apply_resized (f : T -> prog T R) (v v' : Vec) x l r : elems v = x :: l -> run_prog (f x) v = Ret r v' -> epoch v' <> epoch v ->
    apply_call f v = Ub UbDangling.
  Proof.
    intros Hv E He. unfold apply_call. rewrite Hv. cbn [length apply_from]. rewrite Hv. cbn [nth_error]. unfold bind at 1. rewrite E.
    apply Nat.eqb_neq in He. now rewrite He.
  Qed.
End Using.

Section Sizes.
  Context {T : Type}.
  Lemma pushes (fuel : nat) : forall i (v : vec T), i < length (elems v) ->
    elementwise_from fuel (fun x => Push x (Return x)) i v = Fuel.
  Proof.
    induction fuel as [|fuel IH]; intros i v Hi; cbn [elementwise_from]; [reflexivity|].
    replace (i =? length (elems v)) with false by (symmetry; apply Nat.eqb_neq; lia).
    destruct (nth_error (elems v) i) as [x|] eqn:E; [|apply nth_error_None in E; lia]. unfold bind. cbn [run_prog].
    rewrite IH; [reflexivity|]. cbn [elems]. rewrite app_length. cbn. lia.
  Qed.
  Lemma pushes_forever fuel (v : vec T) : elems v <> [] -> elementwise_call fuel (fun x => Push x (Return x)) v = Fuel.
  Proof. intros H. apply pushes. destruct (elems v); [contradiction|cbn; lia]. Qed.

  Lemma removelast_length (l : list T) : length (removelast l) = length l - 1.
  Proof. induction l as [|x [|y t] IH]; cbn [removelast length] in *; lia. Qed.
  Lemma removelast_firstn (l : list T) : removelast l = firstn (length l - 1) l.
  Proof.
    induction l as [|x [|y t] IH]; [reflexivity..|]. change (removelast (x :: y :: t)) with (x :: removelast (y :: t)). rewrite IH.
    cbn [length]. replace (S (S (length t)) - 1) with (S (S (length t) - 1)) by lia. reflexivity.
  Qed.
  Definition popper : T -> prog T T := fun x => Pop (Return x).
  Lemma pops_even m : forall i fuel (v : vec T), length (elems v) = i + 2 * m -> m < fuel ->
    exists e, elementwise_from fuel popper i v = Ret (firstn m (skipn i (elems v))) (mkVec (firstn (i + m) (elems v)) e).
  Proof.
    induction m as [|m IH]; intros i fuel v Hl Hf; (destruct fuel as [|fuel]; [lia|]); cbn [elementwise_from].
    - replace (i =? length (elems v)) with true by (symmetry; apply Nat.eqb_eq; lia). exists (epoch v). cbn [firstn].
      rewrite firstn_all2 by lia. now destruct v.
    - replace (i =? length (elems v)) with false by (symmetry; apply Nat.eqb_neq; lia).
      destruct (nth_error (elems v) i) as [x|] eqn:E; [|apply nth_error_None in E; lia]. unfold bind, popper at 1. cbn [run_prog].
      destruct (elems v) as [|y t] eqn:Ev; [cbn in Hl; lia|]. rewrite <- Ev in *. rewrite removelast_firstn.
      destruct (IH (S i) fuel (mkVec (firstn (length (elems v) - 1) (elems v)) (S (epoch v)))) as (e & He).
      { cbn [elems]. rewrite firstn_length. lia. }
      { lia. }
      rewrite He. exists e. cbn [elems]. rewrite firstn_firstn, skipn_firstn_comm, firstn_firstn.
      rewrite !Nat.min_l by lia. unfold ret. f_equal.
      + assert (skipn i (elems v) = x :: skipn (S i) (elems v)) as ->.
        { clear -E. revert i E. induction (elems v) as [|h l IH]; intros [|i] E; try discriminate.
          - cbn in E. injection E as ->. reflexivity.
          - cbn [skipn]. rewrite (IH i E). reflexivity. }
        reflexivity.
      + f_equal. f_equal. lia.
  Qed.
  Lemma pops_odd m : forall i fuel (v : vec T), length (elems v) = i + 2 * m + 1 -> m + 1 < fuel ->
    elementwise_from fuel popper i v = Ub UbOutOfBounds.
  Proof.
    induction m as [|m IH]; intros i fuel v Hl Hf; (destruct fuel as [|fuel]; [lia|]); cbn [elementwise_from];
      replace (i =? length (elems v)) with false by (symmetry; apply Nat.eqb_neq; lia);
      (destruct (nth_error (elems v) i) as [x|] eqn:E; [|apply nth_error_None in E; lia]); unfold bind, popper at 1; cbn [run_prog];
      (destruct (elems v) as [|y t] eqn:Ev; [cbn in Hl; lia|]); rewrite <- Ev in *.
    - destruct fuel as [|fuel]; [lia|]. cbn [elementwise_from elems]. rewrite removelast_length.
      replace (S i =? length (elems v) - 1) with false by (symmetry; apply Nat.eqb_neq; lia).
      rewrite (proj2 (nth_error_None _ _)) by (rewrite removelast_length; lia). reflexivity.
    - rewrite IH; [reflexivity| |lia]. cbn [elems]. rewrite removelast_length. lia.
  Qed.
End Sizes.

Lemma Forall2_imp {A B} (P Q : A -> B -> Prop) l1 l2 : (forall a b, P a b -> Q a b) -> Forall2 P l1 l2 -> Forall2 Q l1 l2.
Proof. intros H. induction 1; constructor; auto. Qed.

Section Pointing.
  Context {T X : Type}.
  Notation store := (list (option T)).

  Lemma list_at_tail (s : store) a t l : list_at s a (t :: l) -> nth_error s a = Some (Some t) /\ list_at s (S a) l.
  Proof.
    intros H. split; [specialize (H 0 t eq_refl); now rewrite Nat.add_0_r in H|].
    intros i u Hi. replace (S a + i) with (a + S i) by lia. now apply H.
  Qed.
  Lemma elementwise_points (f : T -> option X) l : forall (s : store) a, list_at s a l ->
    exists rs, elementwise_at f a (length l) s = Ret rs s /\
      Forall2 (fun t r => use r s = Ret (match f t with Some x => inl x | None => inr t end) s) l rs.
  Proof.
    induction l as [|t l IH]; intros s a H; cbn [length elementwise_at]; [exists []; auto|].
    apply list_at_tail in H as [H0 H]. destruct (IH s (S a) H) as (rs & E & HF). unfold bind, call. rewrite H0, E. eexists. split; [reflexivity|].
    constructor; [|exact HF]. destruct (f t); cbn [use]; [reflexivity|]. now rewrite H0.
  Qed.
  Lemma elementwise2_points (f : T -> T -> X + bool) l1 : forall l2 (s : store) a b, length l2 = length l1 -> list_at s a l1 -> list_at s b l2 ->
    exists rs, elementwise2_at f a b (length l1) s = Ret rs s /\
      Forall2 (fun tu r => use r s = Ret (match f (fst tu) (snd tu) with inl x => inl x | inr true => inr (fst tu) | inr false => inr (snd tu) end) s)
              (combine l1 l2) rs.
  Proof.
    induction l1 as [|t l1 IH]; intros [|u l2] s a b Hl H1 H2; try discriminate; cbn [length elementwise2_at combine]; [exists []; auto|].
    apply list_at_tail in H1 as [A1 H1]. apply list_at_tail in H2 as [A2 H2].
    destruct (IH l2 s (S a) (S b)) as (rs & E & HF); auto. unfold bind, call2. rewrite A1, A2, E. eexists. split; [reflexivity|].
    constructor; [|exact HF]. cbn [fst snd]. destruct (f t u) as [x|[]]; cbn [use]; [reflexivity|now rewrite A1|now rewrite A2].
  Qed.

  Lemma apply_points (f : T -> option X) l : forall (s : store) a, list_at s a l ->
    exists rs, apply_at f a (length l) s = Ret rs (s ++ repeat None (length l)) /\
      Forall2 (fun t r => match f t with Some x => r = Own x | None => exists c, r = Address c /\ length s <= c < length s + length l end) l rs.
  Proof.
    induction l as [|t l IH]; intros s a H; cbn [length apply_at].
    - exists []. cbn. rewrite app_nil_r. auto.
    - apply list_at_tail in H as [H0 H]. unfold bind at 1, make_copy. rewrite H0. unfold bind at 1, call.
      rewrite nth_error_app2, Nat.sub_diag by lia. cbn [nth_error]. unfold bind at 1, destroy_copy.
      assert (upd (length s) None (s ++ [Some t]) = s ++ [None]) as ->.
      { clear. induction s; cbn; congruence. }
      assert (list_at (s ++ [None]) (S a) l) as H'.
      { intros i u Hi. specialize (H i u Hi). rewrite nth_error_app1; [exact H|]. apply nth_error_Some. congruence. }
      destruct (IH _ _ H') as (rs & E & HF). unfold bind. rewrite E. eexists. split.
      + cbn [length repeat]. rewrite <- app_assoc. reflexivity.
      + constructor.
        * destruct (f t); [reflexivity|]. exists (length s). split; [reflexivity|]. lia.
        * eapply Forall2_imp; [|exact HF]. intros u r. cbn beta. destruct (f u); [auto|]. intros (c & -> & Hc). exists c. split; [reflexivity|].
          rewrite app_length in Hc. cbn [length] in Hc. lia.
  Qed.
  Lemma apply_dangles (f : T -> option X) (s : store) a l : list_at s a l ->
    exists rs s', apply_at f a (length l) s = Ret rs s' /\ list_at s' a l /\
      Forall2 (fun t r => use r s' = match f t with Some x => Ret (inl x) s' | None => Ub UbDangling end) l rs.
  Proof.
    intros H. destruct (apply_points f l s a H) as (rs & E & HF). eexists _, _. split; [exact E|]. split.
    - intros i u Hi. specialize (H i u Hi). rewrite nth_error_app1; [exact H|]. apply nth_error_Some. congruence.
    - eapply Forall2_imp; [|exact HF]. intros t r. cbn beta. destruct (f t); [intros ->; reflexivity|]. intros (c & -> & Hc). cbn [use].
      rewrite nth_error_app2 by lia. destruct (nth_error (repeat (@None T) (length l)) (c - length s)) as [o|] eqn:En; [|reflexivity].
      apply nth_error_In, repeat_spec in En. now subst o.
  Qed.
End Pointing.
