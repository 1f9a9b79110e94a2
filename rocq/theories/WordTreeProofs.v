(** WordTreeProofs.v -- proofs for C160. *)
From Verif Require Import Base StdOrd WordModel WordSpec WordProofs.

Lemma prefix_nil (w : word) : prefix [] w.
Proof. exists w. reflexivity. Qed.
Lemma prefix_cons a p (w : word) : prefix (a :: p) w <-> exists w', w = a :: w' /\ prefix p w'.
Proof.
  split.
  - intros [t ->]. exists (p ++ t). split; [reflexivity|exists t; reflexivity].
  - intros (w' & -> & t & ->). exists t. reflexivity.
Qed.
Lemma lexb_first p : forall u, prefix p u -> lexb u p = false.
Proof.
  induction p as [|a p IH]; intros u H; [destruct u; reflexivity|]. apply prefix_cons in H as (u' & -> & H). cbn.
  destruct a; cbn; apply IH, H.
Qed.
Lemma lexb_convex p : forall u v w, prefix p u -> prefix p w -> lexb v u = false -> lexb w v = false -> prefix p v.
Proof.
  induction p as [|a p IH]; intros u v w Hu Hw Huv Hvw; [apply prefix_nil|].
  apply prefix_cons in Hu as (u' & -> & Hu). apply prefix_cons in Hw as (w' & -> & Hw).
  destruct v as [|b v]; [discriminate Huv|]. apply prefix_cons.
  destruct a, b; cbn in Huv, Hvw; try discriminate; exists v; (split; [reflexivity|]); exact (IH u' v w' Hu Hw Huv Hvw).
Qed.
Lemma lexb_apart p : forall q s t, ~ prefix p q -> ~ prefix q p -> lexb p q = true -> lexb (p ++ s) (q ++ t) = true.
Proof.
  induction p as [|a p IH]; intros q s t Hp Hq H; [destruct (Hp (prefix_nil q))|]. destruct q as [|b q]; [destruct (Hq (prefix_nil _))|].
  destruct a, b; cbn in H |- *; try discriminate; try reflexivity.
  all: apply IH; [intros X; apply Hp, prefix_cons; eexists; split; [reflexivity|exact X]|intros X; apply Hq, prefix_cons; eexists; split; [reflexivity|exact X]|exact H].
Qed.
Lemma is_prefix_iff p w : is_prefix p w = Ret true tt <-> prefix p w.
Proof.
  destruct (prefix_ok p w) as ([|] & -> & H); [tauto|]. split; [discriminate|]. intros X. apply H in X. discriminate.
Qed.
Lemma first_of_tree p u : is_prefix p u = Ret true tt -> word_less u p = Ret false tt.
Proof. intros H. rewrite word_less_lexb, (lexb_first p u) by (apply is_prefix_iff, H). reflexivity. Qed.
Lemma convex p u v w : is_prefix p u = Ret true tt -> is_prefix p w = Ret true tt -> word_less v u = Ret false tt -> word_less w v = Ret false tt ->
  is_prefix p v = Ret true tt.
Proof.
  rewrite !word_less_lexb, !is_prefix_iff. intros H1 H2 [= H3] [= H4]. exact (lexb_convex p u v w H1 H2 H3 H4).
Qed.
Lemma apart p q u v : is_prefix p q = Ret false tt -> is_prefix q p = Ret false tt -> word_less p q = Ret true tt ->
  is_prefix p u = Ret true tt -> is_prefix q v = Ret true tt -> word_less u v = Ret true tt.
Proof.
  rewrite !word_less_lexb. intros H1 H2 [= H3] H4 H5. apply is_prefix_iff in H4 as [s ->]. apply is_prefix_iff in H5 as [t ->].
  f_equal. apply lexb_apart; [|  |exact H3]; intros X; apply is_prefix_iff in X; congruence.
Qed.
Lemma segment (p : word) (l : list word) : StronglySorted (fun a b => word_less a b = Ret true tt) l ->
  exists a b c, l = a ++ b ++ c /\ Forall (fun w => is_prefix p w = Ret false tt) a /\ Forall (fun w => is_prefix p w = Ret true tt) b /\
    Forall (fun w => is_prefix p w = Ret false tt) c.
Proof.
  assert (forall w, is_prefix p w = Ret true tt \/ is_prefix p w = Ret false tt) as Hdec.
  { intros w. destruct (prefix_ok p w) as ([|] & -> & _); [left|right]; reflexivity. }
  assert (forall u w, word_less u w = Ret true tt -> word_less w u = Ret false tt) as Hasym.
  { intros u w. rewrite !word_less_lexb. intros [= H]. destruct (lexb w u) eqn:E; [|reflexivity].
    pose proof (swo_trans _ lexb_swo u w u H E) as F. rewrite (swo_irrefl _ lexb_swo) in F. discriminate. }
  induction 1 as [|x l Hs IH Hx]; [exists [], [], []; repeat split; constructor|].
  destruct IH as (a & b & c & E & Ha & Hb & Hc). destruct (Hdec x) as [Px|Px].
  - destruct a as [|y a].
    + exists [], (x :: b), c. cbn. rewrite E. repeat split; [constructor|constructor; assumption|exact Hc].
    + exists [], [x], l. repeat split; [constructor|constructor; [exact Px|constructor]|]. rewrite E. apply Forall_app. split; [exact Ha|].
      apply Forall_app. split; [|exact Hc]. apply Forall_forall. intros w Hw. exfalso. rewrite Forall_forall in Hb. specialize (Hb w Hw).
      pose proof (Forall_inv Ha) as Py. cbn beta in Py. rewrite (convex p x y w Px Hb) in Py; [discriminate| |].
      * apply Hasym. rewrite Forall_forall in Hx. apply Hx. rewrite E. left. reflexivity.
      * apply Hasym. rewrite E in Hs. apply StronglySorted_inv in Hs as [_ Hy]. rewrite Forall_forall in Hy. apply Hy. apply in_or_app. right. apply in_or_app. left. exact Hw.
  - exists (x :: a), b, c. cbn. rewrite E. repeat split; [constructor; assumption|exact Hb|exact Hc].
Qed.
