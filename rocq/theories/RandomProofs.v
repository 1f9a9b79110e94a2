(** RandomProofs.v -- lemmas about RandomModel. *)
From Verif Require Import Base RandomModel RandomSpec.
Local Open Scope monad_scope.

Section Random.
  Context {T G Ds : Type} (next : G -> Z * G) (dmake : T -> T -> Ds) (ddraw : Ds -> draw (T * Ds)).
  Notation rrun := (rrun next dmake ddraw).
  Notation rstep := (rstep next dmake ddraw).

  Lemma outputs_app n m g : outputs next (n + m) g = outputs next n g ++ outputs next m (advance next n g).
  Proof. revert g; induction n as [|n IH]; intros g; simpl; [reflexivity|]. rewrite IH. reflexivity. Qed.
  Lemma advance_app n m g : advance next (n + m) g = advance next m (advance next n g).
  Proof. revert g; induction n as [|n IH]; intros g; simpl; [reflexivity|]. apply IH. Qed.
  Lemma feed_ok {A} (t : draw A) : forall g, exists n, answers t (outputs next n g) (fst (feed next t g)) /\
    snd (feed next t g) = advance next n g.
  Proof.
    induction t as [a|k IH]; intros g; simpl.
    - exists 0. split; [constructor|reflexivity].
    - destruct (next g) as [z g'] eqn:E. destruct (IH z g') as (n & H1 & H2). exists (S n). simpl. rewrite E. simpl.
      split; [constructor; exact H1|exact H2].
  Qed.
  Lemma rrun_draws p : forall s l s', rrun p s = Ret l s' ->
    exists cs n, concat cs = outputs next n (generator s) /\ generator s' = advance next n (generator s) /\
      draws dmake ddraw (randomisers s) p cs l (randomisers s').
  Proof.
    induction p as [|o p IH]; intros s l s' E; simpl in E.
    - injection E as <- <-. exists [], 0. split; [reflexivity|]. split; [reflexivity|constructor].
    - unfold bind in E. destruct o as [k a b|k]; simpl in E.
      + destruct (rrun p _) as [l1 s1| | | |] eqn:Er; try discriminate. injection E as <- <-.
        destruct (IH _ _ _ Er) as (cs & n & H1 & H2 & H3). exists cs, n. split; [exact H1|]. split; [exact H2|]. constructor. exact H3.
      + unfold bind, get in E. destruct (randomisers s k) as [d|] eqn:Ek; [|discriminate].
        destruct (feed_ok (ddraw d) (generator s)) as (n & Ha & Hg).
        destruct (feed next (ddraw d) (generator s)) as [[v d'] g'] eqn:Ef. simpl in Ha, Hg, E.
        destruct (rrun p _) as [l1 s1| | | |] eqn:Er; try discriminate. injection E as <- <-.
        destruct (IH _ _ _ Er) as (cs & m & H1 & H2 & H3). simpl in H1, H2, H3.
        exists (outputs next n (generator s) :: cs), (n + m). simpl. split; [|split].
        * rewrite H1, outputs_app, Hg. reflexivity.
        * rewrite H2, advance_app, Hg. reflexivity.
        * econstructor; eassumption.
  Qed.

  (** intervals *)
  Definition all_made (p : list (rop T)) (m : nat -> option Ds) : Prop :=
    forall k d, m k = Some d -> exists a b, built_with k p a b /\ made_for dmake ddraw a b d.
  Lemma built_snoc_new k a b (p : list (rop T)) : built_with k (p ++ [RNew k a b]) a b.
  Proof. exists p, []. split; [reflexivity|]. intros a' b' []. Qed.
  Lemma built_snoc k (p : list (rop T)) o a b : (forall a' b', o <> RNew k a' b') -> built_with k p a b -> built_with k (p ++ [o]) a b.
  Proof.
    intros Ho (p1 & p2 & -> & Hn). exists p1, (p2 ++ [o]). rewrite <- app_assoc. split; [reflexivity|].
    intros a' b' Hin. apply in_app_or in Hin as [Hin|[Hin|[]]]; [eapply Hn; exact Hin|eapply Ho; exact Hin].
  Qed.
  Lemma built_unique k (p : list (rop T)) a b a' b' : built_with k p a b -> built_with k p a' b' -> a = a' /\ b = b'.
  Proof.
    intros (p1 & p2 & -> & H1) (q1 & q2 & E & H2). revert q1 E; induction p1 as [|x p1 IH]; intros [|y q1] E; simpl in E.
    - injection E as -> ->. auto.
    - exfalso. injection E as <- ->. apply (H1 a' b'). apply in_or_app. right. left. reflexivity.
    - exfalso. injection E as -> <-. apply (H2 a b). apply in_or_app. right. left. reflexivity.
    - injection E as -> E. eapply IH. exact E.
  Qed.
  Lemma draws_in_interval p : forall p0 m cs l m', all_made p0 m -> draws dmake ddraw m p cs l m' ->
    forall i k v, nth_error p i = Some (RGet k) -> nth_error l i = Some (Some v) ->
    exists a b d c d', built_with k (p0 ++ firstn i p) a b /\ made_for dmake ddraw a b d /\ answers (ddraw d) c (v, d').
  Proof.
    induction p as [|o p IH]; intros p0 m cs l m' Hm Hd i k v Hp Hl; [destruct i; discriminate|].
    inversion Hd; subst.
    - destruct i as [|i]; [discriminate|]. simpl in Hp, Hl.
      assert (Hm2 : all_made (p0 ++ [RNew k0 a b]) (set_var m k0 (Some (dmake a b)))).
      { intros j d Hj. destruct (Nat.eq_dec j k0) as [->|Hne].
        - rewrite set_var_eq in Hj. injection Hj as <-. exists a, b. split; [apply built_snoc_new|constructor].
        - rewrite set_var_neq in Hj by auto. destruct (Hm j d Hj) as (a' & b' & Hb & Hd'). exists a', b'. split; [|exact Hd'].
          apply built_snoc; [|exact Hb]. congruence. }
      destruct (IH _ _ _ _ _ Hm2 ltac:(eassumption) i k v Hp Hl) as (a' & b' & d & c & d' & X). exists a', b', d, c, d'.
      rewrite <- app_assoc in X. exact X.
    - destruct i as [|i].
      + simpl in Hp, Hl. injection Hp as ->. injection Hl as ->. destruct (Hm k d H1) as (a & b & Hb & Hmd).
        exists a, b, d, c, d'. rewrite app_nil_r. auto.
      + simpl in Hp, Hl.
        assert (Hm2 : all_made (p0 ++ [RGet k0]) (set_var m k0 (Some d'))).
        { intros j d0 Hj. destruct (Nat.eq_dec j k0) as [->|Hne].
          - rewrite set_var_eq in Hj. injection Hj as <-. destruct (Hm k0 d H1) as (a & b & Hb & Hmd). exists a, b.
            split; [apply built_snoc; [discriminate|exact Hb]|econstructor; eassumption].
          - rewrite set_var_neq in Hj by auto. destruct (Hm j d0 Hj) as (a' & b' & Hb & Hd'). exists a', b'. split; [|exact Hd'].
            apply built_snoc; [discriminate|exact Hb]. }
        destruct (IH _ _ _ _ _ Hm2 ltac:(eassumption) i k v Hp Hl) as (a' & b' & d0 & c0 & d0' & X). exists a', b', d0, c0, d0'.
        rewrite <- app_assoc in X. exact X.
  Qed.
  Lemma gets_in_interval (valid le : T -> T -> Prop) g p l s' : in_interval_distribution dmake ddraw valid le ->
    (forall k a b, In (RNew k a b) p -> valid a b) -> rrun p (rinit g) = Ret l s' ->
    forall i k v, nth_error p i = Some (RGet k) -> nth_error l i = Some (Some v) ->
    exists a b, built_with k (firstn i p) a b /\ le a v /\ le v b.
  Proof.
    intros Hc Hv E i k v Hp Hl. destruct (rrun_draws _ _ _ _ E) as (cs & n & _ & _ & Hd).
    assert (Hm : all_made [] (fun _ : nat => @None Ds)) by (intros j d Hj; discriminate).
    destruct (draws_in_interval _ _ _ _ _ _ Hm Hd i k v Hp Hl) as (a & b & d & c & d' & Hb & Hmd & Ha).
    exists a, b. split; [exact Hb|]. eapply Hc; [|exact Hmd|exact Ha].
    destruct Hb as (p1 & p2 & Eb & _). apply (Hv k). rewrite <- (firstn_skipn i p). apply in_or_app. left.
    simpl in Eb. rewrite Eb. apply in_or_app. right. left. reflexivity.
  Qed.
  Lemma rrun_len p : forall s l s', rrun p s = Ret l s' -> length l = length p.
  Proof.
    induction p as [|o p IH]; intros s l s' E; simpl in E; [injection E as <- _; reflexivity|].
    unfold bind in E. destruct (rstep o s) as [x s1| | | |]; try discriminate.
    destruct (rrun p s1) as [l1 s2| | | |] eqn:Er; try discriminate. injection E as <- _. simpl. f_equal. eapply IH. exact Er.
  Qed.
  Lemma get_output p : forall s l s' i k, rrun p s = Ret l s' -> nth_error p i = Some (RGet k) -> exists v, nth_error l i = Some (Some v).
  Proof.
    induction p as [|o p IH]; intros s l s' i k E Hp; [destruct i; discriminate|]. simpl in E.
    unfold bind in E. destruct (rstep o s) as [x s1| | | |] eqn:Es; try discriminate.
    destruct (rrun p s1) as [l1 s2| | | |] eqn:Er; try discriminate. injection E as <- _. destruct i as [|i].
    - simpl in Hp |- *. injection Hp as ->. simpl in Es. unfold bind in Es.
      destruct (get next ddraw k s) as [v s3| | | |]; try discriminate. injection Es as <- _. eauto.
    - simpl in Hp |- *. eapply IH; eassumption.
  Qed.
  Lemma built_unsnoc k (p : list (rop T)) o a b : (forall a' b', o <> RNew k a' b') -> built_with k (p ++ [o]) a b -> built_with k p a b.
  Proof.
    intros Ho (p1 & p2 & Ej & Hn). destruct p2 as [|x p2] using rev_ind.
    - apply app_inj_tail in Ej as [_ Ej]. exfalso. eapply Ho. exact Ej.
    - rewrite app_comm_cons, app_assoc in Ej. apply app_inj_tail in Ej as [Ej _]. exists p1, p2. split; [exact Ej|].
      intros x1 x2 Hin. eapply Hn. apply in_or_app. left. exact Hin.
  Qed.
  (** programs that use only constructed randomisers run *)
  Lemma rrun_defined p : forall (p0 : list (rop T)) (s : rst G Ds), (forall k, (exists a b, built_with k p0 a b) -> randomisers s k <> None) ->
    (forall i k, nth_error p i = Some (RGet k) -> exists a b, built_with k (p0 ++ firstn i p) a b) ->
    exists l s', rrun p s = Ret l s'.
  Proof.
    induction p as [|o p IH]; intros p0 s Hs Hp; simpl; [eauto|].
    assert (Hp' : forall i k, nth_error p i = Some (RGet k) -> exists a b, built_with k ((p0 ++ [o]) ++ firstn i p) a b).
    { intros i k Hi. destruct (Hp (S i) k Hi) as (a & b & Hb). exists a, b. rewrite <- app_assoc. exact Hb. }
    unfold bind. destruct o as [k a b|k]; simpl.
    - destruct (IH (p0 ++ [RNew k a b]) (mkRst (set_var (randomisers s) k (Some (dmake a b))) (generator s))) as (l & s' & E); auto.
      + intros j (a' & b' & Hj). simpl. destruct (Nat.eq_dec j k) as [->|Hne]; [rewrite set_var_eq; discriminate|].
        rewrite set_var_neq by auto. apply Hs. exists a', b'. apply built_unsnoc in Hj; [exact Hj|congruence].
      + rewrite E. unfold ret. eauto.
    - destruct (Hp 0 k eq_refl) as (a & b & Hb). simpl in Hb. rewrite app_nil_r in Hb.
      unfold bind, get. destruct (randomisers s k) as [d|] eqn:Ek; [|exfalso; apply (Hs k); eauto].
      destruct (feed next (ddraw d) (generator s)) as [[v d'] g']. unfold ret.
      destruct (IH (p0 ++ [RGet k]) (mkRst (set_var (randomisers s) k (Some d')) g')) as (l & s' & E); auto.
      + intros j (a' & b' & Hj). simpl. destruct (Nat.eq_dec j k) as [->|Hne]; [rewrite set_var_eq; discriminate|].
        rewrite set_var_neq by auto. apply Hs. exists a', b'. apply built_unsnoc in Hj; [exact Hj|congruence].
      + rewrite E. eauto.
  Qed.
End Random.
