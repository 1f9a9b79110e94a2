(** ThreadMain.v -- threads that use their own handles behave as if alone. *)
From Verif Require Import Base HandleModel HandleSpec HandleProofs ThreadModel ThreadSpec ThreadProofs ThreadLogic.

Section Main.
  Context {V Ty : Type} (clone : V -> V) (dyn : V -> Ty)
          (subobjs : Ty -> Ty -> list nat) (wrapper : Ty -> Ty) (inner : Ty -> nat).
  Notation hst := (hst V).
  Notation cell := (cell V).
  Notation hop := (hop V Ty).
  Notation out := (out V).
  Notation cmd := (cmd V).
  Notation lst := (@lst V).
  Notation c_hop := (c_hop clone dyn subobjs wrapper inner).
  Notation tstep := (tstep clone dyn subobjs wrapper inner).
  Notation cstep := (cstep clone dyn subobjs wrapper inner).
  Notation crun := (crun clone dyn subobjs wrapper inner).
  Notation run := (run clone dyn subobjs wrapper inner).
  Notation reads := (reads clone dyn subobjs wrapper inner).
  Notation provides := (unique_base dyn subobjs).
  Notation provides_w := (unique_base_or_wrapper dyn subobjs wrapper).
  Notation sstep := (sstep provides provides_w).
  Notation sexec := (sexec provides provides_w).
  Context (clone_ok : forall v, clone v = v).

  Section Hops.
    Context (owner : nat -> option nat) (n0 : nat) (val0 : nat -> option V) (i : nat).
    Notation wp := (wp owner n0 val0 i).
    Notation lval := (lval n0 val0).
    Notation mine := (mine owner i).
    Notation visible := (visible owner i).

    Definition laslot (L : lst) (sl : slot) : vslot V :=
      match sl with
      | Dead => VDead
      | Null => VNull
      | Ptr a => match lval L a with Some v => VVal v | None => VNull end
      end.
    Definition labs (L : lst) : vst V := mkVst (map (laslot L) (lv L)) (lsc L).
    Definition LI (L : lst) : Prop := forall h a, nth_error (lv L) h = Some (Ptr a) -> lval L a <> None.
    Definition outr (r : out + exn) : out := match r with inl x => x | inr e => OExc e end.
    Definition tk (sl : slot) : list nat := match sl with Ptr a => [a] | _ => [] end.
    Lemma cnt_tk a sl : cnt a (tk sl) = one a sl.
    Proof. destruct sl as [| |b]; simpl; [reflexivity|reflexivity|]. rewrite cnt_cons. unfold cnt. simpl. lia. Qed.

    Lemma wp_release (Q : unit + exn -> lst -> Prop) vs sl ob sc : Q (inl tt) (mkL vs [] None ob sc) -> wp (c_release sl) Q (mkL vs (tk sl) None ob sc).
    Proof. intros HQ. destruct sl as [| |a]; simpl; try exact HQ. split; [reflexivity|]. exists []. auto. Qed.
    Lemma wp_acquire (Q : unit + exn -> lst -> Prop) vs h sl ob sc : visible h -> nth_error vs h = Some sl -> Q (inl tt) (mkL vs (tk sl) None ob sc) ->
      wp (c_acquire sl) Q (mkL vs [] None ob sc).
    Proof. intros Hv Hh HQ. destruct sl as [| |a]; simpl; try exact HQ. split; [right; exists h; auto|exact HQ]. Qed.
    Lemma wp_store (Q : unit + exn -> lst -> Prop) h sl vs T T' ob sc old : mine h -> nth_error vs h = Some old -> (forall a, one a old + cnt a T = one a sl + cnt a T') ->
      Q (inl tt) (mkL (upd h sl vs) T' None ob sc) -> wp (do (AStore h sl)) Q (mkL vs T None ob sc).
    Proof. intros H1 H2 H3 H4. simpl. split; [exact H1|]. exists old, T'. auto. Qed.
    Lemma wp_load (Q : slot + exn -> lst -> Prop) h sl vs T kl ob sc : visible h -> nth_error vs h = Some sl -> sl <> Dead ->
      Q (inl sl) (mkL vs T kl ob sc) -> wp (do (ALoad h)) Q (mkL vs T kl ob sc).
    Proof. intros H1 H2 H3 H4. simpl. split; [exact H1|]. exists sl. auto. Qed.
    Lemma wp_fresh (Q : unit + exn -> lst -> Prop) d vs T kl ob sc : mine d -> nth_error vs d = Some Dead ->
      Q (inl tt) (mkL vs T kl ob sc) -> wp (do (AFresh d)) Q (mkL vs T kl ob sc).
    Proof. simpl. auto. Qed.
    Lemma wp_get (Q : V + exn -> lst -> Prop) a v vs T kl ob sc h : visible h -> nth_error vs h = Some (Ptr a) -> lval (mkL vs T kl ob sc) a = Some v ->
      Q (inl v) (mkL vs T kl ob sc) -> wp (do (AGet a)) Q (mkL vs T kl ob sc).
    Proof. intros H1 H2 H3 H4. simpl. split; [right; exists h; auto|]. exists v. auto. Qed.
    Lemma wp_alloc (Q : nat + exn -> lst -> Prop) v vs T kl ob sc : (hd false sc = true -> Q (inr EBadAlloc) (mkL vs T kl ob (tl sc))) ->
      (hd false sc = false -> forall b, n0 <= b -> ob b = None -> Q (inl b) (mkL vs (b :: T) kl (set_var ob b (Some v)) (tl sc))) ->
      wp (do (AAlloc v)) Q (mkL vs T kl ob sc).
    Proof. intros H1 H2. split; [exact H1|exact H2]. Qed.
    Lemma wp_const_access (Q : nat + exn -> lst -> Prop) h a vs T kl ob sc : visible h -> nth_error vs h = Some (Ptr a) ->
      Q (inl a) (mkL vs T kl ob sc) -> wp (c_const_access h) Q (mkL vs T kl ob sc).
    Proof. intros H1 H2 H3. apply wp_bind. apply (wp_load _ h (Ptr a)); auto. discriminate. Qed.
    Lemma wp_copy (Q : unit + exn -> lst -> Prop) d k sl vs ob sc : mine d -> visible k -> nth_error vs d = Some Dead -> nth_error vs k = Some sl -> sl <> Dead ->
      Q (inl tt) (mkL (upd d sl vs) [] None ob sc) -> wp (c_copy d k) Q (mkL vs [] None ob sc).
    Proof.
      intros H1 H2 H3 H4 H5 H6. apply wp_bind, wp_fresh; auto. apply wp_bind, (wp_load _ k sl); auto.
      apply wp_bind, (wp_acquire _ _ k); auto. apply (wp_store _ d sl vs (tk sl) [] ob sc Dead); auto.
      intros a. rewrite cnt_tk, (one_neq a Dead) by discriminate. unfold cnt. simpl. lia.
    Qed.
    Lemma wp_make_unique (Q : unit + exn -> lst -> Prop) h a v vs ob sc : mine h -> nth_error vs h = Some (Ptr a) -> lval (mkL vs [] None ob sc) a = Some v ->
      (hd false sc = true -> Q (inr EBadAlloc) (mkL vs [] None ob (tl sc))) ->
      (hd false sc = false -> forall b, n0 <= b -> ob b = None -> Q (inl tt) (mkL (upd h (Ptr b) vs) [] None (set_var ob b (Some v)) (tl sc))) ->
      wp (c_make_unique clone h) Q (mkL vs [] None ob sc).
    Proof.
      intros Hm Hh Hv Hf HQ. assert (Hvis : visible h) by (left; exact Hm). unfold c_make_unique. rewrite <- (clone_ok v) in HQ.
      apply wp_bind, (wp_const_access _ h a); auto. apply wp_bind, (wp_get _ a v _ _ _ _ _ h); auto.
      apply wp_bind, wp_alloc; [exact Hf|]. intros Hs b Hb Hob. specialize (HQ Hs b Hb Hob).
      apply wp_bind, (wp_load _ h (Ptr a)); auto; [discriminate|]. apply wp_bind.
      apply (wp_store _ h (Ptr b) vs [b] (tk (Ptr a)) _ _ (Ptr a)); auto.
      - intros x. rewrite cnt_tk, cnt_cons. unfold cnt. simpl. lia.
      - apply wp_release. exact HQ.
    Qed.

    Section Post.
      Context (x : out) (m' : vst V).
      Definition post (r : out + exn) (L : lst) : Prop := LI L /\ ltmp L = [] /\ lkill L = None /\ labs L = m' /\ outr r = x.
    End Post.

    Lemma laslot_obj vs T kl ob sc vs' T' kl' sc' sl : laslot (mkL vs T kl ob sc) sl = laslot (mkL vs' T' kl' ob sc') sl.
    Proof. reflexivity. Qed.
    Definition good (ob : nat -> option V) (sl : slot) : Prop := forall a, sl = Ptr a -> (if a <? n0 then val0 a else ob a) <> None.
    Lemma LI_good vs T kl ob sc : LI (mkL vs T kl ob sc) <-> forall h sl, nth_error vs h = Some sl -> good ob sl.
    Proof.
      split.
      - intros H h sl Hh a ->. exact (H h a Hh).
      - intros H h a Hh. exact (H h (Ptr a) Hh a eq_refl).
    Qed.
    Lemma nth_upd_cases {A} (l : list A) h x k y : nth_error (upd h x l) k = Some y -> y = x \/ nth_error l k = Some y.
    Proof. rewrite nth_error_upd. destruct (Nat.eqb_spec h k) as [<-|]; [destruct (h <? length l); [intros [= <-]; auto|discriminate]|auto]. Qed.
    Lemma LI_upd vs ob sc T kl h sl sc' T' kl' : LI (mkL vs T kl ob sc) -> good ob sl -> LI (mkL (upd h sl vs) T' kl' ob sc').
    Proof. rewrite !LI_good. intros HL Hg k y Hk. destruct (nth_upd_cases _ _ _ _ _ Hk) as [->|Hk']; [exact Hg|exact (HL k y Hk')]. Qed.
    Lemma LI_new vs ob ob' sc T kl h b w sc' T' kl' : LI (mkL vs T kl ob sc) -> n0 <= b -> ob' b = Some w -> (forall a, a <> b -> ob' a = ob a) ->
      LI (mkL (upd h (Ptr b) vs) T' kl' ob' sc').
    Proof.
      rewrite !LI_good. intros HL Hb Hw Ho k y Hk a ->. destruct (Nat.ltb_spec a n0) as [Hlt|Hge].
      - destruct (nth_upd_cases _ _ _ _ _ Hk) as [E|Hk']; [injection E as ->; lia|]. pose proof (HL k _ Hk' a eq_refl) as X.
        destruct (Nat.ltb_spec a n0); [exact X|lia].
      - destruct (Nat.eq_dec a b) as [->|Hne]; [congruence|]. rewrite (Ho a Hne).
        destruct (nth_upd_cases _ _ _ _ _ Hk) as [E|Hk']; [congruence|]. pose proof (HL k _ Hk' a eq_refl) as X.
        destruct (Nat.ltb_spec a n0); [lia|exact X].
    Qed.
    Lemma labs_new vs ob ob' sc T kl h b w sc' T' kl' : LI (mkL vs T kl ob sc) -> n0 <= b -> ob b = None -> ob' b = Some w ->
      (forall a, a <> b -> ob' a = ob a) ->
      labs (mkL (upd h (Ptr b) vs) T' kl' ob' sc') = mkVst (upd h (VVal w) (map (laslot (mkL vs T kl ob sc)) vs)) sc'.
    Proof.
      rewrite LI_good. intros HL Hb Hn Hw Ho. unfold labs. simpl. f_equal. rewrite map_upd. simpl.
      unfold ThreadLogic.lval at 1. destruct (Nat.ltb_spec b n0); [lia|]. simpl. rewrite Hw. f_equal.
      apply map_ext_in. intros sl Hin. destruct sl as [| |a]; try reflexivity. simpl. unfold ThreadLogic.lval. simpl.
      destruct (Nat.ltb_spec a n0) as [|Hge]; [reflexivity|]. destruct (Nat.eq_dec a b) as [->|Hne]; [|rewrite Ho by exact Hne; reflexivity].
      exfalso. apply In_nth_error in Hin as (k & Hk). apply (HL k _ Hk b eq_refl). destruct (Nat.ltb_spec b n0); [lia|exact Hn].
    Qed.
    Lemma labs_upd vs ob sc T kl h sl sc' T' kl' :
      labs (mkL (upd h sl vs) T' kl' ob sc') = mkVst (upd h (laslot (mkL vs T kl ob sc) sl) (map (laslot (mkL vs T kl ob sc)) vs)) sc'.
    Proof. unfold labs. simpl. rewrite map_upd. reflexivity. Qed.
    Lemma laslot_good vs T kl ob sc sl : good ob sl ->
      (sl = Dead /\ laslot (mkL vs T kl ob sc) sl = VDead) \/ (sl = Null /\ laslot (mkL vs T kl ob sc) sl = VNull) \/
      (exists a v, sl = Ptr a /\ lval (mkL vs T kl ob sc) a = Some v /\ laslot (mkL vs T kl ob sc) sl = VVal v).
    Proof.
      intros Hg. destruct sl as [| |a]; auto. right; right. exists a. simpl. specialize (Hg a eq_refl).
      unfold ThreadLogic.lval in *. simpl in *. destruct (if a <? n0 then val0 a else ob a) as [v|]; [|contradiction]. eauto.
    Qed.
    (** a variable of the abstraction *)
    Lemma labs_at vs T kl ob sc h y : LI (mkL vs T kl ob sc) -> nth_error (map (laslot (mkL vs T kl ob sc)) vs) h = Some y ->
      exists sl, nth_error vs h = Some sl /\ y = laslot (mkL vs T kl ob sc) sl /\ good ob sl /\
        ((sl = Dead /\ y = VDead) \/ (sl = Null /\ y = VNull) \/
         (exists a v, sl = Ptr a /\ lval (mkL vs T kl ob sc) a = Some v /\ y = VVal v)).
    Proof.
      rewrite LI_good. intros HL Hy. rewrite nth_error_map in Hy. destruct (nth_error vs h) as [sl|] eqn:E; [|discriminate].
      injection Hy as <-. exists sl. repeat split; auto; [eapply HL; eassumption|]. apply laslot_good. eapply HL; eassumption.
    Qed.
    Lemma at_free vs T kl ob sc h : LI (mkL vs T kl ob sc) -> free (nth_error (map (laslot (mkL vs T kl ob sc)) vs) h) -> nth_error vs h = Some Dead.
    Proof.
      intros HL Hf. destruct (labs_at _ _ _ _ _ _ _ HL Hf) as (sl & H1 & _ & _ & [[-> _]|[[_ H]|(a & v & _ & _ & H)]]); try discriminate. exact H1.
    Qed.
    Lemma at_scope vs T kl ob sc h y : LI (mkL vs T kl ob sc) -> nth_error (map (laslot (mkL vs T kl ob sc)) vs) h = Some y -> in_scope (Some y) ->
      exists sl, nth_error vs h = Some sl /\ sl <> Dead /\ y = laslot (mkL vs T kl ob sc) sl /\ good ob sl.
    Proof.
      intros HL Hy Hs. destruct (labs_at _ _ _ _ _ _ _ HL Hy) as (sl & H1 & H2 & H3 & [[-> ->]|[[-> _]|(a & v & -> & _)]]).
      - destruct Hs.
      - exists Null. repeat split; auto. discriminate.
      - exists (Ptr a). repeat split; auto. discriminate.
    Qed.
    Lemma at_val vs T kl ob sc h v : LI (mkL vs T kl ob sc) -> nth_error (map (laslot (mkL vs T kl ob sc)) vs) h = Some (VVal v) ->
      exists a, nth_error vs h = Some (Ptr a) /\ lval (mkL vs T kl ob sc) a = Some v /\ good ob (Ptr a).
    Proof.
      intros HL Hy. destruct (labs_at _ _ _ _ _ _ _ HL Hy) as (sl & H1 & H2 & H3 & [[-> E]|[[-> E]|(a & w & -> & H4 & E)]]); try discriminate.
      injection E as <-. eauto.
    Qed.

    Lemma good_null ob : good ob Null. Proof. intros a; discriminate. Qed.
    Lemma good_dead ob : good ob Dead. Proof. intros a; discriminate. Qed.
    Lemma LI_sc vs T kl ob sc sc' T' kl' : LI (mkL vs T kl ob sc) -> LI (mkL vs T' kl' ob sc').
    Proof. rewrite !LI_good. auto. Qed.
    Lemma laslot_val vs T kl ob sc a v : lval (mkL vs T kl ob sc) a = Some v -> laslot (mkL vs T kl ob sc) (Ptr a) = VVal v.
    Proof. intros H. simpl. rewrite H. reflexivity. Qed.
    Lemma bal_move sl : forall a, one a sl + cnt a [] = one a Null + cnt a (tk sl).
    Proof. intros a. rewrite cnt_tk, (one_neq a Null) by discriminate. unfold cnt. simpl. lia. Qed.
    Lemma bal_swap sl old : forall a, one a old + cnt a (tk sl) = one a sl + cnt a (tk old).
    Proof. intros a. rewrite !cnt_tk. lia. Qed.

    Lemma post_of (c : cmd unit) x m' vs ob sc :
      wp c (fun r L' => match r with inl _ => post x m' (inl ODone) L' | inr e => post x m' (inr e) L' end) (mkL vs [] None ob sc) ->
      wp (cbind c (fun _ => CRet ODone)) (post x m') (mkL vs [] None ob sc).
    Proof. intros H. apply wp_bind. eapply wp_mono; [|exact H]. intros [u|e] L'; auto. Qed.
    Lemma done m' L : LI L -> ltmp L = [] -> lkill L = None -> labs L = m' -> post ODone m' (inl ODone) L.
    Proof. unfold post. auto. Qed.
    Lemma failed m' e L : LI L -> ltmp L = [] -> lkill L = None -> labs L = m' -> post (OExc e) m' (inr e) L.
    Proof. unfold post. auto. Qed.

    Lemma wp_hop (o : hop) x m' vs ob sc : uses owner i o -> LI (mkL vs [] None ob sc) -> sstep (labs (mkL vs [] None ob sc)) o x m' ->
      wp (c_hop o) (post x m') (mkL vs [] None ob sc).
    Proof.
      intros Hu HL Hs. unfold labs in Hs. simpl in Hs.
      destruct o as [d v|d|d k|d k|d k|d k|d|h|h f|d k|d k t|d k t]; simpl in Hu; cbn [ThreadModel.c_hop].
      - (* OpNew *) apply post_of. apply wp_bind. inversion Hs; subst.
        + apply wp_fresh; auto; [eapply at_free; eassumption|]. apply wp_bind, wp_alloc; [congruence|]. intros _ b Hb Hob.
          apply (wp_store _ d (Ptr b) vs [b] [] _ _ Dead); [exact Hu|eapply at_free; eassumption| |].
          * intros a. rewrite cnt_cons, (one_neq a Dead) by discriminate. unfold cnt. simpl. lia.
          * apply done; try reflexivity.
            -- eapply (LI_new vs ob _ sc [] None _ b v); eauto; [apply set_var_eq|]. intros. apply set_var_neq. assumption.
            -- eapply labs_new; eauto; [apply set_var_eq|]. intros. apply set_var_neq. assumption.
        + apply wp_fresh; auto; [eapply at_free; eassumption|]. apply wp_bind, wp_alloc; simpl; [intros _|discriminate].
          apply failed; try reflexivity. eapply LI_sc; exact HL.
      - (* OpNull *) apply post_of. inversion Hs; subst. apply wp_bind, wp_fresh; auto; [eapply at_free; eassumption|].
        apply (wp_store _ _ _ _ _ [] _ _ Dead); auto; [eapply at_free; eassumption|]. apply done; try reflexivity.
        + eapply LI_upd; [exact HL|apply good_null].
        + rewrite (labs_upd vs ob sc [] None). reflexivity.
      - (* OpCopy *) destruct Hu as [Hd Hk]. apply post_of. inversion Hs; subst.
        destruct (at_scope _ _ _ _ _ _ _ HL ltac:(eassumption) ltac:(eassumption)) as (sl & A1 & A2 & -> & Hg).
        apply (wp_copy _ d k sl); auto; [eapply at_free; eassumption|]. apply done; try reflexivity.
        + eapply LI_upd; eassumption.
        + rewrite (labs_upd vs ob sc [] None). reflexivity.
      - (* OpMove *) destruct Hu as [Hd Hk]. apply post_of. inversion Hs; subst.
        destruct (at_scope _ _ _ _ _ _ _ HL ltac:(eassumption) ltac:(eassumption)) as (sl & A1 & A2 & -> & Hg).
        assert (Hfd : nth_error vs d = Some Dead) by (eapply at_free; eassumption).
        apply wp_bind, wp_fresh; auto. apply wp_bind, (wp_load _ k sl); auto; [left; exact Hk|].
        apply wp_bind, (wp_store _ k Null vs [] (tk sl) ob sc sl); auto; [apply bal_move|].
        apply (wp_store _ d sl _ (tk sl) [] ob sc Dead); auto.
        + rewrite nth_error_upd_neq; [exact Hfd|]. intros ->. congruence.
        + intros a. rewrite cnt_tk, (one_neq a Dead) by discriminate. unfold cnt. simpl. lia.
        + apply done; try reflexivity.
          * eapply (LI_upd _ ob sc [] None); [|exact Hg]. eapply LI_upd; [exact HL|apply good_null].
          * rewrite (labs_upd _ ob sc [] None d sl sc [] None). f_equal. rewrite map_upd. reflexivity.
      - (* OpAssign *) destruct Hu as [Hd Hk]. apply post_of. inversion Hs; subst.
        destruct (at_scope _ _ _ _ _ _ _ HL ltac:(eassumption) ltac:(eassumption)) as (sl & A1 & A2 & -> & Hg).
        destruct (nth_error (map (laslot (mkL vs [] None ob sc)) vs) d) as [y|] eqn:Ey; [|contradiction].
        destruct (at_scope _ _ _ _ _ _ _ HL Ey ltac:(assumption)) as (old & Hd1 & Hd2 & _ & _).
        apply wp_bind, (wp_load _ k sl); auto. apply wp_bind, (wp_acquire _ _ k); auto.
        apply wp_bind, (wp_load _ d old); auto; [left; exact Hd|].
        apply wp_bind, (wp_store _ d sl vs (tk sl) (tk old) ob sc old); auto; [apply bal_swap|].
        apply wp_release. apply done; try reflexivity.
        + eapply LI_upd; eassumption.
        + rewrite (labs_upd vs ob sc [] None). reflexivity.
      - (* OpMoveAssign *) destruct Hu as [Hd Hk]. apply post_of. inversion Hs; subst.
        destruct (at_scope _ _ _ _ _ _ _ HL ltac:(eassumption) ltac:(eassumption)) as (sl & A1 & A2 & -> & Hg).
        destruct (nth_error (map (laslot (mkL vs [] None ob sc)) vs) d) as [y|] eqn:Ey; [|contradiction].
        destruct (at_scope _ _ _ _ _ _ _ HL Ey ltac:(assumption)) as (old & Hd1 & Hd2 & _ & _).
        apply wp_bind, (wp_load _ k sl); auto; [left; exact Hk|].
        apply wp_bind, (wp_store _ k Null vs [] (tk sl) ob sc sl); auto; [apply bal_move|].
        assert (Hd3 : exists old1, nth_error (upd k Null vs) d = Some old1 /\ old1 <> Dead).
        { destruct (Nat.eq_dec k d) as [->|Hne].
          - exists Null. split; [|discriminate]. eapply nth_error_upd_some. exact Hd1.
          - exists old. split; [|exact Hd2]. rewrite nth_error_upd_neq by exact Hne. exact Hd1. }
        destruct Hd3 as (old1 & Hd3 & Hd4). apply wp_bind, (wp_load _ d old1); auto; [left; exact Hd|].
        apply wp_bind, (wp_store _ d sl _ (tk sl) (tk old1) ob sc old1); auto; [apply bal_swap|].
        apply wp_release. apply done; try reflexivity.
        + eapply (LI_upd _ ob sc [] None); [|exact Hg]. eapply LI_upd; [exact HL|apply good_null].
        + rewrite (labs_upd _ ob sc [] None d sl sc [] None). f_equal. rewrite map_upd. reflexivity.
      - (* OpDestroy *) apply post_of. inversion Hs; subst.
        destruct (nth_error (map (laslot (mkL vs [] None ob sc)) vs) d) as [y|] eqn:Ey; [|contradiction].
        destruct (at_scope _ _ _ _ _ _ _ HL Ey ltac:(assumption)) as (old & Hd1 & Hd2 & _ & _).
        apply wp_bind, (wp_load _ d old); auto; [left; exact Hu|].
        apply wp_bind, (wp_store _ d Dead vs [] (tk old) ob sc old); auto.
        + intros a. rewrite cnt_tk, (one_neq a Dead) by discriminate. unfold cnt. simpl. lia.
        + apply wp_release. apply done; try reflexivity.
          * eapply LI_upd; [exact HL|apply good_dead].
          * rewrite (labs_upd vs ob sc [] None). reflexivity.
      - (* OpRead *) inversion Hs; subst. destruct (at_val _ _ _ _ _ _ _ HL ltac:(eassumption)) as (a & A1 & A2 & A3).
        apply wp_bind, (wp_const_access _ h a); auto. apply wp_bind, (wp_get _ a v _ _ _ _ _ h); auto. unfold post. simpl. auto.
      - (* OpWrite *) unfold c_access. apply wp_bind. apply wp_bind. inversion Hs; subst.
        + destruct (at_val _ _ _ _ _ _ _ HL ltac:(eassumption)) as (a & A1 & A2 & A3).
          apply (wp_make_unique _ h a v); auto; [congruence|]. intros _ b Hb Hob.
          assert (Hhb : nth_error (upd h (Ptr b) vs) h = Some (Ptr b)) by (eapply nth_error_upd_some; exact A1).
          apply (wp_const_access _ h b); auto; [left; exact Hu|]. apply wp_bind. simpl. split; [right; exists h; split; [left; exact Hu|exact Hhb]|].
          split; [exact Hb|]. exists v. split; [apply set_var_eq|]. apply done; try reflexivity.
          * eapply (LI_new vs ob _ sc [] None _ b (f v)); eauto; [apply set_var_eq|]. intros. rewrite !set_var_neq by assumption. reflexivity.
          * eapply labs_new; eauto; [apply set_var_eq|]. intros. rewrite !set_var_neq by assumption. reflexivity.
        + destruct (at_val _ _ _ _ _ _ _ HL ltac:(eassumption)) as (a & A1 & A2 & A3).
          apply (wp_make_unique _ h a v); auto; [|discriminate]. intros _. apply failed; try reflexivity. eapply LI_sc; exact HL.
      - (* OpManaged *) destruct Hu as [Hd Hk]. apply post_of. inversion Hs; subst.
        + destruct (at_val _ _ _ _ _ _ _ HL ltac:(eassumption)) as (a & A1 & A2 & A3).
          assert (Hfd : nth_error vs d = Some Dead) by (eapply at_free; eassumption). assert (Hkd : k <> d) by congruence.
          apply wp_bind, wp_fresh; auto. apply wp_bind, (wp_make_unique _ k a v); auto; [congruence|]. intros _ b Hb Hob.
          apply (wp_copy _ d k (Ptr b)); auto; try discriminate; [left; exact Hk|rewrite nth_error_upd_neq by exact Hkd; exact Hfd|eapply nth_error_upd_some; exact A1|].
          apply done; try reflexivity.
          * eapply (LI_upd _ _ sc [] None).
            -- eapply (LI_new vs ob _ sc [] None _ b v); eauto; [apply set_var_eq|]. intros. apply set_var_neq. assumption.
            -- intros a' [= <-]. destruct (Nat.ltb_spec b n0); [lia|]. rewrite set_var_eq. discriminate.
          * rewrite (labs_upd (upd k (Ptr b) vs) _ (tl sc) [] None). simpl. unfold ThreadLogic.lval at 1. simpl.
            destruct (Nat.ltb_spec b n0); [lia|]. rewrite set_var_eq.
            assert (E : labs (mkL (upd k (Ptr b) vs) [] None (set_var ob b (Some v)) (tl sc)) = mkVst (upd k (VVal v) (map (laslot (mkL vs [] None ob sc)) vs)) (tl sc)).
            { eapply labs_new; eauto; [apply set_var_eq|]. intros. apply set_var_neq. assumption. }
            unfold labs in E. simpl in E. injection E as ->. rewrite (upd_same k (VVal v)) by assumption. reflexivity.
        + destruct (at_val _ _ _ _ _ _ _ HL ltac:(eassumption)) as (a & A1 & A2 & A3).
          assert (Hfd : nth_error vs d = Some Dead) by (eapply at_free; eassumption).
          apply wp_bind, wp_fresh; auto. apply wp_bind, (wp_make_unique _ k a v); auto; [|discriminate]. intros _.
          apply failed; try reflexivity. eapply LI_sc; exact HL.
      - (* OpCast *) destruct Hu as [Hd Hk]. apply post_of. inversion Hs; subst.
        + destruct (at_val _ _ _ _ _ _ _ HL ltac:(eassumption)) as (a & A1 & A2 & A3).
          assert (Hfd : nth_error vs d = Some Dead) by (eapply at_free; eassumption).
          apply wp_bind, wp_fresh; auto. apply wp_bind, (wp_load _ k (Ptr a)); auto; [discriminate|].
          apply wp_bind, (wp_get _ a v _ _ _ _ _ k); auto.
          match goal with Hp : unique_base _ _ v t |- _ => apply cast_provides in Hp as [o0 ->] end.
          apply (wp_copy _ d k (Ptr a)); auto; [discriminate|]. apply done; try reflexivity.
          * eapply LI_upd; eassumption.
          * rewrite (labs_upd vs ob sc [] None), (laslot_val _ _ _ _ _ _ _ A2). reflexivity.
        + destruct (at_val _ _ _ _ _ _ _ HL ltac:(eassumption)) as (a & A1 & A2 & A3).
          assert (Hfd : nth_error vs d = Some Dead) by (eapply at_free; eassumption).
          apply wp_bind, wp_fresh; auto. apply wp_bind, (wp_load _ k (Ptr a)); auto; [discriminate|].
          apply wp_bind, (wp_get _ a v _ _ _ _ _ k); auto.
          destruct (dynamic_cast subobjs (dyn v) t) as [o0|] eqn:Ec.
          { exfalso. match goal with Hp : ~ unique_base _ _ v t |- _ => apply Hp, cast_provides; eauto end. }
          simpl. apply failed; try reflexivity. exact HL.
      - (* OpPtrExtract *) destruct Hu as [Hd Hk]. apply post_of. inversion Hs; subst.
        + destruct (at_val _ _ _ _ _ _ _ HL ltac:(eassumption)) as (a & A1 & A2 & A3).
          assert (Hfd : nth_error vs d = Some Dead) by (eapply at_free; eassumption).
          apply wp_bind, wp_fresh; auto. apply wp_bind, (wp_load _ k (Ptr a)); auto; [discriminate|].
          apply wp_bind, (wp_get _ a v _ _ _ _ _ k); auto.
          match goal with Hp : unique_base_or_wrapper _ _ _ v t |- _ => apply (extract_provides dyn subobjs wrapper inner) in Hp as [o0 ->] end.
          apply (wp_copy _ d k (Ptr a)); auto; [discriminate|]. apply done; try reflexivity.
          * eapply LI_upd; eassumption.
          * rewrite (labs_upd vs ob sc [] None), (laslot_val _ _ _ _ _ _ _ A2). reflexivity.
        + destruct (at_val _ _ _ _ _ _ _ HL ltac:(eassumption)) as (a & A1 & A2 & A3).
          assert (Hfd : nth_error vs d = Some Dead) by (eapply at_free; eassumption).
          apply wp_bind, wp_fresh; auto. apply wp_bind, (wp_load _ k (Ptr a)); auto; [discriminate|].
          apply wp_bind, (wp_get _ a v _ _ _ _ _ k); auto.
          destruct (extract_from subobjs wrapper inner (dyn v) t) as [o0|] eqn:Ec.
          { exfalso. match goal with Hp : ~ unique_base_or_wrapper _ _ _ v t |- _ => apply Hp, (extract_provides dyn subobjs wrapper inner); eauto end. }
          apply (wp_store _ d Null vs [] [] ob sc Dead); auto. apply done; try reflexivity.
          * eapply LI_upd; [exact HL|apply good_null].
          * rewrite (labs_upd vs ob sc [] None). reflexivity.
        + assert (Hfd : nth_error vs d = Some Dead) by (eapply at_free; eassumption).
          match goal with Hp : nth_error _ k = Some VNull |- _ => destruct (at_scope _ _ _ _ _ _ _ HL Hp I) as (sl & A1 & A2 & A3 & A4) end.
          destruct (laslot_good vs [] None ob sc sl A4) as [[-> E]|[[-> _]|(a & w & _ & _ & E)]]; try congruence.
          apply wp_bind, wp_fresh; auto. apply wp_bind, (wp_load _ k Null); auto.
          apply (wp_store _ d Null vs [] [] ob sc Dead); auto. apply done; try reflexivity.
          * eapply LI_upd; [exact HL|apply good_null].
          * rewrite (labs_upd vs ob sc [] None). reflexivity.
    Qed.
  End Hops.

  Section Threads.
    Context (owner : nat -> option nat) (n0 : nat) (val0 : nat -> option V) (vars0 : list slot).
    Notation GI := (GI owner n0 val0 vars0).
    Notation thread := (thread V Ty).
    Notation config := (config V Ty).

    (** thread [i] will produce the outputs [l] and end with variables [m] *)
    Definition will (i : nat) (rest : list hop) (outs l : list out) (m : vst V) (L : lst) : Prop :=
      LI n0 val0 L /\ ltmp L = [] /\ lkill L = None /\ exists l', sexec (labs n0 val0 L) rest l' m /\ outs ++ l' = l.
    Definition tinv (i : nat) (L : lst) (t : thread) (l : list out) (m : vst V) : Prop :=
      lsc L = t_sc t /\ Forall (uses owner i) (t_rest t) /\ (exists l', t_outs t ++ l' = l) /\
      match t_now t with
      | None => will i (t_rest t) (t_outs t) l m L
      | Some c => wp owner n0 val0 i c (fun r L' => will i (t_rest t) (t_outs t ++ [outr r]) l m L') L
      end.

    Lemma tstep_ok s Ls i L (t : thread) l m : GI s Ls -> nth_error Ls i = Some L -> tinv i L t l m ->
      exists t' s' L', tstep t s = inl (t', s') /\ GI s' (upd i L' Ls) /\ tinv i L' t' l m.
    Proof.
      intros G Hi (Hsc & Hu & Hpre & Ht). unfold ThreadModel.tstep. destruct t as [now rest outs sc]; simpl in *. destruct now as [c|].
      - destruct c as [x|e|r|B a k]; simpl in Ht.
        + eexists _, s, L. rewrite (upd_same _ _ _ Hi). split; [reflexivity|]. split; [exact G|]. split; [exact Hsc|]. split; [exact Hu|]. split; [|exact Ht]. destruct Ht as (_ & _ & _ & l' & _ & Hl). eauto.
        + eexists _, s, L. rewrite (upd_same _ _ _ Hi). split; [reflexivity|]. split; [exact G|]. split; [exact Hsc|]. split; [exact Hu|]. split; [|exact Ht]. destruct Ht as (_ & _ & _ & l' & _ & Hl). eauto.
        + contradiction.
        + pose proof (act_step owner n0 val0 vars0 a s Ls i L _ _ G Hi Ht) as Ha. rewrite Hsc in Ha.
          destruct (aexec a (with_sched s sc)) as [x s'|e s'|r| |]; try contradiction; destruct Ha as (L' & G' & HQ & Hs).
          * eexists _, s', L'. split; [reflexivity|]. split; [exact G'|]. split; [exact Hs|]. split; [exact Hu|]. split; [exact Hpre|]. exact HQ.
          * eexists _, s', L'. split; [reflexivity|]. split; [exact G'|]. split; [exact Hs|]. split; [exact Hu|]. split; [exact Hpre|]. exact HQ.
      - destruct rest as [|o rest].
        + eexists _, s, L. rewrite (upd_same _ _ _ Hi). split; [reflexivity|]. split; [exact G|]. split; [exact Hsc|]. split; [exact Hu|]. split; [exact Hpre|exact Ht].
        + eexists _, s, L. rewrite (upd_same _ _ _ Hi). split; [reflexivity|]. split; [exact G|]. inversion Hu as [|? ? Hu1 Hu2]; subst.
          split; [reflexivity|]. split; [exact Hu2|]. split; [exact Hpre|]. simpl. destruct Ht as (HL & Htmp & Hk & l' & He & Hl).
          destruct L as [vs T kl ob sc]; simpl in *. subst T kl. inversion He as [|? ? x m1 ? l2 ? Hst He2]; subst.
          eapply wp_mono; [|eapply (wp_hop owner n0 val0 i o x m1); eassumption].
          intros r L' (P1 & P2 & P3 & P4 & P5). repeat split; auto. exists l2. rewrite P4, P5, <- app_assoc. auto.
    Qed.

    Definition CI (cfg : config) (res : list (list out * vst V)) : Prop :=
      exists Ls, GI (shared cfg) Ls /\ length Ls = length (threads cfg) /\
        forall i t L, nth_error (threads cfg) i = Some t -> nth_error Ls i = Some L ->
          exists l m, nth_error res i = Some (l, m) /\ tinv i L t l m.
    Lemma cstep_ok i cfg res : CI cfg res -> exists cfg', cstep i cfg = inl cfg' /\ CI cfg' res.
    Proof.
      intros (Ls & G & Hlen & Hall). unfold ThreadModel.cstep. destruct (nth_error (threads cfg) i) as [t|] eqn:Ht.
      - assert (HL : exists L, nth_error Ls i = Some L).
        { destruct (nth_error Ls i) as [L|] eqn:E; [eauto|]. apply nth_error_None in E. assert (i < length (threads cfg)) by (apply nth_error_Some; congruence). lia. }
        destruct HL as (L & HL). destruct (Hall i t L Ht HL) as (l & m & Hr & Hti).
        destruct (tstep_ok _ _ _ _ _ _ _ G HL Hti) as (t' & s' & L' & E & G' & Hti'). rewrite E. eexists. split; [reflexivity|].
        exists (upd i L' Ls). split; [exact G'|]. split; [simpl; rewrite !upd_length; exact Hlen|]. simpl. intros j u K Hu HK.
        destruct (nth_upd_inv _ _ _ _ _ _ Ht Hu) as [[-> ->]|[Hne Hu']].
        + destruct (nth_upd_inv _ _ _ _ _ _ HL HK) as [[_ ->]|[Hne _]]; [|congruence]. eauto.
        + destruct (nth_upd_inv _ _ _ _ _ _ HL HK) as [[-> _]|[_ HK']]; [congruence|]. eauto.
      - exists cfg. split; [reflexivity|]. exists Ls. auto.
    Qed.
    Lemma crun_ok sch cfg res : CI cfg res -> exists cfg', crun sch cfg = inl cfg' /\ CI cfg' res.
    Proof.
      revert cfg. induction sch as [|i sch IH]; intros cfg HC; simpl; [eauto|].
      destruct (cstep_ok i cfg res HC) as (cfg' & -> & HC'). apply IH. exact HC'.
    Qed.
    Lemma CI_no_race cfg res : CI cfg res -> ~ race cfg.
    Proof.
      intros (Ls & G & Hlen & Hall) (i & j & t & u & l & wi & wj & Hne & Ht & Hu & Hni & Hnj & Hw).
      assert (HL : forall k v, nth_error (threads cfg) k = Some v -> exists L, nth_error Ls k = Some L).
      { intros k v Hk. destruct (nth_error Ls k) as [L|] eqn:E; [eauto|]. apply nth_error_None in E.
        assert (k < length (threads cfg)) by (apply nth_error_Some; congruence). lia. }
      destruct (HL i t Ht) as (L & HLi), (HL j u Hu) as (K & HLj).
      destruct (Hall i t L Ht HLi) as (l1 & m1 & _ & _ & _ & _ & Hti), (Hall j u K Hu HLj) as (l2 & m2 & _ & _ & _ & _ & Htj).
      unfold next_access in *. destruct (t_now t) as [[?|?|?|B a k]|]; try discriminate. destruct (t_now u) as [[?|?|?|B' a' k']|]; try discriminate.
      simpl in Hti, Htj. eapply (no_conflict owner n0 val0 vars0 a a'); try eassumption. exists l, wi, wj. auto.
    Qed.

    (** ** Finished threads *)
    Lemma sexec_nil_inv m l m' : sexec m [] l m' -> l = [] /\ m' = m.
    Proof. intros H. inversion H. auto. Qed.
    Lemma CI_outputs cfg res i t l m : CI cfg res -> nth_error (threads cfg) i = Some t -> nth_error res i = Some (l, m) -> finished t -> t_outs t = l.
    Proof.
      intros (Ls & G & Hlen & Hall) Ht Hr [Hn He].
      assert (HL : exists L, nth_error Ls i = Some L).
      { destruct (nth_error Ls i) as [L|] eqn:E; [eauto|]. apply nth_error_None in E. assert (i < length (threads cfg)) by (apply nth_error_Some; congruence). lia. }
      destruct HL as (L & HL). destruct (Hall i t L Ht HL) as (l2 & m2 & Hr2 & _ & _ & _ & Hti). rewrite Hr in Hr2. injection Hr2 as <- <-.
      rewrite Hn, He in Hti. destruct Hti as (_ & _ & _ & l' & Hs & <-). apply sexec_nil_inv in Hs as [-> _]. symmetry. apply app_nil_r.
    Qed.
    (** what a read gives, from the abstraction *)
    Definition vread (m : vst V) (h : nat) : option out := match nth_error (store m) h with Some (VVal v) => Some (OVal v) | _ => None end.
    Lemma reads_vread s h : inv [] s -> reads s h = vread (abs s) h.
    Proof.
      intros Hi. unfold vread. pose proof (abs_at s h Hi) as Ha. simpl. destruct (nth_error (vars s) h) as [[| |a]|] eqn:E.
      - rewrite Ha. apply reads_none; [exact Hi|]. congruence.
      - rewrite Ha. apply reads_none; [exact Hi|]. congruence.
      - destruct Ha as (v & Hv & ->). apply (proj2 (reads_ptr clone dyn subobjs wrapper inner s h a v Hi E Hv)).
      - rewrite Ha. apply reads_none; [exact Hi|]. congruence.
    Qed.
    Lemma CI_reads cfg res i t l m h : CI cfg res -> nth_error (threads cfg) i = Some t -> nth_error res i = Some (l, m) -> finished t ->
      visible owner i h -> reads (shared cfg) h = vread m h.
    Proof.
      intros (Ls & G & Hlen & Hall) Ht Hr [Hn He] Hv.
      assert (HL : exists L, nth_error Ls i = Some L).
      { destruct (nth_error Ls i) as [L|] eqn:E; [eauto|]. apply nth_error_None in E. assert (i < length (threads cfg)) by (apply nth_error_Some; congruence). lia. }
      destruct HL as (L & HL). destruct (Hall i t L Ht HL) as (l2 & m2 & Hr2 & _ & _ & _ & Hti). rewrite Hr in Hr2. injection Hr2 as <- <-.
      rewrite Hn, He in Hti. destruct Hti as (HI & _ & _ & l' & Hs & _). apply sexec_nil_inv in Hs as [_ ->].
      unfold vread, labs. simpl. rewrite nth_error_map. unfold HandleSpec.reads. simpl. unfold bind, const_access, bind, get_slot.
      rewrite <- (g_vis _ _ _ _ _ _ G i L h HL Hv). destruct (nth_error (lv L) h) as [[| |a]|] eqn:E; try reflexivity.
      assert (Hh : holds owner i L a) by (right; eauto). destruct (holds_cell _ _ _ _ _ _ _ _ _ G HL Hh) as (c & Hc & Hl & _).
      simpl. unfold bind, live_cell. rewrite Hc, Hl. simpl. specialize (HI h a E). destruct (lval n0 val0 L a) as [v|] eqn:Ev; [|congruence].
      pose proof (lval_val _ _ _ _ _ _ _ _ _ _ G HL Ev) as Hx. unfold val in Hx. rewrite Hc in Hx. injection Hx as <-. reflexivity.
    Qed.
    Lemma CI_prefix cfg res i t l m : CI cfg res -> nth_error (threads cfg) i = Some t -> nth_error res i = Some (l, m) ->
      exists l', t_outs t ++ l' = l.
    Proof.
      intros (Ls & G & Hlen & Hall) Ht Hr.
      assert (HL : exists L, nth_error Ls i = Some L).
      { destruct (nth_error Ls i) as [L|] eqn:E; [eauto|]. apply nth_error_None in E. assert (i < length (threads cfg)) by (apply nth_error_Some; congruence). lia. }
      destruct HL as (L & HL). destruct (Hall i t L Ht HL) as (l2 & m2 & Hr2 & _ & _ & Hpre & _). rewrite Hr in Hr2. injection Hr2 as <- <-. exact Hpre.
    Qed.
    Lemma CI_all_finished cfg res : CI cfg res -> Forall finished (threads cfg) -> inv [] (shared cfg).
    Proof.
      intros (Ls & G & Hlen & Hall) Hf.
      assert (Hq : forall i L, nth_error Ls i = Some L -> ltmp L = [] /\ lkill L = None).
      { intros i L HL. assert (Ht : exists t, nth_error (threads cfg) i = Some t).
        { destruct (nth_error (threads cfg) i) as [t|] eqn:E; [eauto|]. apply nth_error_None in E. assert (i < length Ls) by (apply nth_error_Some; congruence). lia. }
        destruct Ht as (t & Ht). destruct (Hall i t L Ht HL) as (l & m & _ & _ & _ & _ & Hti).
        rewrite Forall_forall in Hf. destruct (Hf t (nth_error_In _ _ Ht)) as [Hn He]. rewrite Hn in Hti. destruct Hti as (_ & H1 & H2 & _). auto. }
      assert (Hz : forall a, toks a Ls = 0) by (intros a; apply toks_zero; intros i L HL; apply (Hq i L HL)).
      split.
      - intros a c Hc. pose proof (g_cnt _ _ _ _ _ _ G a c Hc) as H1. pose proof (g_live _ _ _ _ _ _ G a c Hc) as H2. rewrite Hz in H1. split; [simpl; lia|].
        destruct (Nat.eqb_spec (c_cnt c) 0) as [H0|H0]; simpl.
        + destruct (c_live c); [|reflexivity]. destruct (proj1 H2 eq_refl) as [Hx|(i & L & HL & Hk)]; [lia|].
          destruct (Hq i L HL). congruence.
        + apply H2. left. lia.
      - intros a Hp. apply (g_ptr _ _ _ _ _ _ G). rewrite Hz. simpl in Hp. lia.
    Qed.
  End Threads.

  Section Fork.
    Context (owner : nat -> option nat).
    Lemma GI_init (s0 : hst) (ts : list (list hop * list bool)) : inv [] s0 ->
      GI owner (length (heap s0)) (val s0) (vars s0) s0 (map (fun p => mkL (vars s0) [] None (fun _ => None) (snd p)) ts).
    Proof.
      intros [Hc Hp]. set (Ls := map _ ts).
      assert (HL : forall i L, nth_error Ls i = Some L -> exists sc, L = mkL (vars s0) [] None (fun _ => None) sc).
      { intros i L H. unfold Ls in H. rewrite nth_error_map in H. destruct (nth_error ts i) as [p|]; [|discriminate]. injection H as <-. eauto. }
      assert (Hz : forall a, toks a Ls = 0) by (intros a; apply toks_zero; intros i L H; destruct (HL i L H) as (sc & ->); reflexivity).
      split.
      - intros i L H. destruct (HL i L H) as (sc & ->). reflexivity.
      - intros i L h H _. destruct (HL i L H) as (sc & ->). reflexivity.
      - intros a c Ha. rewrite Hz. destruct (Hc a c Ha) as [H1 _]. simpl in H1. lia.
      - intros a c Ha. destruct (Hc a c Ha) as [H1 H2]. rewrite H2. destruct (Nat.eqb_spec (c_cnt c) 0) as [H0|H0]; simpl.
        + split; [discriminate|]. intros [Hx|(i & L & H & Hk)]; [lia|]. destruct (HL i L H) as (sc & ->). discriminate.
        + split; [intros _; left; lia|reflexivity].
      - intros i L a H Hk. destruct (HL i L H) as (sc & ->). discriminate.
      - intros i j L K a H H' Hk. destruct (HL i L H) as (sc & ->). discriminate.
      - intros a Ha. apply Hp. rewrite Hz in Ha. simpl. lia.
      - lia.
      - reflexivity.
      - intros i L a v H Ho. destruct (HL i L H) as (sc & ->). discriminate.
      - intros i j L K a H H' Ho. destruct (HL i L H) as (sc & ->). simpl in Ho. congruence.
      - intros i L a H Hin. destruct (HL i L H) as (sc & ->). destruct Hin.
      - intros h a Hh Hn. exfalso. assert (0 < occ a (vars s0)) by (apply occ_in; eapply nth_error_In; exact Hh).
        specialize (Hp a). simpl in Hp. lia.
      - reflexivity.
    Qed.
    (** the result of a thread that runs alone *)
    Definition alone (s0 : hst) (p : list hop * list bool) : list out * vst V :=
      match run (map H (fst p)) (with_sched s0 (snd p)) with
      | (l, inl s1) => (l, abs s1)
      | (l, inr _) => (l, mkVst [] [])
      end.
    Lemma CI_init (s0 : hst) (ts : list (list hop * list bool)) : inv [] s0 ->
      (forall i p sc, nth_error ts i = Some (p, sc) -> Forall (uses owner i) p /\ exists l s1, run (map H p) (with_sched s0 sc) = (l, inl s1)) ->
      CI owner (length (heap s0)) (val s0) (vars s0) (fork s0 ts) (map (alone s0) ts).
    Proof.
      intros Hi Hts. exists (map (fun p => mkL (vars s0) [] None (fun _ => None) (snd p)) ts).
      split; [apply GI_init; exact Hi|]. split; [simpl; rewrite !map_length; reflexivity|].
      intros i t L Ht HL. simpl in Ht. rewrite !nth_error_map in *. destruct (nth_error ts i) as [[p sc]|] eqn:E; [|discriminate].
      simpl in *. injection Ht as <-. injection HL as <-. destruct (Hts i p sc E) as (Hu & l & s1 & Hr).
      exists l, (abs s1). split; [unfold alone; simpl; rewrite Hr; reflexivity|].
      split; [reflexivity|]. split; [exact Hu|]. split; [exists l; reflexivity|]. simpl.
      assert (Hi' : inv [] (with_sched s0 sc)) by (apply inv_sched; exact Hi).
      pose proof (run_sim clone dyn subobjs wrapper inner clone_ok p (with_sched s0 sc) Hi') as Hsim. rewrite Hr in Hsim. destruct Hsim as [_ He].
      assert (Hl : forall L a, In (Ptr a) (vars s0) -> lval (length (heap s0)) (val s0) L a = val s0 a).
      { intros L a Hin. unfold lval. destruct (Nat.ltb_spec a (length (heap s0))); [reflexivity|]. exfalso. destruct Hi as [_ Hp].
        apply occ_in in Hin. specialize (Hp a). simpl in Hp. lia. }
      split; [|split; [reflexivity|split; [reflexivity|]]].
      - intros h a Hh. simpl in Hh. rewrite Hl by (eapply nth_error_In; exact Hh). destruct (inv_val _ _ _ _ Hi Hh) as (c & _ & _ & _ & ->). discriminate.
      - exists l. split; [|reflexivity]. replace (labs _ _ _) with (abs (with_sched s0 sc)); [exact He|]. unfold abs, labs. simpl. f_equal.
        apply map_ext_in. intros [| |a] Hin; try reflexivity. simpl. rewrite Hl by exact Hin. reflexivity.
    Qed.
    Definition alone_ok (s0 : hst) (ts : list (list hop * list bool)) : Prop :=
      forall i p sc, nth_error ts i = Some (p, sc) -> Forall (uses owner i) p /\ exists l s1, run (map H p) (with_sched s0 sc) = (l, inl s1).
    Lemma CI_common (s0 : hst) cfg res h : inv [] s0 -> CI owner (length (heap s0)) (val s0) (vars s0) cfg res -> owner h = None ->
      reads (shared cfg) h = reads s0 h.
    Proof.
      intros Hi (Ls & G & _) Hh. pose proof (g_common _ _ _ _ _ _ G h Hh) as E. destruct (nth_error (vars s0) h) as [[| |a]|] eqn:E0.
      1,2,4: rewrite (reads_none clone dyn subobjs wrapper inner s0 h Hi) by congruence;
        unfold HandleSpec.reads; simpl; unfold bind, const_access, bind, get_slot; rewrite E; reflexivity.
      destruct (inv_val _ _ _ _ Hi E0) as (c0 & Hc0 & _ & _ & Hv).
      rewrite (proj2 (reads_ptr clone dyn subobjs wrapper inner s0 h a _ Hi E0 Hv)).
      assert (Hp : 0 < occ a (vars (shared cfg))) by (apply occ_in; eapply nth_error_In; exact E).
      assert (Hlt : a < length (heap (shared cfg))) by (apply (g_ptr _ _ _ _ _ _ G); lia).
      destruct (nth_error (heap (shared cfg)) a) as [c|] eqn:Hc; [|apply nth_error_None in Hc; lia].
      assert (Hl : c_live c = true) by (apply (g_live _ _ _ _ _ _ G a c Hc); left; rewrite (g_cnt _ _ _ _ _ _ G a c Hc); lia).
      unfold HandleSpec.reads. simpl. unfold bind, const_access, bind, get_slot. rewrite E. simpl. unfold bind, live_cell. rewrite Hc, Hl. simpl.
      assert (Ha : a < length (heap s0)) by (apply nth_error_Some; congruence).
      pose proof (g_old _ _ _ _ _ _ G a Ha) as Hx. unfold val in Hx at 1. rewrite Hc, Hv in Hx. injection Hx as <-. reflexivity.
    Qed.
    Lemma threads_as_if_alone (s0 : hst) ts sch : reachable clone dyn subobjs wrapper inner s0 -> alone_ok s0 ts ->
      exists cfg, crun sch (fork s0 ts) = inl cfg /\ ~ race cfg /\
        (forall i p sc l s1 t, nth_error ts i = Some (p, sc) -> run (map H p) (with_sched s0 sc) = (l, inl s1) -> nth_error (threads cfg) i = Some t ->
           (exists l', t_outs t ++ l' = l) /\
           (finished t -> t_outs t = l /\ forall h, visible owner i h -> reads (shared cfg) h = reads s1 h)) /\
        (forall h, owner h = None -> reads (shared cfg) h = reads s0 h) /\
        (Forall finished (threads cfg) -> no_leak (shared cfg)).
    Proof.
      intros Hr Hts. pose proof (reachable_inv clone dyn subobjs wrapper inner clone_ok s0 Hr) as Hi.
      destruct (crun_ok owner _ _ _ sch _ _ (CI_init s0 ts Hi Hts)) as (cfg & E & HC). exists cfg. split; [exact E|].
      split; [eapply CI_no_race; exact HC|]. split; [|split].
      - intros i p sc l s1 t Hp Hrun Ht. assert (Hres : nth_error (map (alone s0) ts) i = Some (l, abs s1)).
        { rewrite nth_error_map, Hp. simpl. unfold alone. simpl. rewrite Hrun. reflexivity. }
        split; [eapply CI_prefix; eassumption|]. intros Hf. split; [eapply CI_outputs; eassumption|]. intros h Hv.
        rewrite (CI_reads owner _ _ _ cfg _ i t l (abs s1) h HC Ht Hres Hf Hv). symmetry. apply reads_vread.
        assert (Hi' : inv [] (with_sched s0 sc)) by (apply inv_sched; exact Hi).
        pose proof (run_sim clone dyn subobjs wrapper inner clone_ok p (with_sched s0 sc) Hi') as Hsim. rewrite Hrun in Hsim. apply Hsim.
      - intros h Hh. exact (CI_common _ _ _ h Hi HC Hh).
      - intros Hf. apply inv_no_leak. eapply CI_all_finished; eassumption.
    Qed.
  End Fork.

  (** ** Every statement needs a bounded number of steps of its thread, whatever the others do *)
  Fixpoint within {A} (n : nat) (c : cmd A) {struct c} : Prop :=
    match c with
    | CRet _ | CExc _ | CUb _ => True
    | CAct a k => match n with 0 => False | S n => forall x, within n (k x) end
    end.
  Lemma within_hop o : within 12 (c_hop o).
  Proof.
    destruct o; simpl; repeat (intros; simpl; try exact I; match goal with
      | x : slot |- _ => destruct x; simpl
      | x : bool |- _ => destruct x; simpl
      | |- context[dynamic_cast subobjs ?a ?b] => destruct (dynamic_cast subobjs a b); simpl
      | |- context[extract_from subobjs wrapper inner ?a ?b] => destruct (extract_from subobjs wrapper inner a b); simpl
      | |- forall _, _ => intro
      end).
  Qed.
  Definition cost (t : thread V Ty) (n : nat) : Prop :=
    exists k, match t_now t with None => k = 0 | Some c => exists j, within j c /\ k = S j end /\ k + 14 * length (t_rest t) <= n.
  Lemma cost_zero t : cost t 0 -> finished t.
  Proof.
    intros (k & Hk & Hle). destruct (t_now t) as [c|] eqn:E.
    - destruct Hk as (j & _ & ->). lia.
    - split; [exact E|]. destruct (t_rest t); [reflexivity|simpl in Hle; lia].
  Qed.
  Lemma tstep_cost t s t' s' n : cost t n -> tstep t s = inl (t', s') -> cost t' (pred n).
  Proof.
    intros (k & Hk & Hle) E. unfold ThreadModel.tstep in E. destruct t as [now rest outs sc]; simpl in *. destruct now as [c|].
    - destruct Hk as (j & Hw & ->). destruct c as [x|e|r|B a k']; simpl in *.
      + injection E as <- <-. exists 0. simpl. split; [reflexivity|lia].
      + injection E as <- <-. exists 0. simpl. split; [reflexivity|lia].
      + discriminate.
      + destruct j as [|j]; [contradiction|]. destruct (aexec a (with_sched s sc)) as [x s2|e s2|r| |]; try discriminate; injection E as <- <-.
        * exists (S j). simpl. split; [exists j; auto|lia].
        * exists (S j). simpl. split; [exists j; split; [exact I|reflexivity]|lia].
    - destruct rest as [|o rest].
      + injection E as <- <-. exists 0. simpl. split; [reflexivity|lia].
      + injection E as <- <-. exists 13. simpl. split; [exists 12; split; [apply within_hop|reflexivity]|]. simpl in Hle. lia.
  Qed.
  Lemma crun_cost sch : forall cfg cfg' i t n, crun sch cfg = inl cfg' -> nth_error (threads cfg) i = Some t -> cost t n ->
    exists t', nth_error (threads cfg') i = Some t' /\ cost t' (n - count_occ Nat.eq_dec sch i).
  Proof.
    induction sch as [|j sch IH]; intros cfg cfg' i t n E Ht Hc; simpl in E.
    - injection E as <-. exists t. simpl. rewrite Nat.sub_0_r. auto.
    - destruct (cstep j cfg) as [c1|r] eqn:E1; [|discriminate]. unfold ThreadModel.cstep in E1. simpl.
      destruct (nth_error (threads cfg) j) as [u|] eqn:Hu.
      + destruct (tstep u (shared cfg)) as [[u' s']|r] eqn:Et; [|discriminate]. injection E1 as <-.
        destruct (Nat.eq_dec j i) as [->|Hne].
        * assert (u = t) by congruence. subst u. pose proof (tstep_cost _ _ _ _ _ Hc Et) as Hc'.
          destruct (IH _ _ i u' (pred n) E (nth_error_upd_some _ _ _ _ Ht) Hc') as (t' & H1 & H2). exists t'. split; [exact H1|].
          replace (n - S (count_occ Nat.eq_dec sch i)) with (pred n - count_occ Nat.eq_dec sch i) by lia. exact H2.
        * eapply IH; eauto. simpl. rewrite nth_error_upd_neq by exact Hne. exact Ht.
      + injection E1 as <-. destruct (Nat.eq_dec j i) as [->|Hne]; [congruence|]. eapply IH; eauto.
  Qed.
  Lemma crun_length sch : forall cfg cfg', crun sch cfg = inl cfg' -> length (threads cfg') = length (threads cfg).
  Proof.
    induction sch as [|j sch IH]; intros cfg cfg' E; simpl in E; [injection E as <-; reflexivity|].
    destruct (cstep j cfg) as [c1|r] eqn:E1; [|discriminate]. rewrite (IH _ _ E). unfold ThreadModel.cstep in E1.
    destruct (nth_error (threads cfg) j) as [u|]; [|injection E1 as <-; reflexivity].
    destruct (tstep u (shared cfg)) as [[u' s']|r]; [|discriminate]. injection E1 as <-. simpl. apply upd_length.
  Qed.
  Lemma wait_free s0 ts sch cfg i p sc : crun sch (fork s0 ts) = inl cfg -> nth_error ts i = Some (p, sc) ->
    14 * length p <= count_occ Nat.eq_dec sch i -> exists t, nth_error (threads cfg) i = Some t /\ finished t.
  Proof.
    intros E Hp Hn. destruct (crun_cost sch _ _ i (mkT None p [] sc) (14 * length p) E) as (t & Ht & Hc).
    - simpl. rewrite nth_error_map, Hp. reflexivity.
    - exists 0. simpl. split; [reflexivity|lia].
    - exists t. split; [exact Ht|]. apply cost_zero. replace (14 * length p - count_occ Nat.eq_dec sch i) with 0 in Hc by lia. exact Hc.
  Qed.

  (** ** Two threads accessing one handle other than through const *)
  Lemma nonconst_access_races (s0 : hst) ts h i j f g p q sci scj v : reachable clone dyn subobjs wrapper inner s0 ->
    reads s0 h = Some (OVal v) -> i <> j ->
    nth_error ts i = Some (OpWrite h f :: p, sci) -> nth_error ts j = Some (OpWrite h g :: q, scj) -> hd false scj = false ->
    exists sch cfg, crun sch (fork s0 ts) = inl cfg /\ race cfg.
  Proof.
    intros Hr Hv Hne Hi Hj Hsc. pose proof (reachable_inv clone dyn subobjs wrapper inner clone_ok s0 Hr) as Hinv.
    destruct (reads_inv clone dyn subobjs wrapper inner s0 h v Hinv Hv) as (a & c & Hh & Hc & Hl & Hcv & _).
    exists [j; j; j; j; j; i]. pose (ths := map (fun p => mkT (V := V) (Ty := Ty) None (fst p) [] (snd p)) ts).
    assert (Hti : nth_error ths i = Some (mkT None (OpWrite h f :: p) [] sci)) by (unfold ths; rewrite nth_error_map, Hi; reflexivity).
    assert (Htj : nth_error ths j = Some (mkT None (OpWrite h g :: q) [] scj)) by (unfold ths; rewrite nth_error_map, Hj; reflexivity).
    unfold fork. fold ths. cbn [ThreadModel.crun]. unfold ThreadModel.cstep at 1. cbn [threads shared]. rewrite Htj.
    unfold ThreadModel.tstep at 1. cbn [t_now t_rest ThreadModel.c_hop]. unfold c_access, c_make_unique, c_const_access, do. cbn [cbind].
    assert (U : forall l (x y : thread V Ty), nth_error l j = Some y -> nth_error (upd j x l) j = Some x) by (intros; eapply nth_error_upd_some; eassumption).
    assert (UU : forall (l : list (thread V Ty)) x y, upd j y (upd j x l) = upd j y l).
    { clear. intros l. revert j. induction l as [|z l IH]; intros [|j] x y; simpl; f_equal; auto. }
    unfold ThreadModel.cstep at 1. cbn [threads shared]. rewrite (U _ _ _ Htj). unfold ThreadModel.tstep at 1. cbn [t_now t_rest t_outs t_sc aexec].
    unfold get_slot at 1. cbn [with_sched vars]. rewrite Hh. cbn [cbind]. rewrite UU.
    unfold ThreadModel.cstep at 1. cbn [threads shared]. rewrite (U _ _ _ Htj). unfold ThreadModel.tstep at 1. cbn [t_now t_rest t_outs t_sc aexec].
    unfold a_get, live_cell. cbn [with_sched heap]. rewrite Hc, Hl. rewrite UU. cbn [sched with_sched].
    unfold ThreadModel.cstep at 1. cbn [threads shared]. rewrite (U _ _ _ Htj). unfold ThreadModel.tstep at 1. cbn [t_now t_rest t_outs t_sc aexec].
    unfold alloc. cbn [with_sched sched heap vars refs].
    set (s2 := match scj with [] => _ | _ :: _ => _ end).
    assert (E2 : s2 = Ret (length (heap s0)) (mkHst (vars s0) (heap s0 ++ [mkCell (clone (c_val c)) 1 true]) (tl scj) (refs s0))).
    { unfold s2. destruct scj as [|[] scj']; [reflexivity|discriminate|reflexivity]. }
    rewrite E2. rewrite UU.
    unfold ThreadModel.cstep at 1. cbn [threads shared]. rewrite (U _ _ _ Htj). unfold ThreadModel.tstep at 1. cbn [t_now t_rest t_outs t_sc aexec].
    unfold get_slot at 1. cbn [with_sched vars sched]. rewrite Hh. cbn [cbind]. rewrite UU.
    unfold ThreadModel.cstep at 1. cbn [threads shared]. rewrite nth_error_upd_neq by auto. rewrite Hti.
    unfold ThreadModel.tstep at 1. cbn [t_now t_rest t_outs t_sc ThreadModel.c_hop].
    eexists. split; [reflexivity|].
    eexists i, j, _, _, (LVar h), false, true. split; [exact Hne|]. cbn [threads]. split; [eapply nth_error_upd_some; rewrite nth_error_upd_neq by auto; exact Hti|].
    split; [rewrite nth_error_upd_neq by auto; apply (U _ _ _ Htj)|]. repeat split.
  Qed.

  Lemma run_reads_const (s : hst) h v : inv [] s -> reads s h = Some (OVal v) -> forall n, run (map H (repeat (OpRead h) n)) s = (repeat (OVal v) n, inl s).
  Proof.
    intros Hi Hv. destruct (reads_inv clone dyn subobjs wrapper inner s h v Hi Hv) as (a & c & Hh & _ & _ & _ & Hx).
    pose proof (proj1 (reads_ptr clone dyn subobjs wrapper inner s h a v Hi Hh Hx)) as E.
    induction n as [|n IH]; [reflexivity|]. cbn [repeat map HandleModel.run]. rewrite E, IH. reflexivity.
  Qed.
  Lemma reads_sched (s : hst) sc h : reads (with_sched s sc) h = reads s h.
  Proof.
    unfold HandleSpec.reads. simpl. unfold bind, const_access, bind, get_slot. simpl. destruct (nth_error (vars s) h) as [[| |a]|]; try reflexivity.
    simpl. unfold bind, live_cell. simpl. destruct (nth_error (heap s) a) as [c|]; [|reflexivity]. destruct (c_live c); reflexivity.
  Qed.
  Lemma common_reads (s0 : hst) (ts : list (nat * list bool)) h v sch : reachable clone dyn subobjs wrapper inner s0 -> reads s0 h = Some (OVal v) ->
    exists cfg, crun sch (fork s0 (map (fun x => (repeat (OpRead h) (fst x), snd x)) ts)) = inl cfg /\ ~ race cfg /\
      reads (shared cfg) h = Some (OVal v) /\ forall i t, nth_error (threads cfg) i = Some t -> Forall (eq (OVal v)) (t_outs t).
  Proof.
    intros Hr Hv. pose proof (reachable_inv clone dyn subobjs wrapper inner clone_ok s0 Hr) as Hi.
    set (ps := map _ ts). assert (Hps : forall i p sc, nth_error ps i = Some (p, sc) -> exists n, p = repeat (OpRead h) n).
    { intros i p sc E. unfold ps in E. rewrite nth_error_map in E. destruct (nth_error ts i) as [[n sc']|]; [|discriminate].
      injection E as <- <-. exists n. reflexivity. }
    assert (Hrun : forall n sc, run (map H (repeat (OpRead h) n)) (with_sched s0 sc) = (repeat (OVal v) n, inl (with_sched s0 sc))).
    { intros n sc. apply run_reads_const; [apply inv_sched; exact Hi|]. rewrite reads_sched. exact Hv. }
    assert (Hok : alone_ok (fun _ => None) s0 ps).
    { intros i p sc E. destruct (Hps i p sc E) as (n & ->). split; [|eexists _, _; apply Hrun].
      apply Forall_forall. intros o Ho. apply repeat_spec in Ho. subst o. right. reflexivity. }
    destruct (threads_as_if_alone (fun _ => None) s0 ps sch Hr Hok) as (cfg & E & Hnr & Hout & Hcom & _). exists cfg. split; [exact E|].
    split; [exact Hnr|]. split; [rewrite Hcom by reflexivity; exact Hv|]. intros i t Ht.
    assert (Hp : exists p sc, nth_error ps i = Some (p, sc)).
    { assert (Hlen : length (threads cfg) = length ps) by (rewrite (crun_length _ _ _ E); simpl; rewrite map_length; reflexivity).
      destruct (nth_error ps i) as [[p sc]|] eqn:Ep; [eauto|]. apply nth_error_None in Ep.
      assert (i < length (threads cfg)) by (apply nth_error_Some; congruence). lia. }
    destruct Hp as (p & sc & Hp). destruct (Hps i p sc Hp) as (n & ->).
    destruct (Hout i _ sc _ _ t Hp (Hrun n sc) Ht) as [(l' & Hl) _].
    apply Forall_forall. intros x Hx. assert (Hin : In x (repeat (OVal v) n)) by (rewrite <- Hl; apply in_or_app; auto).
    apply repeat_spec in Hin. congruence.
  Qed.
End Main.
