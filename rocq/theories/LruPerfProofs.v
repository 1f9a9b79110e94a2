(** LruPerfProofs.v -- lemmas for LruPerfProps.v: an abstract recency list of labels, its simulation by
    the model, stack distances, and the potential-function argument for competitiveness. *)
From Verif Require Import Base StdOrd LruModel LruSpec LruProofs LruPerfSpec.

Local Arguments LruPerfSpec.among : simpl never.
Section LruPerf.
  Context {L V : Type} (ltb : L -> L -> bool) (HO : SWO ltb).
  Notation eqv := (eqvb ltb).
  Notation among := (among ltb).

  (** ** membership up to equivalence *)
  Lemma among_In (l : L) s : among l s = true <-> exists x, In x s /\ eqv x l = true.
  Proof. unfold LruPerfSpec.among. apply existsb_exists. Qed.
  Lemma among_not (l : L) s : among l s = false <-> forall x, In x s -> eqv x l = false.
  Proof.
    split.
    - intros H x Hx. destruct (eqv x l) eqn:E; auto.
      assert (among l s = true) by (apply among_In; eauto). congruence.
    - intros H. destruct (among l s) eqn:E; auto. apply among_In in E as (x & Hx & E).
      rewrite H in E; auto.
  Qed.
  Lemma among_cong (a b : L) s : eqv a b = true -> among a s = among b s.
  Proof.
    intros E. unfold LruPerfSpec.among. induction s as [|x t IH]; simpl; auto.
    rewrite IH, (eqvb_cong_r ltb HO a b x E). reflexivity.
  Qed.
  Lemma among_app (l : L) s t : among l (s ++ t) = among l s || among l t.
  Proof. apply existsb_app. Qed.
  Lemma among_cons (l x : L) s : among l (x :: s) = eqv x l || among l s.
  Proof. reflexivity. Qed.
  Lemma among_self (l : L) s : among l (l :: s) = true.
  Proof. rewrite among_cons, eqvb_refl; auto. Qed.

  (** ** a recency list of labels *)
  Fixpoint take (l : L) (r : list L) : option (L * list L) :=
    match r with
    | [] => None
    | x :: t => if eqv x l then Some (x, t)
                else match take l t with Some (y, rest) => Some (y, x :: rest) | None => None end
    end.
  Definition use (k : Z) (r : list L) (l : L) : list L * bool :=
    match take l r with
    | Some (x, rest) => (x :: rest, true)
    | None => (l :: (if (Z.of_nat (length r) <? k)%Z then r else removelast r), false)
    end.
  Fixpoint uses (k : Z) (r : list L) (ls : list L) : list bool :=
    match ls with
    | [] => []
    | l :: t => snd (use k r l) :: uses k (fst (use k r l)) t
    end.

  Lemma take_Some l r x rest : take l r = Some (x, rest) ->
    exists a b, r = a ++ x :: b /\ rest = a ++ b /\ eqv x l = true /\ among l a = false.
  Proof.
    revert rest; induction r as [|y t IH]; simpl; intros rest; [discriminate|].
    destruct (eqv y l) eqn:Hy.
    - intros [= <- <-]. exists [], t. auto.
    - destruct (take l t) as [[z q]|] eqn:Ht; [|discriminate].
      intros [= <- <-]. destruct (IH q eq_refl) as (a & b & -> & -> & Hz & Ha).
      exists (y :: a), b. repeat split; auto. rewrite among_cons, Hy. exact Ha.
  Qed.
  Lemma take_None l r : take l r = None <-> among l r = false.
  Proof.
    induction r as [|y t IH]; [simpl; tauto|]. cbn [take].
    rewrite among_cons. destruct (eqv y l) eqn:Hy; simpl; [split; discriminate|].
    destruct (take l t) as [[z q]|]; [|tauto]. split; [discriminate|]. intros H. apply IH in H. discriminate.
  Qed.
  Lemma use_hit k r l : snd (use k r l) = among l r.
  Proof.
    unfold use. destruct (take l r) as [[x q]|] eqn:Ht.
    - destruct (take_Some _ _ _ _ Ht) as (a & b & -> & _ & Hx & _).
      rewrite among_app, among_cons, Hx. simpl. rewrite orb_true_r. reflexivity.
    - apply take_None in Ht. rewrite Ht. reflexivity.
  Qed.

  (** ** the model follows it *)
  Section Link.
    Context (f : L -> V) (Hf : forall a b, eqv a b = true -> f a = f b).

    Definition fits (k : Z) (c : cache L V) (r : list L) : Prop :=
      exists s, R ltb c s /\ r_cap s = k /\ r_items s = map (fun x => (x, f x)) r.

    Lemma take_label_map l r :
      match take l r with
      | Some (x, rest) => exists i, take_label ltb l (map (fun x => (x, f x)) r) = Some (i, (x, f x), map (fun x => (x, f x)) rest)
      | None => take_label ltb l (map (fun x => (x, f x)) r) = None
      end.
    Proof.
      induction r as [|y t IH]; simpl; auto.
      destruct (eqv y l); [eauto|].
      destruct (take l t) as [[z q]|].
      - destruct IH as (i & ->). eauto.
      - rewrite IH. reflexivity.
    Qed.
    Lemma map_removelast {A B} (g : A -> B) s : removelast (map g s) = map g (removelast s).
    Proof.
      induction s as [|x t IH]; auto. destruct t as [|y t]; auto.
      change (removelast (map g (x :: y :: t))) with (g x :: removelast (map g (y :: t))). rewrite IH. reflexivity.
    Qed.

    Lemma cached_fits k c r l : fits k c r ->
      exists c', cached ltb f c l = Some (c', snd (use k r l), f l) /\ fits k c' (fst (use k r l)).
    Proof.
      intros (s & HR & Hk & Hi).
      assert (Hh : step ltb c (OHas l) = (Some c, RBool (snd (use k r l)))).
      { simpl. rewrite has_label_eq; auto. f_equal. f_equal.
        pose proof (take_label_map l r) as Ht. rewrite <- Hi in Ht. unfold use.
        destruct (take l r) as [[x q]|].
        - destruct Ht as (i & Ht). simpl. destruct (find_elem n_key ltb l (c_elems c)) eqn:E; auto.
          apply (R_find_None ltb _ _ _ HR) in E. congruence.
        - simpl. destruct (find_elem n_key ltb l (c_elems c)) eqn:E; auto.
          apply (R_find_None ltb _ _ _ HR) in Ht. congruence. }
      unfold cached. rewrite Hh.
      destruct (step_refines ltb HO c s (OGet l) HR) as (c1 & H1 & HR1).
      destruct (step_refines ltb HO c s (OPut l (f l)) HR) as (c2 & H2 & HR2).
      pose proof (take_label_map l r) as Ht. rewrite <- Hi in Ht.
      unfold use in *. destruct (take l r) as [[x q]|] eqn:Hq.
      - destruct Ht as (i & Ht). cbn [fst snd]. rewrite H1. simpl. simpl in HR1. rewrite Ht in *. simpl in *.
        exists c1. split.
        + destruct (take_Some _ _ _ _ Hq) as (_ & _ & _ & _ & Hx & _). rewrite (Hf _ _ Hx). reflexivity.
        + eexists. split; [exact HR1|]. simpl. auto.
      - cbn [fst snd]. rewrite H2. simpl. simpl in HR2. rewrite Ht in *. simpl in *.
        exists c2. split; auto. eexists. split; [exact HR2|]. simpl. split; auto.
        rewrite Hi, map_length, Hk. destruct (Z.of_nat (length r) <? k)%Z; auto.
        rewrite map_removelast. reflexivity.
    Qed.

    Lemma serve_fits k ls : forall c r, fits k c r ->
      exists c', serve ltb f c ls = Some (c', combine (uses k r ls) (map f ls)).
    Proof.
      induction ls as [|l t IH]; intros c r HF; simpl; [eauto|].
      destruct (cached_fits k c r l HF) as (c1 & -> & HF1).
      destruct (IH _ _ HF1) as (c2 & ->). eauto.
    Qed.
    Lemma uses_length k r ls : length (uses k r ls) = length ls.
    Proof. revert r; induction ls as [|l t IH]; intros r; simpl; auto. Qed.

    Lemma answers_eq m ls : (0 < m < 2 ^ 64)%Z ->
      answers ltb f m ls = Some (combine (uses m [] ls) (map f ls)).
    Proof.
      intros Hm. unfold answers, lru_new. destruct (Z.ltb_spec 0 m); [|lia].
      assert (HF : fits m (mkCache m [] 0) []) by (exists (mkRlist m []); split; [apply R_new; auto|auto]).
      destruct (serve_fits m ls _ _ HF) as (c' & ->). reflexivity.
    Qed.
    Lemma map_fst_combine {A B} (a : list A) (b : list B) : length a = length b -> map fst (combine a b) = a.
    Proof. revert b; induction a as [|x t IH]; intros [|y b]; simpl; auto; try discriminate. intros [=]. f_equal; auto. Qed.
    Lemma map_snd_combine {A B} (a : list A) (b : list B) : length a = length b -> map snd (combine a b) = b.
    Proof. revert b; induction a as [|x t IH]; intros [|y b]; simpl; auto; try discriminate. intros [=]. f_equal; auto. Qed.
    Lemma hits_eq m ls : (0 < m < 2 ^ 64)%Z -> hits ltb f m ls = Some (uses m [] ls).
    Proof.
      intros Hm. unfold hits. rewrite answers_eq; auto. simpl.
      rewrite map_fst_combine; auto. rewrite uses_length, map_length. reflexivity.
    Qed.
  End Link.

  (** ** labels in the order of their last use; the recency list is its beginning *)
  Fixpoint recs (h : list L) : list L :=
    match h with
    | [] => []
    | l :: t => l :: filter (fun x => negb (eqv x l)) (recs t)
    end.
  Lemma filter_id {A} (g : A -> bool) s : (forall x, In x s -> g x = true) -> filter g s = s.
  Proof. induction s as [|x t IH]; simpl; intros H; auto. rewrite H by auto. f_equal. auto. Qed.
  Lemma recs_among h x : among x (recs h) = among x h.
  Proof.
    induction h as [|l t IH]; auto. cbn [recs]. rewrite !among_cons, <- IH.
    destruct (eqv l x) eqn:E; simpl; auto.
    destruct (among x (recs t)) eqn:M.
    - apply among_In in M as (y & Hy & Ey). apply among_In. exists y. split; auto.
      apply filter_In. split; auto. destruct (eqv y l) eqn:F; auto.
      rewrite (eqvb_trans ltb HO l y x) in E; auto. rewrite eqvb_sym; auto.
    - rewrite among_not in *. intros y Hy. apply filter_In in Hy as [Hy _]. auto.
  Qed.
  Fixpoint nd (s : list L) : Prop :=
    match s with [] => True | x :: t => among x t = false /\ nd t end.
  Lemma nd_filter g s : nd s -> nd (filter g s).
  Proof.
    induction s as [|x t IH]; simpl; auto. intros [H1 H2]. destruct (g x); simpl; auto. split; auto.
    rewrite among_not in *. intros y Hy. apply filter_In in Hy as [Hy _]. auto.
  Qed.
  Lemma nd_recs h : nd (recs h).
  Proof.
    induction h as [|l t IH]; simpl; auto. split; [|apply nd_filter; auto].
    apply among_not. intros y Hy. apply filter_In in Hy as [_ Hy]. apply negb_true_iff. exact Hy.
  Qed.
  Lemma nd_mid a x b : nd (a ++ x :: b) <-> nd (a ++ b) /\ among x (a ++ b) = false.
  Proof.
    induction a as [|y a IH]; [simpl; tauto|].
    rewrite <- !app_comm_cons. cbn [nd]. rewrite IH.
    rewrite among_cons, !among_app, among_cons, (eqvb_sym ltb y x).
    rewrite !orb_false_iff. tauto.
  Qed.
  Lemma recs_app c t : recs (c ++ t) = recs c ++ filter (fun x => negb (among x c)) (recs t).
  Proof.
    induction c as [|l c IH]; simpl.
    - symmetry. apply filter_id. reflexivity.
    - f_equal. rewrite IH, filter_app. f_equal.
      clear IH. induction (recs t) as [|x r IHr]; auto. cbn [filter].
      rewrite among_cons, (eqvb_sym ltb l x).
      destruct (among x c); cbn [negb filter]; destruct (eqv x l); cbn [negb orb]; rewrite ?IHr; reflexivity.
  Qed.
  Lemma among_rev x s : among x (rev s) = among x s.
  Proof.
    destruct (among x s) eqn:E.
    - apply among_In in E as (y & Hy & E). apply among_In. exists y. split; auto. apply in_rev in Hy. exact Hy.
    - rewrite among_not in *. intros y Hy. apply E. apply in_rev. exact Hy.
  Qed.
  Lemma different_recs s : different ltb s = length (recs (rev s)).
  Proof.
    induction s as [|x t IH]; auto. cbn [different rev].
    rewrite recs_app, app_length. simpl (recs [x]). cbn [filter]. rewrite among_rev, <- IH.
    destruct (among x t); simpl; lia.
  Qed.
  Lemma different_app u w : different ltb w <= different ltb (u ++ w).
  Proof. induction u as [|x u IH]; simpl; auto. destruct (among _ _); lia. Qed.

  Lemma last_occurrence l s : among l s = true ->
    exists a b c, s = a ++ b :: c /\ eqv b l = true /\ among l c = false.
  Proof.
    induction s as [|x t IH]; [discriminate|]. intros H.
    destruct (among l t) eqn:E.
    - destruct (IH eq_refl) as (a & b & c & -> & Hb & Hc). exists (x :: a), b, c. auto.
    - rewrite among_cons, E, orb_false_r in H. exists [], x, t. auto.
  Qed.
  Lemma among_firstn_recent k pre l : (0 < k)%Z ->
    among l (firstn (Z.to_nat k) (recs (rev pre))) = true <-> recent ltb k pre l.
  Proof.
    intros Hk.
    assert (Hpos : forall a b c, pre = a ++ b :: c -> eqv b l = true -> among l c = false ->
              (among l (firstn (Z.to_nat k) (recs (rev pre))) = true <-> (Z.of_nat (different ltb c) < k)%Z)).
    { intros a b c -> Hb Hc. rewrite rev_app_distr. simpl (rev (b :: c)). rewrite <- app_assoc. simpl ([b] ++ rev a).
      rewrite recs_app. cbn [recs filter].
      assert (Hbc : among b (rev c) = false) by (rewrite among_rev, (among_cong _ _ _ Hb); exact Hc).
      rewrite Hbc. cbn [negb]. rewrite different_recs.
      destruct (Nat.le_gt_cases (Z.to_nat k) (length (recs (rev c)))) as [Hle|Hgt].
      - rewrite firstn_app. replace (Z.to_nat k - length (recs (rev c))) with 0 by lia.
        simpl (firstn 0 _). rewrite app_nil_r. split; [|lia]. intros H. exfalso.
        apply among_In in H as (y & Hy & Ey).
        assert (Hy' : In y (recs (rev c))).
        { rewrite <- (firstn_skipn (Z.to_nat k) (recs (rev c))). apply in_or_app; auto. }
        assert (among l (recs (rev c)) = true) by (apply among_In; eauto).
        rewrite recs_among, among_rev in H. congruence.
      - split; [lia|]. intros _. apply among_In. exists b. split; auto.
        rewrite firstn_app. apply in_or_app. right.
        destruct (Z.to_nat k - length (recs (rev c))) eqn:E; [lia|]. simpl. auto. }
    split.
    - intros H. assert (Hin : among l pre = true).
      { rewrite <- (among_rev l pre), <- recs_among. apply among_In in H as (y & Hy & Ey). apply among_In.
        exists y. split; auto. rewrite <- (firstn_skipn (Z.to_nat k) (recs (rev pre))). apply in_or_app; auto. }
      destruct (last_occurrence _ _ Hin) as (a & b & c & Hp & Hb & Hc).
      exists a, b, c. repeat split; auto. apply (Hpos a b c); auto.
    - intros (a & b & c & Hp & Hb & Hd).
      destruct (among l c) eqn:Hc; [|apply (Hpos a b c); auto].
      destruct (last_occurrence _ _ Hc) as (a1 & b1 & c1 & -> & Hb1 & Hc1).
      apply (Hpos (a ++ b :: a1) b1 c1); auto.
      + rewrite Hp, <- app_assoc. reflexivity.
      + pose proof (different_app (a1 ++ [b1]) c1) as Hx. rewrite <- app_assoc in Hx. simpl in Hx. lia.
  Qed.

  Definition like (r t : list L) : Prop := Forall2 (fun a b => eqv a b = true) r t.
  Lemma like_among r t x : like r t -> among x r = among x t.
  Proof.
    intros H. induction H as [|a b r t Hab H IH]; auto. rewrite !among_cons, IH.
    rewrite (eqvb_cong_l ltb HO a b x Hab). reflexivity.
  Qed.
  Lemma like_length r t : like r t -> length r = length t.
  Proof. induction 1; simpl; auto. Qed.
  Lemma like_refl r : like r r.
  Proof. induction r; constructor; auto. apply eqvb_refl; auto. Qed.
  Lemma like_app r1 t1 r2 t2 : like r1 t1 -> like r2 t2 -> like (r1 ++ r2) (t1 ++ t2).
  Proof. apply Forall2_app. Qed.
  Lemma like_removelast r t : like r t -> like (removelast r) (removelast t).
  Proof.
    intros H. induction H as [|a b r t Hab H IH]; [constructor|].
    destruct H as [|c d r t Hcd H]; [constructor|]. constructor; auto.
  Qed.
  Lemma firstn_mid {A} k (a : list A) x c : length a < k ->
    firstn k (a ++ x :: c) = a ++ x :: firstn (k - 1 - length a) c.
  Proof.
    intros H. rewrite firstn_app, firstn_all2 by lia. f_equal.
    destruct (k - length a) eqn:E; [lia|]. simpl. f_equal. f_equal. lia.
  Qed.

  Lemma use_like k r h l : (0 < k)%Z -> like r (firstn (Z.to_nat k) (recs h)) ->
    like (fst (use k r l)) (firstn (Z.to_nat k) (recs (l :: h))).
  Proof.
    intros Hk Hl. pose proof (like_among _ _ l Hl) as Ham.
    set (K := Z.to_nat k) in *. assert (HK : 0 < K) by (unfold K; lia).
    unfold use. destruct (take l r) as [[x q]|] eqn:Ht.
    - destruct (take_Some _ _ _ _ Ht) as (a & b & -> & -> & Hx & Ha). cbn [fst].
      apply Forall2_app_inv_l in Hl as (a' & t & Ha' & Ht' & HZ).
      inversion Ht' as [|? x' ? b' Hxx Hb']; subst. fold (like a a') in Ha'. fold (like b b') in Hb'.
      assert (Hlen : length a' < K).
      { pose proof (firstn_le_length K (recs h)) as Hle. rewrite HZ, app_length in Hle. simpl in Hle. lia. }
      pose proof (firstn_skipn K (recs h)) as Hsp. rewrite HZ in Hsp.
      rewrite <- app_assoc in Hsp. simpl in Hsp.
      pose proof HZ as HZ2. rewrite <- Hsp, firstn_mid in HZ2 by auto.
      apply app_inv_head in HZ2. injection HZ2 as Hb2.
      pose proof (nd_recs h) as Hnd. rewrite <- Hsp in Hnd. apply nd_mid in Hnd as [_ Hnd].
      assert (Hx' : eqv x' l = true).
      { apply (eqvb_trans ltb HO x' x l); auto. rewrite eqvb_sym; auto. }
      assert (Hfil : filter (fun y => negb (eqv y l)) (recs h) = a' ++ b' ++ skipn K (recs h)).
      { rewrite <- Hsp at 1. rewrite filter_app. simpl. rewrite Hx'. simpl. rewrite <- filter_app.
        apply filter_id. intros y Hy. apply negb_true_iff. rewrite among_not in Hnd. specialize (Hnd y Hy).
        rewrite <- (eqvb_cong_r ltb HO x' l y Hx'). exact Hnd. }
      cbn [recs]. rewrite Hfil. destruct K as [|K'] eqn:EK; [lia|]. cbn [firstn].
      constructor; auto.
      rewrite firstn_app, firstn_all2 by lia. apply like_app; auto.
      replace (K' - length a') with (S K' - 1 - length a') by lia. rewrite Hb2. exact Hb'.
    - apply take_None in Ht. rewrite Ht in Ham. symmetry in Ham. cbn [fst recs].
      destruct K as [|K'] eqn:EK; [lia|]. cbn [firstn]. constructor; [apply eqvb_refl; auto|].
      assert (Hfil : firstn K' (filter (fun y => negb (eqv y l)) (recs h)) = firstn K' (recs h)).
      { assert (Ham' : forall y, In y (firstn K' (recs h)) -> eqv y l = false).
        { intros y Hy. rewrite among_not in Ham. apply Ham.
          replace K' with (Nat.min K' (S K')) in Hy by lia. rewrite <- firstn_firstn in Hy.
          rewrite <- (firstn_skipn K' (firstn (S K') (recs h))). apply in_or_app; auto. }
        clear - Ham'. revert Ham'. generalize (recs h). induction K' as [|K' IH]; intros Z Hz; auto.
        destruct Z as [|z Z]; auto. simpl in *. rewrite (Hz z) by auto. simpl. f_equal. apply IH. auto. }
      rewrite Hfil. pose proof (like_length _ _ Hl) as Hlen. rewrite firstn_length in Hlen.
      destruct (Z.ltb_spec (Z.of_nat (length r)) k) as [H|H].
      + rewrite firstn_all2 in Hl by lia. rewrite firstn_all2 by lia. exact Hl.
      + rewrite <- removelast_firstn by lia. apply like_removelast. exact Hl.
  Qed.

  Fixpoint after (k : Z) (r : list L) (ls : list L) : list L :=
    match ls with [] => r | l :: t => after k (fst (use k r l)) t end.
  Lemma after_like k ls : (0 < k)%Z -> forall r h, like r (firstn (Z.to_nat k) (recs h)) ->
    like (after k r ls) (firstn (Z.to_nat k) (recs (rev ls ++ h))).
  Proof.
    intros Hk. induction ls as [|l t IH]; intros r h H; simpl; auto.
    rewrite <- app_assoc. apply IH. apply use_like; auto.
  Qed.
  Lemma uses_nth k pre l post : forall r,
    nth_error (uses k r (pre ++ l :: post)) (length pre) = Some (among l (after k r pre)).
  Proof.
    induction pre as [|x pre IH]; intros r; simpl.
    - rewrite use_hit. reflexivity.
    - apply IH.
  Qed.
  Lemma uses_recent k pre l post b : (0 < k)%Z ->
    nth_error (uses k [] (pre ++ l :: post)) (length pre) = Some b -> b = true <-> recent ltb k pre l.
  Proof.
    intros Hk. rewrite uses_nth. intros [= <-].
    rewrite <- among_firstn_recent by auto.
    assert (H0 : like [] (firstn (Z.to_nat k) (recs []))) by (simpl; rewrite firstn_nil; constructor).
    pose proof (after_like k pre Hk [] [] H0) as H. rewrite app_nil_r in H.
    rewrite (like_among _ _ l H). tauto.
  Qed.
  Lemma recent_mono k k' pre l : (k <= k')%Z -> recent ltb k pre l -> recent ltb k' pre l.
  Proof. intros Hk (a & b & c & H1 & H2 & H3). exists a, b, c. repeat split; auto. lia. Qed.

  Lemma Forall2_nth {A B} (P : A -> B -> Prop) u : forall v, length u = length v ->
    (forall i a b, nth_error u i = Some a -> nth_error v i = Some b -> P a b) -> Forall2 P u v.
  Proof.
    induction u as [|x u IH]; intros [|y v]; simpl; try discriminate; constructor.
    - apply (H0 0); auto.
    - apply IH; auto. intros i a b Ha Hb. apply (H0 (S i)); auto.
  Qed.
  Lemma uses_mono k k' ls : (0 < k <= k')%Z ->
    Forall2 (fun b b' => b = true -> b' = true) (uses k [] ls) (uses k' [] ls).
  Proof.
    intros Hk. apply Forall2_nth; [rewrite !uses_length; auto|].
    intros i a b Ha Hb Ht.
    assert (Hi : i < length ls) by (rewrite <- (uses_length k [] ls); apply nth_error_Some; congruence).
    destruct (nth_error ls i) as [l|] eqn:El; [|apply nth_error_None in El; lia].
    apply nth_error_split in El as (pre & post & -> & <-).
    apply (uses_recent k' pre l post b); [lia|auto|]. apply (recent_mono k); [lia|].
    apply (uses_recent k pre l post a); auto. lia.
  Qed.
  Lemma misses_mono u v : Forall2 (fun b b' => b = true -> b' = true) u v ->
    length (filter negb v) <= length (filter negb u).
  Proof. induction 1 as [|a b u v H1 H2 IH]; auto. destruct a, b; simpl; try lia. Qed.

  (** ** competitiveness *)
  Open Scope Z_scope.
  Fixpoint phi (w : Z) (T r : list L) : Z :=
    match r with [] => 0 | x :: t => (if among x T then 0 else w) + phi (w - 1) T t end.
  Fixpoint outside (T r : list L) : Z :=
    match r with [] => 0 | x :: t => (if among x T then 0 else 1) + outside T t end.
  Lemma phi_shift T r : forall w, phi (w - 1) T r = phi w T r - outside T r.
  Proof. induction r as [|x t IH]; intros w; simpl; [lia|]. rewrite IH. destruct (among _ _); lia. Qed.
  Lemma outside_nonneg T r : 0 <= outside T r.
  Proof. induction r as [|x t IH]; simpl; [lia|]. destruct (among _ _); lia. Qed.
  Lemma phi_app T a b : forall w, phi w T (a ++ b) = phi w T a + phi (w - Z.of_nat (length a)) T b.
  Proof.
    induction a as [|x a IH]; intros w.
    - simpl. f_equal. lia.
    - rewrite <- app_comm_cons. cbn [phi length]. rewrite IH.
      replace (w - 1 - Z.of_nat (length a)) with (w - Z.of_nat (S (length a))) by lia. lia.
  Qed.
  (** weakening T by one label costs at most the largest weight *)
  Lemma phi_sub T T' r : forall w, Z.of_nat (length r) <= w ->
    (forall x, among x T = true -> among x T' = true) -> phi w T' r <= phi w T r.
  Proof.
    induction r as [|x t IH]; intros w Hw Hs; cbn [phi]; [lia|].
    cbn [length] in Hw. specialize (IH (w - 1) ltac:(lia) Hs). pose proof (Hs x) as Hx.
    destruct (among x T), (among x T'); try (specialize (Hx eq_refl); discriminate); lia.
  Qed.
  Lemma phi_drop T T' q r : forall w, nd r -> Z.of_nat (length r) <= w ->
    (forall x, among x T = true -> among x T' = true \/ eqv q x = true) -> phi w T' r <= phi w T r + w.
  Proof.
    induction r as [|x t IH]; intros w Hnd Hw Hs; cbn [phi]; [simpl in Hw; lia|].
    cbn [length] in Hw. destruct Hnd as [Hx Hnd].
    specialize (IH (w - 1) Hnd ltac:(lia) Hs). pose proof (Hs x) as Hxx.
    destruct (among x T) eqn:E1, (among x T') eqn:E2; try lia.
    destruct (Hxx eq_refl) as [?|Hq]; [congruence|].
    assert (Hrest : phi (w - 1) T' t <= phi (w - 1) T t).
    { clear IH Hxx. assert (Hs' : forall y, In y t -> among y T = true -> among y T' = true).
      { intros y Hy Hy1. destruct (Hs y Hy1) as [?|Hq']; auto. exfalso.
        rewrite among_not in Hx. specialize (Hx y Hy).
        assert (eqv y x = true) by (apply (eqvb_trans ltb HO y q x); auto; rewrite eqvb_sym; auto). congruence. }
      assert (Hw' : Z.of_nat (length t) <= w - 1) by lia. revert Hw' Hs'. generalize (w - 1). clear.
      induction t as [|z t IH]; intros w Hw Hs; cbn [phi]; [lia|]. cbn [length] in Hw.
      specialize (IH (w - 1) ltac:(lia) (fun y Hy => Hs y (or_intror Hy))). pose proof (Hs z (or_introl eq_refl)) as Hz.
      destruct (among z T), (among z T'); try (specialize (Hz eq_refl); discriminate); lia. }
    lia.
  Qed.
  (** at most |T| different labels are in T *)
  Lemma outside_bound T : forall r, nd r -> Z.of_nat (length r) - Z.of_nat (length T) <= outside T r.
  Proof.
    induction T as [|q T IH]; intros r Hnd.
    - assert (H : outside [] r = Z.of_nat (length r)).
      { clear. induction r as [|x r IH]; auto. cbn [outside length]. rewrite IH. change (among x []) with false. cbv iota. lia. }
      rewrite H. simpl. lia.
    - specialize (IH r Hnd). cbn [length].
      enough (H : outside T r <= outside (q :: T) r + 1) by lia. clear IH.
      induction r as [|x r IH]; [simpl; lia|]. cbn [outside]. destruct Hnd as [Hx Hnd]. specialize (IH Hnd).
      rewrite among_cons. destruct (eqv q x) eqn:E; cbn [orb]; [|destruct (among x T); lia].
      assert (H : outside T r = outside (q :: T) r).
      { clear IH Hnd. induction r as [|y r IH]; auto. cbn [outside]. rewrite among_cons in *.
        apply orb_false_iff in Hx as [H1 H2]. rewrite IH by auto.
        rewrite (eqvb_cong_l ltb HO q x y E), eqvb_sym, H1. reflexivity. }
      rewrite H. destruct (among x T); lia.
  Qed.
  Lemma outside_bound_without T r l : nd r -> among l r = false -> among l T = true ->
    Z.of_nat (length r) - (Z.of_nat (length T) - 1) <= outside T r.
  Proof.
    intros Hnd Hl HT. apply among_In in HT as (q & Hq & Eq). apply in_split in Hq as (A & B & ->).
    pose proof (outside_bound (A ++ B) r Hnd) as H. rewrite !app_length in *. cbn [length].
    assert (E : outside (A ++ q :: B) r = outside (A ++ B) r).
    { clear H Hnd. induction r as [|x r IH]; auto. cbn [outside].
      rewrite among_cons in Hl. apply orb_false_iff in Hl as [H1 H2]. rewrite IH by auto.
      rewrite !among_app, among_cons, (eqvb_cong_l ltb HO q l x Eq), eqvb_sym, H1. reflexivity. }
    lia.
  Qed.
  Lemma not_all_inside T S l : nd T -> among l T = false -> among l S = true -> (length S <= length T)%nat ->
    exists A q B, T = A ++ q :: B /\ among q S = false.
  Proof.
    intros Hnd Hl HS Hlen. pose proof (outside_bound_without S T l Hnd Hl HS) as H.
    assert (Hp : 0 < outside S T) by lia. clear - Hp. induction T as [|x T IH]; [simpl in Hp; lia|].
    cbn [outside] in Hp. destruct (among x S) eqn:E.
    - destruct (IH Hp) as (A & q & B & -> & Hq). exists (x :: A), q, B. auto.
    - exists [], x, T. auto.
  Qed.

  Lemma use_nd k r l : nd r -> nd (fst (use k r l)).
  Proof.
    intros Hnd. unfold use. destruct (take l r) as [[x q]|] eqn:Ht; cbn [fst].
    - destruct (take_Some _ _ _ _ Ht) as (a & b & -> & -> & _ & _). apply nd_mid in Hnd as [H1 H2]. simpl. auto.
    - apply take_None in Ht.
      assert (H : nd (removelast r) /\ among l (removelast r) = false).
      { destruct r as [|x r] using rev_ind; [simpl; auto|]. rewrite removelast_last.
        clear IHr. split.
        - apply (nd_mid r x []) in Hnd as [Hnd _]. rewrite app_nil_r in Hnd. exact Hnd.
        - rewrite among_app in Ht. apply orb_false_iff in Ht as [Ht _]. exact Ht. }
      destruct (Z.of_nat (length r) <? k); simpl; tauto.
  Qed.
  Lemma use_length k r l : 0 < k -> Z.of_nat (length r) <= k -> Z.of_nat (length (fst (use k r l))) <= k.
  Proof.
    intros Hk Hr. unfold use. destruct (take l r) as [[x q]|] eqn:Ht; cbn [fst length].
    - destruct (take_Some _ _ _ _ Ht) as (a & b & -> & -> & _ & _). rewrite !app_length in *. simpl in *. lia.
    - destruct (Z.ltb_spec (Z.of_nat (length r)) k); [lia|].
      destruct r as [|x r] using rev_ind; [simpl in *; lia|]. rewrite removelast_last.
      rewrite app_length in *. simpl in *. lia.
  Qed.

  (** the cache's move: the drop of the potential pays for a miss once the cache is full *)
  Lemma use_pays k h T r l : 0 < k -> h <= k -> nd r -> Z.of_nat (length r) <= k ->
    Z.of_nat (length T) <= h -> among l T = true ->
    (k - h + 1) * (if snd (use k r l) then 0 else 1) + phi k T (fst (use k r l))
      + (k - h + 1) * (k - Z.of_nat (length (fst (use k r l))))
    <= phi k T r + (k - h + 1) * (k - Z.of_nat (length r)).
  Proof.
    intros Hk Hh Hnd Hr HT Hl. unfold use. destruct (take l r) as [[x q]|] eqn:Ht; cbn [fst snd].
    - destruct (take_Some _ _ _ _ Ht) as (a & b & -> & -> & Hx & _).
      assert (HxT : among x T = true) by (rewrite (among_cong _ _ _ Hx); exact Hl).
      cbn [phi length]. rewrite HxT, !phi_app, !app_length. cbn [phi length]. rewrite HxT.
      rewrite phi_shift. pose proof (outside_nonneg T a).
      replace (k - 1 - Z.of_nat (length a)) with (k - Z.of_nat (length a) - 1) by lia.
      replace (S (length a + length b)) with (length a + S (length b))%nat by lia. lia.
    - apply take_None in Ht. cbn [phi length]. rewrite Hl.
      destruct (Z.ltb_spec (Z.of_nat (length r)) k) as [H|H].
      + rewrite phi_shift. pose proof (outside_nonneg T r). nia.
      + pose proof (outside_bound_without T r l Hnd Ht Hl) as Ho.
        destruct r as [|y r] using rev_ind; [simpl in *; lia|]. clear IHr. rewrite removelast_last.
        pose proof (phi_shift T (r ++ [y]) k) as Hs. rewrite phi_app in Hs.
        rewrite app_length in *. cbn [length phi] in *.
        replace (k - 1 - Z.of_nat (length r)) with 0 in Hs by lia.
        destruct (among y T); nia.
  Qed.

  Definition count_misses (u : list bool) : Z := Z.of_nat (length (filter negb u)).
  Lemma competitive_gen k h ls : 0 < k -> Z.of_nat h <= k -> forall cs s T r,
    strategy ltb h s ls cs -> nd T -> (length T <= h)%nat -> (forall x, among x s = true -> among x T = true) ->
    nd r -> Z.of_nat (length r) <= k ->
    (k - Z.of_nat h + 1) * count_misses (uses k r ls)
    <= k * Z.of_nat (faults ltb s ls cs) + phi k T r + (k - Z.of_nat h + 1) * (k - Z.of_nat (length r)).
  Proof.
    intros Hk Hh. induction ls as [|l t IH]; intros cs s T r Hst HnT HlT Hsub Hnr Hlr.
    - simpl. assert (Hpos : 0 <= phi k T r).
      { revert Hlr. generalize k. clear. induction r as [|x r IH]; intros w Hw; simpl; [lia|].
        simpl in Hw. specialize (IH (w - 1) ltac:(lia)). destruct (among _ _); lia. }
      destruct cs; simpl; unfold count_misses; simpl; nia.
    - destruct cs as [|s' cs]; [destruct Hst|]. destruct Hst as (Hlen & Hin & Hs' & Hst).
      cbn [uses faults].
      assert (Hlazy : exists T', nd T' /\ (length T' <= h)%nat /\ among l T' = true /\
                (forall x, among x s' = true -> among x T' = true) /\
                phi k T' r <= phi k T r + k * (if among l s then 0 else 1)).
      { destruct (among l T) eqn:ElT.
        - exists T. repeat split; auto.
          + intros x Hx. specialize (Hs' x Hx). rewrite among_cons in Hs'. apply orb_prop in Hs' as [E|E]; auto.
            rewrite <- (among_cong l x T E). exact ElT.
          + destruct (among l s); lia.
        - assert (Els : among l s = false).
          { destruct (among l s) eqn:E; auto. rewrite (Hsub l E) in ElT. discriminate. }
          rewrite Els. destruct (Nat.lt_ge_cases (length T) h) as [Hlt|Hge].
          + exists (l :: T). repeat split; auto.
            * apply among_self.
            * intros x Hx. specialize (Hs' x Hx). rewrite among_cons in *. apply orb_prop in Hs' as [->|E]; auto.
              rewrite (Hsub x E). apply orb_true_r.
            * pose proof (phi_sub T (l :: T) r k Hlr) as H.
              enough (phi k (l :: T) r <= phi k T r) by lia. apply H.
              intros x Hx. rewrite among_cons, Hx. apply orb_true_r.
          + destruct (not_all_inside T s' l HnT ElT Hin ltac:(lia)) as (A & q & B & -> & Hq).
            apply nd_mid in HnT as [HnAB HqAB].
            rewrite among_app, among_cons in ElT. apply orb_false_iff in ElT as [EA EqB].
            apply orb_false_iff in EqB as [Eq EB].
            exists (l :: A ++ B). repeat split; auto.
            * rewrite among_app, EA, EB. reflexivity.
            * rewrite app_length in HlT. simpl in *. rewrite app_length. lia.
            * apply among_self.
            * intros x Hx. pose proof (Hs' x Hx) as H. rewrite among_cons in *. apply orb_prop in H as [->|E]; auto.
              specialize (Hsub x E). rewrite among_app, among_cons in Hsub. rewrite among_app.
              destruct (among x A), (among x B), (eqv q x) eqn:Eqx; simpl in *; auto using orb_true_r; try discriminate.
              rewrite (among_cong q x s' Eqx) in Hq. congruence.
            * pose proof (phi_drop (A ++ q :: B) (l :: A ++ B) q r k Hnr Hlr) as H.
              enough (phi k (l :: A ++ B) r <= phi k (A ++ q :: B) r + k) by lia. apply H.
              intros x Hx. rewrite among_app, among_cons in Hx. rewrite among_cons, among_app.
              destruct (among x A), (among x B), (eqv q x); simpl in *; auto using orb_true_r. }
      destruct Hlazy as (T' & H1 & H2 & H3 & H4 & H5).
      pose proof (use_pays k (Z.of_nat h) T' r l Hk Hh Hnr Hlr ltac:(lia) H3) as Hpay.
      specialize (IH cs s' T' (fst (use k r l)) Hst H1 H2 H4 (use_nd k r l Hnr) (use_length k r l Hk Hlr)).
      assert (Hc : count_misses (snd (use k r l) :: uses k (fst (use k r l)) t) =
                   (if snd (use k r l) then 0 else 1) + count_misses (uses k (fst (use k r l)) t)).
      { unfold count_misses. cbn [filter]. destruct (snd (use k r l)); cbn [negb length]; lia. }
      rewrite Hc. destruct (among l s); nia.
  Qed.

  (** ** the statements *)
  Context (f : L -> V) (Hf : forall a b, eqv a b = true -> f a = f b).
  Lemma memo m ls : 0 < m < 2 ^ 64 -> option_map (map snd) (answers ltb f m ls) = Some (map f ls).
  Proof.
    intros Hm. rewrite (answers_eq f Hf m ls Hm). simpl. rewrite map_snd_combine; auto.
    rewrite uses_length, map_length. reflexivity.
  Qed.
  Lemma hits_recent m pre l post h b : 0 < m < 2 ^ 64 -> hits ltb f m (pre ++ l :: post) = Some h ->
    nth_error h (length pre) = Some b -> b = true <-> recent ltb m pre l.
  Proof. intros Hm. rewrite (hits_eq f Hf m _ Hm). intros [= <-]. apply uses_recent. lia. Qed.
  Lemma hits_total m ls : 0 < m < 2 ^ 64 -> exists h, hits ltb f m ls = Some h /\ length h = length ls.
  Proof. intros Hm. rewrite (hits_eq f Hf m _ Hm). eexists. split; [reflexivity|]. apply uses_length. Qed.
  Lemma larger m m' ls : 0 < m <= m' -> m' < 2 ^ 64 ->
    exists h h' n n', hits ltb f m ls = Some h /\ hits ltb f m' ls = Some h' /\
      misses ltb f m ls = Some n /\ misses ltb f m' ls = Some n' /\
      Forall2 (fun b b' => b = true -> b' = true) h h' /\ (n' <= n)%nat.
  Proof.
    intros Hm Hm'. unfold misses. rewrite !(hits_eq f Hf) by lia. simpl.
    do 4 eexists. repeat split; try reflexivity; [apply uses_mono; lia|]. apply misses_mono, uses_mono. lia.
  Qed.
  Lemma competitive m h ls cs : 0 < m < 2 ^ 64 -> Z.of_nat h <= m -> strategy ltb h [] ls cs ->
    exists n, misses ltb f m ls = Some n /\
      (m - Z.of_nat h + 1) * Z.of_nat n <= m * Z.of_nat (faults ltb [] ls cs) + (m - Z.of_nat h + 1) * m.
  Proof.
    intros Hm Hh Hst. unfold misses. rewrite (hits_eq f Hf m _ Hm). simpl. eexists. split; [reflexivity|].
    assert (H0 : 0 < m) by lia. assert (H1 : (length (@nil L) <= h)%nat) by (simpl; lia).
    assert (H2 : Z.of_nat (length (@nil L)) <= m) by (simpl; lia).
    pose proof (competitive_gen m h ls H0 Hh cs [] [] [] Hst I H1 (fun _ H => H) I H2) as H.
    unfold count_misses in H. cbn [phi length] in H. change (Z.of_nat 0) with 0 in H.
    rewrite Z.sub_0_r in H. lia.
  Qed.
End LruPerf.
