(** LruRecProofs.v -- lemmas for LruRecProps.v: the size of a terminating computation, and the invariant
    of the cache while the computations are nested. *)
From Verif Require Import Base StdOrd LruModel LruSpec LruProofs LruPerfSpec LruRecSpec.

Section LruRec.
  Context {L V : Type} (ltb : L -> L -> bool) (HO : SWO ltb).
  Context (F : L -> body L V) (HF : forall a b, eqvb ltb a b = true -> F a = F b).
  Notation eqv := (eqvb ltb).

  (** ** sizes *)
  Inductive yieldsN : nat -> body L V -> outcome V -> Prop :=
  | yn_finish : forall o, yieldsN 0 (Finish o) o
  | yn_call : forall a b l k o' o, yieldsN a (F l) o' -> yieldsN b (k o') o -> yieldsN (S (a + b)) (Call l k) o.
  Lemma yieldsN_fun n b o : yieldsN n b o -> forall n' o', yieldsN n' b o' -> n = n' /\ o = o'.
  Proof.
    induction 1 as [o|a b l k o' o H1 IH1 H2 IH2]; intros n1 o1 H; inversion H as [|a1 b1 l1 k1 o2 o3 H3 H4]; subst; auto.
    destruct (IH1 _ _ H3) as [-> <-]. destruct (IH2 _ _ H4) as [-> <-]. auto.
  Qed.
  Lemma yields_N b o : yields F b o <-> exists n, yieldsN n b o.
  Proof.
    split.
    - induction 1 as [o|l k o' o _ [a H1] _ [b H2]]; [exists 0; constructor|].
      exists (S (a + b)). econstructor; eauto.
    - intros [n H]. induction H; econstructor; eauto.
  Qed.

  (** ** lists of labels *)
  Lemma among_In (l : L) s : among ltb l s = true <-> exists x, In x s /\ eqv x l = true.
  Proof. unfold among. apply existsb_exists. Qed.
  Lemma different_all s : all_different ltb s -> different ltb s = length s.
  Proof.
    induction s as [|x t IH]; simpl; auto. intros [H1 H2]. rewrite IH; auto.
    destruct (among ltb x t) eqn:E; auto.
    apply among_In in E as (y & Hy & E). rewrite Forall_forall in H1.
    specialize (H1 y Hy). rewrite eqvb_sym in E. congruence.
  Qed.
  Lemma different_prefix s x : different ltb s <= different ltb (s ++ [x]).
  Proof.
    induction s as [|y t IH]; simpl; [lia|].
    destruct (among ltb y t) eqn:E.
    - assert (among ltb y (t ++ [x]) = true) as ->; [|exact IH].
      unfold among in *. rewrite existsb_app, E. reflexivity.
    - destruct (among ltb y (t ++ [x])) eqn:E'; [|lia].
      (* y is x: then x counts in t ++ [x], but not in t *)
      assert (Hx : eqv x y = true).
      { unfold among in *. rewrite existsb_app, E in E'. simpl in E'. rewrite orb_false_r in E'. exact E'. }
      clear IH E'. revert E. induction t as [|z t IH]; simpl; intros E; [lia|].
      apply orb_false_iff in E as [E1 E2]. specialize (IH E2).
      assert (Ez : among ltb z (t ++ [x]) = among ltb z t).
      { unfold among. rewrite existsb_app. simpl. rewrite orb_false_r.
        assert (eqv x z = false) as ->; [|apply orb_false_r].
        destruct (eqv x z) eqn:Exz; auto. rewrite eqvb_sym in Exz.
        rewrite (eqvb_trans ltb HO z x y Exz Hx) in E1. discriminate. }
      rewrite Ez. destruct (among ltb z t); lia.
  Qed.
  Lemma all_different_snoc s x : all_different ltb s -> among ltb x s = false -> all_different ltb (s ++ [x]).
  Proof.
    induction s as [|y t IH]; simpl; intros H E; auto.
    destruct H as [H1 H2]. apply orb_false_iff in E as [E1 E2]. split; auto.
    apply Forall_app. auto.
  Qed.
  Lemma all_different_prefix s x : all_different ltb (s ++ [x]) -> all_different ltb s.
  Proof.
    induction s as [|y t IH]; simpl; auto. intros [H1 H2]. apply Forall_app in H1 as [H1 _]. auto.
  Qed.
  Lemma valued_app (a b : list (L * outcome V)) : valued (a ++ b) = valued a ++ valued b.
  Proof. unfold valued. apply flat_map_app. Qed.

  (** ** the invariant *)
  Definition held (x : L) (s : rlist L V) : Prop := exists y, In y (r_items s) /\ eqv (fst y) x = true.
  Record J (s : rlist L V) (log : list (L * outcome V)) : Prop := {
    j_cap : (0 < r_cap s)%Z;
    j_sound : forall y, In y (r_items s) -> yields F (F (fst y)) (OVal (snd y));
    j_log : Forall (fun e => yields F (F (fst e)) (snd e)) log;
    j_small : length (r_items s) <= length (valued log);
    j_kept : all_different ltb (valued log) -> (Z.of_nat (length (valued log)) <= r_cap s)%Z ->
             forall x, In x (valued log) -> held x s;
    j_once : (Z.of_nat (different ltb (valued log)) <= r_cap s)%Z -> all_different ltb (valued log) }.

  Lemma held_take x s : held x s <-> take_label ltb x (r_items s) <> None.
  Proof.
    split.
    - intros (y & Hy & E) H. rewrite (take_label_None ltb) in H. rewrite (H y Hy) in E. discriminate.
    - intros H. destruct (take_label ltb x (r_items s)) as [[[i y] rest]|] eqn:E; [|congruence].
      destruct (take_label_Some ltb _ _ _ _ _ E) as (l1 & l2 & Hi & _ & _ & Hy).
      exists y. split; auto. rewrite Hi. apply in_or_app. simpl. auto.
  Qed.
  Lemma held_eqv a b s : eqv a b = true -> held a s -> held b s.
  Proof. intros E (y & Hy & Ha). exists y. split; auto. apply eqvb_trans with (b := a); auto. Qed.

  (** what a computation of size n may have added *)
  Definition added (bound : nat -> Prop) (s s' : rlist L V) : Prop :=
    forall x, In x (r_items s') -> held (fst x) s \/ exists k o, bound k /\ yieldsN k (F (fst x)) o.

  Definition call_good (call : L -> cache L V -> list (L * outcome V) -> answer L V) : Prop :=
    forall l c s log, R ltb c s -> J s log ->
    match call l c log with
    | Got o c' log' =>
        exists s' n, R ltb c' s' /\ J s' log' /\ r_cap s' = r_cap s /\ yieldsN n (F l) o /\ added (fun k => k <= n) s s'
    | Spent => True
    | Broken => False
    end.

  Lemma in_held x s : In x (r_items s) -> held (fst x) s.
  Proof. intros H. exists x. split; auto. apply eqvb_refl; auto. Qed.

  Lemma perform_good call : call_good call ->
    forall b c s log, R ltb c s -> J s log ->
    match perform call b c log with
    | Got o c' log' =>
        exists s' n, R ltb c' s' /\ J s' log' /\ r_cap s' = r_cap s /\ yieldsN n b o /\ added (fun k => k < n) s s'
    | Spent => True
    | Broken => False
    end.
  Proof.
    intros HC. induction b as [o|l k IH]; intros c s log HR HJ; simpl.
    - exists s, 0. repeat split; auto; try apply HR; try apply HJ; [constructor|].
      intros x Hx. left. apply in_held; auto.
    - specialize (HC l c s log HR HJ). destruct (call l c log) as [o c1 log1| |]; auto.
      destruct HC as (s1 & n1 & HR1 & HJ1 & Hcap1 & Hy1 & Ha1).
      specialize (IH o c1 s1 log1 HR1 HJ1). destruct (perform call (k o) c1 log1) as [o2 c2 log2| |]; auto.
      destruct IH as (s2 & n2 & HR2 & HJ2 & Hcap2 & Hy2 & Ha2).
      exists s2, (S (n1 + n2)). repeat split; auto; try apply HR2; try apply HJ2; [congruence|econstructor; eauto|].
      intros x Hx. destruct (Ha2 x Hx) as [(y & Hy & E)|(m & o' & Hm & Hy)].
      + destruct (Ha1 y Hy) as [Hs|(m & o' & Hm & Hym)].
        * left. apply held_eqv with (a := fst y); auto.
        * right. exists m, o'. split; [lia|]. rewrite <- (HF _ _ E). exact Hym.
      + right. exists m, o'. split; [lia|exact Hy].
  Qed.

  Lemma J_same s s' log : r_cap s' = r_cap s -> length (r_items s') = length (r_items s) ->
    (forall y, In y (r_items s') <-> In y (r_items s)) -> J s log -> J s' log.
  Proof.
    intros Hc Hl Hi HJ. constructor.
    - rewrite Hc. apply HJ.
    - intros y Hy. apply (j_sound _ _ HJ). apply Hi; auto.
    - apply HJ.
    - rewrite Hl. apply HJ.
    - intros H1 H2 x Hx. rewrite Hc in H2. destruct (j_kept _ _ HJ H1 H2 x Hx) as (y & Hy & E).
      exists y. split; auto. apply Hi; auto.
    - rewrite Hc. apply HJ.
  Qed.
  Lemma In_removelast {A} (x : A) l : In x (removelast l) -> In x l.
  Proof.
    induction l as [|y t IH]; auto. destruct t as [|z t].
    - intros [].
    - intros [->|H]; [left; auto|right; apply IH; exact H].
  Qed.
  Lemma removelast_length {A} (l : list A) : length (removelast l) <= length l.
  Proof. induction l as [|y t IH]; auto. destruct t; simpl in *; lia. Qed.

  Lemma J_put s log l v : J s log -> take_label ltb l (r_items s) = None -> yields F (F l) (OVal v) ->
    J (fst (spec_step ltb s (OPut l v))) (log ++ [(l, OVal v)]).
  Proof.
    intros HJ Ht Hy. simpl. rewrite Ht. simpl.
    set (kept := if (Z.of_nat (length (r_items s)) <? r_cap s)%Z then r_items s else removelast (r_items s)).
    assert (Hsub : forall y, In y kept -> In y (r_items s)).
    { intros y. unfold kept. destruct (_ <? _)%Z; auto. apply In_removelast. }
    assert (Hlen : length kept <= length (r_items s)).
    { unfold kept. destruct (_ <? _)%Z; auto. apply removelast_length. }
    assert (Hv : valued (log ++ [(l, OVal v)]) = valued log ++ [l]) by (rewrite valued_app; reflexivity).
    assert (Hnew : all_different ltb (valued log) -> (Z.of_nat (length (valued log)) <= r_cap s)%Z ->
                   among ltb l (valued log) = false).
    { intros H1 H2. destruct (among ltb l (valued log)) eqn:E; auto. exfalso.
      apply among_In in E as (x & Hx & E). pose proof (j_kept _ _ HJ H1 H2 x Hx) as Hh.
      apply (held_eqv _ _ _ E) in Hh. apply held_take in Hh. contradiction. }
    constructor; cbn [r_cap r_items].
    - apply HJ.
    - intros y [<-|Hin]; auto. apply (j_sound _ _ HJ). auto.
    - apply Forall_app. split; [apply HJ|]. constructor; auto.
    - rewrite Hv, app_length. simpl. pose proof (j_small _ _ HJ). lia.
    - rewrite Hv, app_length. simpl. intros H1 H2 x Hx.
      assert (H3 : (Z.of_nat (length (r_items s)) < r_cap s)%Z) by (pose proof (j_small _ _ HJ); lia).
      unfold kept. apply Z.ltb_lt in H3. rewrite H3.
      apply in_app_iff in Hx as [Hx|[<-|[]]].
      + destruct (j_kept _ _ HJ (all_different_prefix _ _ H1) ltac:(lia) x Hx) as (y & Hyi & E).
        exists y. split; auto. right. exact Hyi.
      + exists (l, v). split; [left; auto|]. apply eqvb_refl; auto.
    - rewrite Hv. intros H1. pose proof (different_prefix (valued log) l) as Hp.
      assert (H2 : all_different ltb (valued log)) by (apply HJ; lia).
      apply all_different_snoc; auto. apply Hnew; auto.
      rewrite (different_all _ H2) in Hp. lia.
  Qed.

  Lemma J_fail s log l e : J s log -> yields F (F l) (OExc e) -> J s (log ++ [(l, OExc e)]).
  Proof.
    intros HJ Hy. assert (Hv : valued (log ++ [(l, @OExc V e)]) = valued log).
    { rewrite valued_app. apply app_nil_r. }
    constructor; rewrite ?Hv; try apply HJ. apply Forall_app. split; [apply HJ|]. constructor; auto.
  Qed.

  Lemma step_has (c : cache L V) s l : R ltb c s ->
    exists c', step ltb c (OHas l) = (Some c', RBool (if take_label ltb l (r_items s) then true else false)) /\ R ltb c' s.
  Proof. intros HR. destruct (step_refines ltb HO c s (OHas l) HR) as (c' & H1 & H2). exists c'. split; assumption. Qed.

  Lemma compute_good fuel : call_good (compute ltb F fuel).
  Proof.
    induction fuel as [|n IH]; intros l c s log HR HJ; cbn [compute]; auto.
    destruct (step_has c s l HR) as (c1 & -> & HR1).
    destruct (take_label ltb l (r_items s)) as [[[i y] rest]|] eqn:Ht.
    - destruct (step_refines ltb HO c1 s (OGet l) HR1) as (c2 & -> & HR2).
      cbn [spec_step] in *. rewrite Ht in *. cbn [fst snd] in *.
      destruct (take_label_Some ltb _ _ _ _ _ Ht) as (l1 & l2 & Hi & Hr & _ & Hy).
      assert (Hin : forall z, In z (y :: rest) <-> In z (r_items s)).
      { intros z. rewrite Hi, Hr. simpl. rewrite !in_app_iff. simpl. tauto. }
      destruct (proj1 (yields_N _ _) (j_sound _ _ HJ y (proj1 (Hin y) (or_introl eq_refl)))) as (m & Hm).
      exists (mkRlist (r_cap s) (y :: rest)), m. split; [exact HR2|]. split; [|split; [auto|split]].
      + apply (J_same s); auto. simpl. rewrite Hi, Hr. rewrite !app_length. simpl. lia.
      + rewrite <- (HF _ _ Hy). exact Hm.
      + intros x Hx. left. apply in_held. apply Hin; auto.
    - pose proof (perform_good _ IH (F l) c1 s log HR1 HJ) as HP.
      destruct (perform (compute ltb F n) (F l) c1 log) as [o c2 log2| |]; auto.
      destruct HP as (s2 & k & HR2 & HJ2 & Hcap & Hy & Ha).
      destruct o as [v|e].
      + assert (Ht2 : take_label ltb l (r_items s2) = None).
        { destruct (take_label ltb l (r_items s2)) as [[[i y] rest]|] eqn:Ht2; auto. exfalso.
          destruct (take_label_Some ltb _ _ _ _ _ Ht2) as (l1 & l2 & Hi & _ & _ & E).
          destruct (Ha y) as [Hh|(j & o' & Hj & Hyj)].
          - rewrite Hi. apply in_or_app. simpl. auto.
          - apply (held_eqv _ _ _ E) in Hh. apply held_take in Hh. contradiction.
          - rewrite (HF _ _ E) in Hyj. destruct (yieldsN_fun _ _ _ Hy _ _ Hyj). lia. }
        destruct (step_refines ltb HO c2 s2 (OPut l v) HR2) as (c3 & -> & HR3).
        assert (Hyl : yields F (F l) (OVal v)) by (apply yields_N; eauto).
        pose proof (J_put s2 log2 l v HJ2 Ht2 Hyl) as HJ3.
        cbn [spec_step] in *. rewrite Ht2 in *. cbn [fst snd] in *.
        eexists. exists k. split; [exact HR3|]. split; [exact HJ3|]. split; [exact Hcap|]. split; [exact Hy|].
        intros x [<-|Hx].
        * right. exists k, (OVal v). split; auto.
        * assert (Hx2 : In x (r_items s2)).
          { destruct (_ <? _)%Z; auto. apply In_removelast; auto. }
          destruct (Ha x Hx2) as [Hh|(j & o' & Hj & Hyj)]; auto. right. exists j, o'. split; [lia|auto].
      + exists s2, k. split; [exact HR2|]. split; [|split; [exact Hcap|split; [exact Hy|]]].
        * apply J_fail; auto. apply yields_N; eauto.
        * intros x Hx. destruct (Ha x Hx) as [Hh|(j & o' & Hj & Hyj)]; auto. right. exists j, o'. split; [lia|auto].
  Qed.

  Lemma perform_not_spent fuel : forall n b o c s log, yieldsN n b o -> n <= fuel -> R ltb c s -> J s log ->
    perform (compute ltb F fuel) b c log <> @Spent L V.
  Proof.
    induction fuel as [|f IHf]; intros n b o c s log Hy.
    - intros Hn. assert (n = 0) by lia. subst n. inversion Hy; subst. simpl. discriminate.
    - revert c s log. induction Hy as [o|a b l k o' o Hy1 _ Hy2 IH2]; intros c s log Hn HR HJ; cbn [perform]; [discriminate|].
      pose proof (compute_good (S f) l c s log HR HJ) as HG.
      assert (Hns : compute ltb F (S f) l c log <> @Spent L V).
      { cbn [compute]. destruct (step_has c s l HR) as (c1 & -> & HR1).
        destruct (take_label ltb l (r_items s)) as [[[i y] rest]|] eqn:Ht.
        - destruct (step_refines ltb HO c1 s (OGet l) HR1) as (c2 & -> & HR2).
          cbn [spec_step]. rewrite Ht. simpl. discriminate.
        - pose proof (IHf a (F l) o' c1 s log Hy1 ltac:(lia) HR1 HJ) as HP.
          destruct (perform (compute ltb F f) (F l) c1 log) as [[v|e] c2 log2| |]; try discriminate; [|congruence].
          destruct (step ltb c2 (OPut l v)) as [[c3|] []]; discriminate. }
      destruct (compute ltb F (S f) l c log) as [o1 c1 log1| |]; [|congruence|contradiction].
      destruct HG as (s1 & n1 & HR1 & HJ1 & _ & Hy & _).
      destruct (yieldsN_fun _ _ _ Hy1 _ _ Hy) as [_ <-]. apply (IH2 c1 s1 log1); auto. lia.
  Qed.
  Lemma compute_not_spent fuel n l o c s log : yieldsN n (F l) o -> n < fuel -> R ltb c s -> J s log ->
    compute ltb F fuel l c log <> @Spent L V.
  Proof.
    intros Hy Hn HR HJ. destruct fuel as [|f]; [lia|].
    assert (HS : yieldsN (S (n + 0)) (Call l (fun o => Finish o)) o) by (econstructor; [eauto|constructor]).
    pose proof (perform_not_spent (S f) _ _ _ c s log HS ltac:(lia) HR HJ) as HP.
    cbn [perform] in HP. intros E. rewrite E in HP. congruence.
  Qed.

  (** ** sessions *)
  Lemma ask_all_good fuel : forall ls done c s log os, R ltb c s -> J s log ->
    Forall2 (fun l o => yields F (F l) o) done os ->
    match ask_all ltb F fuel ls c log os with
    | Session os' log' =>
        Forall2 (fun l o => yields F (F l) o) (done ++ ls) os' /\ exists s', r_cap s' = r_cap s /\ J s' log'
    | SSpent => True
    | SBroken => False
    end.
  Proof.
    induction ls as [|l t IH]; intros dn c s log os HR HJ Hd; simpl.
    - rewrite app_nil_r. split; auto. exists s. split; auto.
    - pose proof (compute_good fuel l c s log HR HJ) as HG.
      destruct (compute ltb F fuel l c log) as [o c1 log1| |]; auto.
      destruct HG as (s1 & n & HR1 & HJ1 & Hc & Hy & _).
      assert (Hd1 : Forall2 (fun l o => yields F (F l) o) (dn ++ [l]) (os ++ [o])).
      { apply Forall2_app; auto. constructor; auto. apply yields_N; eauto. }
      specialize (IH (dn ++ [l]) c1 s1 log1 (os ++ [o]) HR1 HJ1 Hd1). rewrite <- app_assoc in IH. simpl in IH.
      destruct (ask_all ltb F fuel t c1 log1 (os ++ [o])); auto.
      destruct IH as (H1 & s' & Hc' & HJ'). split; auto. exists s'. split; auto. congruence.
  Qed.
  Lemma J_new m : (0 < m)%Z -> J (mkRlist m []) [].
  Proof.
    intros Hm. constructor; simpl; auto.
    - intros y [].
    - intros _ _ x [].
  Qed.
  Lemma requests_new fuel m ls : (0 < m < 2 ^ 64)%Z ->
    exists c, requests ltb F fuel m ls = ask_all ltb F fuel ls c [] [] /\ R ltb c (mkRlist m []).
  Proof.
    intros Hm. unfold requests, lru_new. destruct (0 <? m)%Z eqn:E; [|apply Z.ltb_ge in E; lia].
    eexists. split; [reflexivity|]. apply R_new; auto.
  Qed.

  Lemma never_wrong fuel m ls : (0 < m < 2 ^ 64)%Z ->
    match requests ltb F fuel m ls with
    | Session os log =>
        Forall2 (fun l o => yields F (F l) o) ls os /\ Forall (fun e => yields F (F (fst e)) (snd e)) log
    | SSpent => True
    | SBroken => False
    end.
  Proof.
    intros Hm. destruct (requests_new fuel m ls Hm) as (c & -> & HR).
    pose proof (ask_all_good fuel ls [] c _ [] [] HR (J_new m ltac:(lia)) (Forall2_nil _)) as H.
    destruct (ask_all ltb F fuel ls c [] []); auto. destruct H as (H1 & s' & _ & HJ). split; auto. apply HJ.
  Qed.
  Lemma evaluates_once fuel m ls os log : (0 < m < 2 ^ 64)%Z ->
    requests ltb F fuel m ls = Session os log ->
    (Z.of_nat (different ltb (valued log)) <= m)%Z -> all_different ltb (valued log).
  Proof.
    intros Hm E. destruct (requests_new fuel m ls Hm) as (c & E' & HR). rewrite E' in E.
    pose proof (ask_all_good fuel ls [] c _ [] [] HR (J_new m ltac:(lia)) (Forall2_nil _)) as H.
    rewrite E in H. destruct H as (_ & s' & Hc & HJ). intros Hd. apply (j_once _ _ HJ). rewrite Hc. exact Hd.
  Qed.

  Lemma yields_fun b o o' : yields F b o -> yields F b o' -> o = o'.
  Proof.
    intros H1 H2. apply yields_N in H1 as (n & H1). apply yields_N in H2 as (n' & H2).
    apply (yieldsN_fun _ _ _ H1 _ _ H2).
  Qed.
  Lemma ask_all_ends ls os : Forall2 (fun l o => yields F (F l) o) ls os ->
    exists fuel0, forall fuel, fuel0 <= fuel -> forall c s log os0, R ltb c s -> J s log ->
    exists log', ask_all ltb F fuel ls c log os0 = Session (os0 ++ os) log'.
  Proof.
    induction 1 as [|l o ls os Hy _ (f0 & IH)].
    - exists 0. intros fuel _ c s log os0 _ _. exists log. simpl. rewrite app_nil_r. reflexivity.
    - destruct (proj1 (yields_N _ _) Hy) as (n & Hn). exists (Nat.max (S n) f0).
      intros fuel Hf c s log os0 HR HJ. simpl.
      pose proof (compute_good fuel l c s log HR HJ) as HG.
      pose proof (compute_not_spent fuel n l o c s log Hn ltac:(lia) HR HJ) as HS.
      destruct (compute ltb F fuel l c log) as [o1 c1 log1| |]; [|congruence|contradiction].
      destruct HG as (s1 & n1 & HR1 & HJ1 & _ & Hy1 & _).
      destruct (yieldsN_fun _ _ _ Hn _ _ Hy1) as [_ <-].
      destruct (IH fuel ltac:(lia) c1 s1 log1 (os0 ++ [o]) HR1 HJ1) as (log' & ->).
      exists log'. rewrite <- app_assoc. reflexivity.
  Qed.
  Lemma ends m ls os : (0 < m < 2 ^ 64)%Z -> Forall2 (fun l o => yields F (F l) o) ls os ->
    exists fuel0, forall fuel, fuel0 <= fuel -> exists log, requests ltb F fuel m ls = Session os log.
  Proof.
    intros Hm H. destruct (ask_all_ends ls os H) as (f0 & Hf). exists f0. intros fuel Hle.
    destruct (requests_new fuel m ls Hm) as (c & -> & HR).
    destruct (Hf fuel Hle c _ [] [] HR (J_new m ltac:(lia))) as (log & E). exists log. exact E.
  Qed.
End LruRec.
