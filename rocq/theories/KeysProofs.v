(** KeysProofs.v -- lemmas about KeysModel, and words as keys. *)
From Verif Require Import Base StdOrd SetModel SetSpec SetProofs MapModel MapSpec MapProofs StreamModel WordModel WordSpec WordProofs KeysModel KeysSpec.

Section Lex.
  Context {T : Type} (ltb : T -> T -> bool) (H : SWO ltb).
  Lemma list_eqv (l1 : list T) : forall l2, eqvb (list_ltb ltb) l1 l2 = true <-> same_elements ltb l1 l2.
  Proof.
    induction l1 as [|a l1 IH]; intros [|b l2]; unfold eqvb; simpl.
    - split; [constructor|reflexivity].
    - split; [discriminate|intros X; inversion X].
    - split; [discriminate|intros X; inversion X].
    - specialize (IH l2). unfold eqvb in IH. destruct (ltb a b) eqn:E1; simpl.
      { split; [discriminate|]. intros X. inversion X as [|? ? ? ? Y _]; subst. unfold eqvb in Y. rewrite E1 in Y. discriminate. }
      destruct (ltb b a) eqn:E2; simpl.
      { split; [discriminate|]. intros X. inversion X as [|? ? ? ? Y _]; subst. unfold eqvb in Y. rewrite E1, E2 in Y. discriminate. }
      rewrite IH. split; intros X.
      + constructor; [unfold eqvb; rewrite E1, E2; reflexivity|exact X].
      + inversion X; subst. assumption.
  Qed.
  Lemma lt_eqv_l a b c : eqvb ltb a b = true -> ltb a c = ltb b c.
  Proof.
    intros He. destruct (ltb a c) eqn:E1, (ltb b c) eqn:E2; auto.
    - assert (X : eqvb ltb b c = true -> False) by (intros X; pose proof (swo_eqv_trans _ H a b c He X) as Y; unfold eqvb in Y; rewrite E1 in Y; discriminate).
      destruct (ltb c b) eqn:E3; [|exfalso; apply X; unfold eqvb; rewrite E2, E3; reflexivity].
      pose proof (swo_trans _ H a c b E1 E3) as Y. unfold eqvb in He. rewrite Y in He. discriminate.
    - assert (X : eqvb ltb a c = true -> False).
      { intros X. rewrite (eqvb_sym ltb) in He. pose proof (swo_eqv_trans _ H b a c He X) as Y. unfold eqvb in Y. rewrite E2 in Y. discriminate. }
      destruct (ltb c a) eqn:E3; [|exfalso; apply X; unfold eqvb; rewrite E1, E3; reflexivity].
      pose proof (swo_trans _ H b c a E2 E3) as Y. unfold eqvb in He. rewrite Y, andb_false_r in He. discriminate.
  Qed.
  Lemma lt_eqv_r a b c : eqvb ltb a b = true -> ltb c a = ltb c b.
  Proof.
    intros He. destruct (ltb c a) eqn:E1, (ltb c b) eqn:E2; auto.
    - destruct (ltb b c) eqn:E3.
      + pose proof (swo_trans _ H b c a E3 E1) as Y. unfold eqvb in He. rewrite Y, andb_false_r in He. discriminate.
      + assert (X : eqvb ltb b c = true) by (unfold eqvb; rewrite E2, E3; reflexivity).
        pose proof (swo_eqv_trans _ H a b c He X) as Y. unfold eqvb in Y. rewrite E1, andb_false_r in Y. discriminate.
    - destruct (ltb a c) eqn:E3.
      + pose proof (swo_trans _ H a c b E3 E2) as Y. unfold eqvb in He. rewrite Y in He. discriminate.
      + assert (X : eqvb ltb a c = true) by (unfold eqvb; rewrite E1, E3; reflexivity). rewrite (eqvb_sym ltb) in He.
        pose proof (swo_eqv_trans _ H b a c He X) as Y. unfold eqvb in Y. rewrite E2, andb_false_r in Y. discriminate.
  Qed.
  Lemma lt_asym a b : ltb a b = true -> ltb b a = false.
  Proof. intros X. destruct (ltb b a) eqn:E; auto. pose proof (swo_trans _ H a b a X E) as Y. rewrite (swo_irrefl _ H) in Y. discriminate. Qed.
  Lemma list_trans (l1 : list T) : forall l2 l3, list_ltb ltb l1 l2 = true -> list_ltb ltb l2 l3 = true -> list_ltb ltb l1 l3 = true.
  Proof.
    induction l1 as [|a l1 IH]; intros [|b l2] [|c l3]; simpl; try congruence.
    destruct (ltb a b) eqn:Eab.
    - destruct (ltb b c) eqn:Ebc.
      + rewrite (swo_trans _ H a b c Eab Ebc). reflexivity.
      + destruct (ltb c b) eqn:Ecb; [discriminate|]. intros _ _. rewrite (lt_eqv_r b c a) in Eab by (unfold eqvb; rewrite Ebc, Ecb; reflexivity). rewrite Eab. reflexivity.
    - destruct (ltb b a) eqn:Eba; [discriminate|]. assert (He : eqvb ltb a b = true) by (unfold eqvb; rewrite Eab, Eba; reflexivity).
      rewrite (lt_eqv_l a b c He), (lt_eqv_r a b c He). destruct (ltb b c) eqn:Ebc; [reflexivity|]. destruct (ltb c b) eqn:Ecb; [discriminate|]. apply IH.
  Qed.
  Lemma same_trans (l1 : list T) : forall l2 l3, same_elements ltb l1 l2 -> same_elements ltb l2 l3 -> same_elements ltb l1 l3.
  Proof.
    induction l1 as [|a l1 IH]; intros l2 l3 H1 H2; inversion H1; subst; inversion H2; subst; constructor; [|eapply IH; eassumption].
    eapply (swo_eqv_trans _ H); eassumption.
  Qed.
  Lemma list_swo : SWO (list_ltb ltb).
  Proof.
    constructor.
    - induction a as [|a l IH]; simpl; [reflexivity|]. rewrite (swo_irrefl _ H). exact IH.
    - exact list_trans.
    - intros a b c. rewrite !list_eqv. apply same_trans.
  Qed.
  Lemma list_before (l1 : list T) : forall l2, list_ltb ltb l1 l2 = true <-> lex_before ltb l1 l2.
  Proof.
    induction l1 as [|a l1 IH]; intros [|b l2]; simpl.
    - split; [discriminate|]. intros (p & q & r1 & r2 & E1 & E2 & Hs & Hr). destruct q; [|discriminate]. simpl in E2. subst r2. destruct r1; contradiction.
    - split; [|reflexivity]. intros _. exists [], [], [], (b :: l2). repeat split. constructor.
    - split; [discriminate|]. intros (p & q & r1 & r2 & E1 & E2 & Hs & Hr). destruct q; [|discriminate]. simpl in E2. subst r2. destruct r1; contradiction.
    - destruct (ltb a b) eqn:Eab.
      + split; [|reflexivity]. intros _. exists [], [], (a :: l1), (b :: l2). repeat split; [constructor|exact Eab].
      + destruct (ltb b a) eqn:Eba.
        * split; [discriminate|]. intros (p & q & r1 & r2 & E1 & E2 & Hs & Hr). inversion Hs as [|x y p' q' Hxy Hpq]; subst; simpl in E1, E2.
          -- subst r1 r2. congruence.
          -- injection E1 as <- _. injection E2 as <- _. unfold eqvb in Hxy. rewrite Eba, andb_false_r in Hxy. discriminate.
        * rewrite IH. assert (He : eqvb ltb a b = true) by (unfold eqvb; rewrite Eab, Eba; reflexivity). split.
          -- intros (p & q & r1 & r2 & -> & -> & Hs & Hr). exists (a :: p), (b :: q), r1, r2. repeat split; [constructor; assumption|exact Hr].
          -- intros (p & q & r1 & r2 & E1 & E2 & Hs & Hr). inversion Hs as [|x y p' q' Hxy Hpq]; subst; simpl in E1, E2.
             ++ subst r1 r2. congruence.
             ++ injection E1 as <- ->. injection E2 as <- ->. exists p', q', r1, r2. auto.
  Qed.
  Lemma list_laws : SWO (list_ltb ltb) /\ (forall l1 l2, list_ltb ltb l1 l2 = true <-> lex_before ltb l1 l2) /\
    (forall l1 l2, eqvb (list_ltb ltb) l1 l2 = true <-> same_elements ltb l1 l2).
  Proof. split; [exact list_swo|]. split; [exact list_before|exact list_eqv]. Qed.
End Lex.

Lemma pair_swo {A B} (lta : A -> A -> bool) (ltb : B -> B -> bool) : SWO lta -> SWO ltb ->
  SWO (pair_ltb lta ltb) /\
  (forall x y, eqvb (pair_ltb lta ltb) x y = true <-> eqvb lta (fst x) (fst y) = true /\ eqvb ltb (snd x) (snd y) = true).
Proof.
  intros Ha Hb.
  assert (He : forall x y, eqvb (pair_ltb lta ltb) x y = true <-> eqvb lta (fst x) (fst y) = true /\ eqvb ltb (snd x) (snd y) = true).
  { intros [a b] [c d]. unfold pair_ltb, eqvb. simpl. destruct (lta a c) eqn:E1, (lta c a) eqn:E2; simpl; try (split; [discriminate|intros [X _]; discriminate]); tauto. }
  split; [|exact He]. constructor.
  - intros [a b]. unfold pair_ltb. simpl. rewrite (swo_irrefl _ Ha), (swo_irrefl _ Hb). reflexivity.
  - intros [a b] [c d] [e f]. unfold pair_ltb. simpl. destruct (lta a c) eqn:Eac.
    + intros _. destruct (lta c e) eqn:Ece; [rewrite (swo_trans _ Ha a c e Eac Ece); reflexivity|]. destruct (lta e c) eqn:Eec; [discriminate|]. intros _.
      rewrite (lt_eqv_r lta Ha c e a) in Eac by (unfold eqvb; rewrite Ece, Eec; reflexivity). rewrite Eac. reflexivity.
    + destruct (lta c a) eqn:Eca; [discriminate|]. intros Hbd. assert (X : eqvb lta a c = true) by (unfold eqvb; rewrite Eac, Eca; reflexivity).
      rewrite (lt_eqv_l lta Ha a c e X), (lt_eqv_r lta Ha a c e X). destruct (lta c e); [reflexivity|]. destruct (lta e c); [discriminate|].
      intros Hdf. exact (swo_trans _ Hb _ _ _ Hbd Hdf).
  - intros x y z. rewrite !He. intros [A1 B1] [A2 B2]. split; [exact (swo_eqv_trans _ Ha _ _ _ A1 A2)|exact (swo_eqv_trans _ Hb _ _ _ B1 B2)].
Qed.

Lemma words_as_keys : exists ltb : word -> word -> bool,
  (forall w v, word_less w v = Ret (ltb w v) tt) /\ SWO ltb /\ (forall w v, eqvb ltb w v = true <-> w = v).
Proof.
  exists lexb. split; [exact word_less_lexb|]. split; [exact lexb_swo|]. intros w v. unfold eqvb. rewrite andb_true_iff, !negb_true_iff. split.
  - intros [H1 H2]. exact (lexb_total w v H1 H2).
  - intros ->. rewrite lexb_irrefl. auto.
Qed.

(** ** Sets and maps without mention of the order *)
Section Sets.
  Context {T : Type} (ltb : T -> T -> bool) (H : SWO ltb) (He : forall a b, eqvb ltb a b = true <-> a = b).
  Lemma in_list_In (l : list T) x : in_list ltb l x = true <-> In x l.
  Proof.
    unfold in_list. rewrite existsb_exists. split.
    - intros (e & Hin & Hx). apply He in Hx. congruence.
    - intros Hin. exists x. split; [exact Hin|]. apply He. reflexivity.
  Qed.
  Lemma spec_plain (ops : list (sop T)) : forall p q, (forall v x, p v x = true <-> q v x) ->
    forall v x, spec_srun ltb ops p v x = true <-> fold_left (fun q o => pstep o q) ops q v x.
  Proof.
    induction ops as [|o ops IH]; intros p q Hpq; [exact Hpq|]. simpl. apply IH.
    assert (Hn : forall v x, p v x = false <-> ~ q v x).
    { intros v x. rewrite <- (Hpq v x). destruct (p v x); split; congruence. }
    intros v x. assert (Heq : forall t, eqvb ltb t x = true <-> x = t) by (intros t; rewrite He; split; congruence).
    assert (Hnl : forall l, in_list ltb l x = false <-> ~ In x l). { intros l. rewrite <- in_list_In. destruct (in_list ltb l x); split; congruence. }
    assert (Hne : forall t, eqvb ltb t x = false <-> x <> t). { intros t. rewrite <- Heq. destruct (eqvb ltb t x); split; congruence. }
    destruct o; simpl; unfold set_var; destruct (Nat.eqb _ _); try apply Hpq;
      rewrite ?orb_true_iff, ?andb_true_iff, ?negb_true_iff, ?Hpq, ?Hn, ?Heq, ?in_list_In, ?Hnl, ?Hne; try tauto; split; try discriminate; try contradiction.
  Qed.
  Lemma plain_sets (ops : list (sop T)) : Forall no_member_restrict ops ->
    exists st', srun ltb ops (fun _ => []) = Ret tt st' /\
      forall v, (forall x, SetModel.contains ltb (st' v) x = true <-> prun ops v x) /\
        exists l, make_list ltb (st' v) = Some l /\ NoDup l /\ (forall x, In x l <-> prun ops v x) /\ increasing ltb l.
  Proof.
    intros Hops. destruct (set_histories ltb H ops Hops) as (st' & E & Hs). exists st'. split; [exact E|]. intros v. destruct (Hs v) as (Hc & l & Hl & Hinc & Hin).
    assert (Hsp : forall x, spec_srun ltb ops (fun _ _ => false) v x = true <-> prun ops v x).
    { intros x. apply (spec_plain ops (fun _ _ => false) (fun _ _ => False)). split; [discriminate|contradiction]. }
    split; [intros x; rewrite Hc; apply Hsp|]. exists l. split; [exact Hl|]. split; [|split; [|exact Hinc]].
    - clear - Hinc H. unfold increasing in Hinc. induction Hinc as [|a l Hs IH Hf]; constructor; auto. intros Hin.
      rewrite Forall_forall in Hf. specialize (Hf a Hin). rewrite (swo_irrefl _ H) in Hf. discriminate.
    - intros x. rewrite <- in_list_In, Hin. apply Hsp.
  Qed.
End Sets.

Section Maps.
  Context {K V : Type} (ltb : K -> K -> bool) (H : SWO ltb) (He : forall a b, eqvb ltb a b = true <-> a = b).
  Context (eqb : K -> K -> bool) (Hb : forall a b, eqb a b = true <-> a = b) (dflt : V).
  Lemma eqv_eqb a b : eqvb ltb a b = eqb a b.
  Proof. apply Bool.eq_iff_eq_true. rewrite He, Hb. reflexivity. Qed.
  Definition tied (f : fmap (K := K) (V := V)) (g : K -> option V) : Prop := forall k, f k = option_map (fun v => (k, v)) (g k).
  Lemma tied_some f g k : tied f g -> forall e, f k = Some e -> g k = Some (snd e) /\ fst e = k.
  Proof. intros Ht e Hf. rewrite Ht in Hf. destruct (g k); [|discriminate]. injection Hf as <-. auto. Qed.
  Lemma eqb_refl a : eqb a a = true. Proof. apply Hb. reflexivity. Qed.
  Lemma tied_fset f g k v : tied f g -> tied (fset ltb k (Some (k, v)) f) (put eqb k v g).
  Proof. intros Ht x. unfold fset, put. rewrite eqv_eqb. destruct (eqb k x) eqn:E; [apply Hb in E; subst; reflexivity|apply Ht]. Qed.
  Lemma tied_assign f g k v : tied f g -> tied (fassign ltb k v f) (put eqb k v g).
  Proof.
    intros Ht. unfold fassign. replace (match f k with Some e => (fst e, v) | None => (k, v) end) with (k, v); [apply tied_fset; exact Ht|].
    destruct (f k) as [e|] eqn:E; [|reflexivity]. destruct (tied_some f g k Ht e E) as [_ ->]. reflexivity.
  Qed.
  Lemma tied_add f g k v : tied f g -> tied (fadd ltb k v f) (put_new eqb k v g).
  Proof.
    intros Ht. unfold fadd, put_new. rewrite (Ht k). destruct (g k); simpl; [exact Ht|]. apply tied_fset. exact Ht.
  Qed.
  Lemma in_list_existsb (l : list K) x : in_list ltb l x = existsb (eqb x) l.
  Proof. unfold in_list. induction l as [|a l IH]; simpl; [reflexivity|]. rewrite IH, eqv_eqb. f_equal. apply Bool.eq_iff_eq_true. rewrite !Hb. split; congruence. Qed.
  Lemma tied_set_var p q d f g : (forall v, tied (p v) (q v)) -> tied f g -> forall v, tied (set_var p d f v) (set_var q d g v).
  Proof. intros Hp Hf v. unfold set_var. destruct (Nat.eqb _ _); auto. Qed.
  Lemma tied_step o p q : (forall v, tied (p v) (q v)) ->
    snd (spec_mstep ltb dflt o p) = snd (pmstep eqb dflt o q) /\ forall v, tied (fst (spec_mstep ltb dflt o p) v) (fst (pmstep eqb dflt o q) v).
  Proof.
    intros Hp. assert (Hl : forall d k, lookup_out k (p d) = found k (q d)) by (intros d k; unfold lookup_out, found; rewrite (Hp d k); destruct (q d k); reflexivity).
    assert (Hd : forall v d k, fdef v k (p d) = with_default v k (q d)) by (intros v d k; unfold fdef, with_default; rewrite (Hp d k); destruct (q d k); reflexivity).
    assert (Hu : forall a b, tied (funion (p a) (p b)) (merge (q a) (q b))).
    { intros a b x. unfold funion, merge. rewrite (Hp a x), (Hp b x). destruct (q a x); reflexivity. }
    destruct o; simpl; rewrite ?Hl, ?Hd; (split; [try reflexivity|]); try (apply tied_set_var; [exact Hp|]); auto using tied_add, tied_assign.
    - intros x. reflexivity.
    - rewrite (Hp d k). destruct (q d k); reflexivity.
    - rewrite (Hp d k). destruct (q d k); simpl; [apply tied_set_var; [exact Hp|]; apply tied_assign; apply Hp|exact Hp].
    - f_equal. rewrite (Hp d k). destruct (q d k); reflexivity.
    - intros x. unfold fremove, without. rewrite in_list_existsb. destruct (existsb _ _); [reflexivity|apply Hp].
    - intros x. unfold frestrict, only. rewrite in_list_existsb. destruct (existsb _ _); [apply Hp|reflexivity].
  Qed.
  Lemma tied_run ops : forall p q, (forall v, tied (p v) (q v)) ->
    snd (spec_mrun ltb dflt ops p) = snd (pmrun eqb dflt ops q) /\ forall v, tied (fst (spec_mrun ltb dflt ops p) v) (fst (pmrun eqb dflt ops q) v).
  Proof.
    induction ops as [|o ops IH]; intros p q Hp; [split; [reflexivity|exact Hp]|]. simpl.
    destruct (tied_step o p q Hp) as [E1 T1]. destruct (spec_mstep ltb dflt o p) as [p1 a1], (pmstep eqb dflt o q) as [q1 b1]. simpl in E1, T1. subst b1.
    destruct (IH p1 q1 T1) as [E2 T2]. destruct (spec_mrun ltb dflt ops p1), (pmrun eqb dflt ops q1). simpl in *. split; [congruence|exact T2].
  Qed.
  Lemma plain_maps (ops : list (mop K V)) : let f := pmrun eqb dflt ops (fun _ _ => None) in
    exists st', mrun ltb dflt ops (fun _ => []) = Ret (snd f) st' /\
      forall v, (forall k, mget ltb k (st' v) = match fst f v k with Some x => Ret x (st' v) | None => Exc ERuntime (st' v) end) /\
        NoDup (keys ltb (st' v)) /\ (forall k x, In (k, x) (combine (keys ltb (st' v)) (values (st' v))) <-> fst f v k = Some x) /\
        length (keys ltb (st' v)) = length (values (st' v)).
  Proof.
    intros f. destruct (map_histories ltb H dflt ops) as (st' & E & Hs).
    destruct (tied_run ops (fun _ => fempty) (fun _ _ => None) (fun _ _ => eq_refl)) as [E1 T1]. exists st'. split; [rewrite E, E1; reflexivity|].
    intros v. destruct (Hs v) as [Hg Ht]. split; [|split; [|split]].
    - intros k. rewrite Hg, (T1 v k). subst f. destruct (fst (pmrun eqb dflt ops _) v k); reflexivity.
    - destruct Ht as (_ & Hinc & _). clear - Hinc H. unfold increasing in Hinc. induction Hinc as [|a l Hs IH Hf]; constructor; auto. intros Hin.
      rewrite Forall_forall in Hf. specialize (Hf a Hin). rewrite (swo_irrefl _ H) in Hf. discriminate.
    - destruct Ht as (_ & _ & Hin & Hall). intros k x. split.
      + intros Hk. apply Hin in Hk. destruct (tied_some _ _ k (T1 v) _ Hk) as [X _]. exact X.
      + intros Hk. assert (X : fst (spec_mrun ltb dflt ops (fun _ => fempty)) v k = Some (k, x)) by (rewrite (T1 v k); subst f; rewrite Hk; reflexivity).
        apply Hall in X. exact X.
    - apply Ht.
  Qed.
End Maps.
