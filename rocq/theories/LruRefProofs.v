(** LruRefProofs.v -- lemmas about LruRefModel; the property theorems are in LruRefProps.v. *)
From Verif Require Import Base StdOrd LruModel LruSpec LruProofs LruRefModel LruRefSpec.

Section LruRefProofs.
  Context {T : Type} (ltb : T -> T -> bool) (HO : SWO ltb).
  Notation cache := (cache T T).
  Notation rlist := (rlist T T).
  Notation R := (@LruProofs.R T T ltb).

  (** the argument [r] denotes [x]; if it refers into the cache, the element is at most [g] old *)
  Definition live (c : cache) (r : vref T) (x : T) (g : Z) : Prop :=
    match r with
    | VVal y => y = x
    | VNode a => exists n, In n (c_elems c) /\ n_addr n = a /\ n_val n = x /\ (n_age n <= g)%Z
    end.

  Lemma live_read c s r x g : R c s -> live c r x g -> read_vref r c = Ret x c.
  Proof.
    intros HR. destruct r as [y|a]; simpl; [intros ->; reflexivity|].
    intros (n & Hin & <- & <- & _). rewrite (read_node_get c n (R_addr _ _ _ HR) Hin). reflexivity.
  Qed.
  Lemma live_weaken c r x g g' : (g <= g')%Z -> live c r x g -> live c r x g'.
  Proof. intros Hg. destruct r as [y|a]; simpl; [auto|]. intros (n & ? & ? & ? & ?). exists n. repeat split; auto. lia. Qed.

  Lemma wrap64_le z : (0 <= z)%Z -> (wrap64 z <= z)%Z.
  Proof. intros Hz. apply Z.mod_le; [exact Hz|reflexivity]. Qed.

  Lemma get_ages c s l n : R c s -> find_elem n_key ltb l (c_elems c) = Some n ->
    forall r y g, (0 <= g)%Z -> live c r y g -> live (set_elems c (get_elems n (c_elems c))) r y (g + 1).
  Proof.
    intros HR Hf r y g Hg. destruct r as [z|a]; simpl; [auto|].
    intros (m & Hin & Ha & Hv & Hage).
    exists (if Nat.eqb (n_addr m) (n_addr n) then set_age m 0%Z
            else if (n_age m <? n_age n)%Z then incr_age m else m).
    split; [unfold get_elems; apply in_map_iff; exists m; auto|].
    destruct (R_item _ _ _ m HR Hin) as (l1 & l2 & _ & Hm0).
    destruct (Nat.eqb _ _); [simpl; repeat split; auto; lia|].
    destruct (_ <? _)%Z; simpl; repeat split; auto; try lia.
    assert (H := wrap64_le (n_age m + 1)). lia.
  Qed.

  (** one get *)
  Lemma get_refines c s x : R c s ->
    match spec_step ltb s (OGet x) with
    | (s', RVal v) => exists a c', get ltb x c = Ret a c' /\ R c' s' /\ live c' (VNode a) v 0 /\
                        forall r y g, (0 <= g)%Z -> live c r y g -> live c' r y (g + 1)
    | (s', RThrow ex) => s' = s /\ ex = ERuntime /\ get ltb x c = Exc ERuntime c
    | _ => False
    end.
  Proof.
    intros HR. simpl. destruct (find_elem n_key ltb x (c_elems c)) as [n|] eqn:Hf.
    - destruct (R_find_Some ltb HO _ _ _ _ HR Hf) as (l1 & l2 & Hi & Ha & Ht). rewrite Ht.
      exists (n_addr n), (set_elems c (get_elems n (c_elems c))).
      split; [apply get_eq; [apply HR|exact Hf]|].
      split; [exact (R_get ltb HO c s x n HR Hf _ _ _ Ht)|].
      pose proof (find_elem_In _ _ _ _ _ Hf) as [Hin _].
      split.
      + exists (set_age n 0%Z). simpl. split; [apply get_elems_In; exact Hin|]. repeat split; lia.
      + exact (get_ages c s x n HR Hf).
    - pose proof (get_none ltb c x Hf) as Hg. apply (R_find_None ltb c s x HR) in Hf. rewrite Hf. auto.
  Qed.

  Lemma gets_nonneg (e : cexp T) : (0 <= gets e)%Z.
  Proof. induction e; simpl; lia. Qed.

  Lemma get_caps (s : rlist) x : r_cap (fst (spec_step ltb s (OGet x))) = r_cap s.
  Proof. simpl. destruct (take_label ltb x (r_items s)) as [[[i y] rest]|]; reflexivity. Qed.

  Lemma eval_refines e : forall c s, R c s ->
    match spec_eval ltb s e with
    | (s', inl x) => exists r c', eval ltb e c = Ret r c' /\ R c' s' /\ live c' r x 0 /\ r_cap s' = r_cap s /\
                       (forall r0 y g, (0 <= g)%Z -> live c r0 y g -> live c' r0 y (g + gets e)) /\
                       (forall a, r = VNode a -> is_get e)
    | (s', inr ex) => exists c', eval ltb e c = Exc ex c' /\ R c' s' /\ r_cap s' = r_cap s
    end.
  Proof.
    induction e as [x|e IH]; intros c s HR; simpl.
    - exists (VVal x), c. split; [reflexivity|]. split; [exact HR|]. split; [reflexivity|]. split; [reflexivity|].
      split; [|intros a; discriminate].
      intros r0 y g Hg Hl. apply (live_weaken c r0 y g); [lia|exact Hl].
    - specialize (IH c s HR).
      destruct (spec_eval ltb s e) as [s1 [x|ex]].
      + destruct IH as (r & c1 & E1 & HR1 & Hl & Hcap & Hold & _).
        pose proof (get_refines c1 s1 x HR1) as Hget. pose proof (get_caps s1 x) as Hc2.
        cbn [spec_step] in Hget, Hc2.
        destruct (take_label ltb x (r_items s1)) as [[[i y] rest]|]; cbn [fst snd] in *.
        * destruct Hget as (a & c2 & Hg & HR2 & Hl2 & Hold2).
          exists (VNode a), c2. unfold get_ref, bind. rewrite E1, (live_read c1 s1 r x 0 HR1 Hl), Hg.
          split; [reflexivity|]. split; [exact HR2|]. split; [exact Hl2|]. split; [exact Hcap|]. split.
          -- intros r0 z g Hg0 Hl0. rewrite Z.add_assoc. apply Hold2; [pose proof (gets_nonneg e); lia|auto].
          -- intros a' _. unfold is_get. simpl. pose proof (gets_nonneg e). lia.
        * destruct Hget as (_ & _ & Hg). exists c1.
          unfold get_ref, bind. rewrite E1, (live_read c1 s1 r x 0 HR1 Hl), Hg. auto.
      + destruct IH as (c' & E1 & HR' & Hcap). exists c'. unfold bind. rewrite E1. auto.
  Qed.

  (** ** put *)
  Lemma put_as_evict (c : cache) l v b : find_elem n_key ltb l (c_elems c) = None ->
    put ltb l v b c = bind (put_evict (T := T)) (fun _ => put_insert ltb l v b) c.
  Proof. intros Hf. unfold put. apply find_pos_None in Hf. rewrite Hf. reflexivity. Qed.

  (** what is left after the eviction *)
  Lemma evict_room c s : R c s -> (current_size c < maximum_size c)%Z ->
    put_evict c = Ret tt (set_elems c (map incr_age (c_elems c))).
  Proof.
    intros HR Hroom. unfold put_evict, current_size, maximum_size in *.
    destruct (Z.ltb_spec (Z.of_nat (length (c_elems c))) (c_max c)); [reflexivity|lia].
  Qed.
  Lemma evict_full c s : R c s -> current_size c = maximum_size c ->
    exists e1 victim e2, c_elems c = e1 ++ victim :: e2 /\ n_age victim = (maximum_size c - 1)%Z /\
      put_evict c = Ret tt (set_elems c (map incr_age (e1 ++ e2))).
  Proof.
    intros HR Hfull. unfold current_size, maximum_size in *.
    pose proof (R_range _ _ _ HR) as Hrange. pose proof (R_cap _ _ _ HR) as Hcap.
    destruct (exists_last (l := r_items s)) as (items & x & Hx).
    { intros Hn. pose proof (R_length ltb _ _ HR) as Hlen. rewrite Hn in Hlen. simpl in Hlen. lia. }
    assert (Hlx : (Z.of_nat (length items) = r_cap s - 1)%Z).
    { pose proof (R_length ltb _ _ HR) as Hlen. rewrite Hx, app_length in Hlen. simpl in Hlen. lia. }
    assert (Hv : In (r_cap s - 1, x)%Z (index 0 (r_items s))).
    { rewrite Hx, index_app. apply in_or_app; right. simpl. left. f_equal. lia. }
    apply (Permutation_in _ (Permutation_sym (R_perm _ _ _ HR))) in Hv.
    apply in_map_iff in Hv as (victim & Hvv & Hvin). unfold view in Hvv. injection Hvv as Hva Hvx.
    destruct (put_loop_map c) as (r & Hr & Hrp).
    assert (Hw : wrap64 (c_max c - 1) = (r_cap s - 1)%Z).
    { rewrite Hcap. apply wrap64_small. lia. }
    rewrite Hw in Hrp.
    destruct r as [i|]; [|exfalso; apply (Hrp _ Hvin); exact Hva].
    destruct Hrp as (n & Hn & Hna).
    destruct (nth_error_split _ _ Hn) as (e1 & e2 & He & Hi). subst i.
    exists e1, n, e2. split; [exact He|]. split; [lia|].
    unfold put_evict. destruct (Z.ltb_spec (Z.of_nat (length (c_elems c))) (c_max c)); [lia|].
    unfold bind. rewrite Hr. unfold put_erase, set_elems; simpl. do 2 f_equal.
    rewrite He, !map_app. simpl. rewrite <- (map_length incr_age e1), erase_at_app. reflexivity.
  Qed.

  Lemma node_unique (es : list (node T T)) n1 n2 : NoDup (map n_addr es) -> In n1 es -> In n2 es -> n_addr n1 = n_addr n2 -> n1 = n2.
  Proof.
    intros Hnd H1 H2 Ha. destruct (In_nth_error _ _ H1) as (j1 & Hj1). destruct (In_nth_error _ _ H2) as (j2 & Hj2).
    assert (j1 = j2) by (eapply NoDup_map_nth; eassumption). congruence.
  Qed.

  Lemma aged_read (c : cache) es n : NoDup (map n_addr es) -> In n es ->
    read_node (n_addr n) (set_elems c (map incr_age es)) = Some (n_val n).
  Proof.
    intros Hnd Hin. change (n_addr n) with (n_addr (incr_age n)).
    rewrite (read_node_get (set_elems c (map incr_age es)) (incr_age n)); simpl; [reflexivity| |].
    - rewrite incr_age_addr; exact Hnd.
    - apply in_map; exact Hin.
  Qed.

  Lemma evict_read c s r x g : R c s -> live c r x g ->
    exists c', put_evict c = Ret tt c' /\
      ((~ evicted c r /\ read_vref r c' = Ret x c') \/ (evicted c r /\ read_vref r c' = Ub UbDangling)).
  Proof.
    intros HR Hl. pose proof (R_addr _ _ _ HR) as Hnd.
    assert (Hb : (current_size c <= maximum_size c)%Z).
    { unfold current_size, maximum_size. rewrite (R_length ltb _ _ HR), (R_cap _ _ _ HR). apply (R_bound _ _ _ HR). }
    destruct (Z.eq_dec (current_size c) (maximum_size c)) as [Hfull|Hroom].
    - destruct (evict_full c s HR Hfull) as (e1 & w & e2 & He & Hw & Hev).
      exists (set_elems c (map incr_age (e1 ++ e2))). split; [exact Hev|].
      destruct r as [y|a].
      + left. split; [intros [_ []]|]. simpl in *. subst y. reflexivity.
      + destruct Hl as (n & Hin & Ha & Hv & _).
        assert (Hw_in : In w (c_elems c)) by (rewrite He; apply in_or_app; simpl; auto).
        assert (Hnd' : NoDup (map n_addr (e1 ++ e2))).
        { rewrite He, map_app in Hnd. simpl in Hnd. rewrite map_app. eapply NoDup_remove_1; eassumption. }
        destruct (Z.eq_dec (n_age n) (maximum_size c - 1)) as [Hage|Hage].
        * right. split; [split; [exact Hfull|exists n; auto]|].
          assert (n = w) by (eapply R_ages_inj; [exact HO|exact HR|exact Hin|exact Hw_in|congruence]). subst n.
          simpl. assert (Hno : read_node a (set_elems c (map incr_age (e1 ++ e2))) = None).
          { unfold read_node. destruct (find _ _) as [m|] eqn:Hfd; [|reflexivity]. exfalso.
            apply find_some in Hfd as [Hm Heq]. apply Nat.eqb_eq in Heq. simpl in Hm.
            apply in_map_iff in Hm as (m' & <- & Hm').
            rewrite He, map_app in Hnd. simpl in Hnd.
            apply NoDup_remove_2 in Hnd. apply Hnd. rewrite <- map_app.
            simpl in Heq. subst a. rewrite <- Heq. apply in_map. exact Hm'. }
          rewrite Hno. reflexivity.
        * left. split.
          -- intros (_ & n2 & Hin2 & Ha2 & Hage2). apply Hage.
             rewrite <- Hage2. f_equal. eapply node_unique; [exact Hnd|exact Hin|exact Hin2|congruence].
          -- simpl. subst a x. rewrite aged_read; [reflexivity|exact Hnd'|].
             rewrite He in Hin. apply in_app_or in Hin as [Hin|[<-|Hin]]; [apply in_or_app; auto| |apply in_or_app; auto].
             contradiction.
    - rewrite (evict_room c s HR) by lia. eexists; split; [reflexivity|]. left.
      split; [intros [Hf _]; contradiction|].
      destruct r as [y|a]; simpl in *; [subst; reflexivity|].
      destruct Hl as (n & Hin & <- & <- & _). rewrite aged_read; auto.
  Qed.

  (** put with references does what put with values does, or the behaviour is undefined because one of them designates the
      element evicted *)
  Lemma put_refs_exact c s r1 r2 x y g1 g2 : R c s -> live c r1 x g1 -> live c r2 y g2 ->
    (find_elem n_key ltb x (c_elems c) <> None /\ put_refs ltb r1 r2 c = Exc ERuntime c) \/
    (find_elem n_key ltb x (c_elems c) = None /\ ~ evicted c r1 /\ ~ evicted c r2 /\
       put_refs ltb r1 r2 c = put ltb x (VVal y) false c) \/
    (find_elem n_key ltb x (c_elems c) = None /\ (evicted c r1 \/ evicted c r2) /\ put_refs ltb r1 r2 c = Ub UbDangling).
  Proof.
    intros HR Hl1 Hl2.
    assert (E : put_refs ltb r1 r2 c =
      match find_elem n_key ltb x (c_elems c) with
      | Some _ => Exc ERuntime c
      | None => bind (put_evict (T := T)) (fun _ => bind (read_vref r1) (fun l => put_insert ltb l r2 false)) c
      end).
    { unfold put_refs, bind. rewrite (live_read c s r1 x g1 HR Hl1), has_label_eq.
      destruct (find_elem n_key ltb x (c_elems c)); reflexivity. }
    rewrite E. clear E.
    destruct (find_elem n_key ltb x (c_elems c)) as [n|] eqn:Hf; [left; split; [discriminate|reflexivity]|].
    right.
    destruct (evict_read c s r1 x g1 HR Hl1) as (c' & Hev & H1).
    destruct (evict_read c s r2 y g2 HR Hl2) as (c'' & Hev' & H2).
    rewrite Hev in Hev'. injection Hev' as <-.
    destruct H1 as [[Hv1 Hr1]|[Hv1 Hr1]].
    2:{ right. repeat split; auto. unfold bind. rewrite Hev, Hr1. reflexivity. }
    destruct H2 as [[Hv2 Hr2]|[Hv2 Hr2]].
    - left. repeat split; auto. rewrite put_as_evict by exact Hf. unfold put_insert, bind. rewrite Hev, Hr1, Hr2. reflexivity.
    - right. repeat split; auto. unfold put_insert, bind. rewrite Hev, Hr1, Hr2. reflexivity.
  Qed.

  Lemma young_not_evicted c s r x g : R c s -> live c r x g -> (forall a, r = VNode a -> (g + 1 < r_cap s)%Z) -> ~ evicted c r.
  Proof.
    intros HR Hl Hg [_ Hv]. destruct r as [y|a]; [exact Hv|].
    destruct Hl as (n & Hin & Ha & _ & Hage). destruct Hv as (n2 & Hin2 & Ha2 & Hage2).
    assert (n = n2) by (eapply node_unique; [apply (R_addr _ _ _ HR)|exact Hin|exact Hin2|congruence]). subst n2.
    specialize (Hg a eq_refl). unfold maximum_size in Hage2. rewrite (R_cap _ _ _ HR) in Hage2. lia.
  Qed.

  Lemma spec_caps (s : rlist) o : r_cap (fst (spec_step ltb s o)) = r_cap s.
  Proof.
    destruct o; simpl; try reflexivity.
    - destruct (take_label ltb l (r_items s)) as [[[i y] rest]|]; reflexivity.
    - destruct (take_label ltb l (r_items s)) as [[[i y] rest]|]; reflexivity.
    - destruct (take_label ltb l (r_items s)) as [[[i y] rest]|]; reflexivity.
  Qed.

  (** the call of put once the arguments are evaluated *)
  Lemma put_refs_step c s r1 r2 x y g1 g2 : R c s -> live c r1 x g1 -> live c r2 y g2 ->
    ~ evicted c r1 -> ~ evicted c r2 ->
    match spec_step ltb s (OPut x y) with
    | (s', RUnit) => exists c', put_refs ltb r1 r2 c = Ret tt c' /\ R c' s'
    | (s', RThrow ex) => put_refs ltb r1 r2 c = Exc ex c /\ s' = s
    | _ => False
    end.
  Proof.
    intros HR Hl1 Hl2 Hv1 Hv2.
    destruct (put_refs_exact c s r1 r2 x y g1 g2 HR Hl1 Hl2) as [[Hf ->]|[(Hf & _ & _ & ->)|(_ & [H|H] & _)]]; try contradiction.
    - cbn [spec_step]. destruct (take_label ltb x (r_items s)) as [[[i z] rest]|] eqn:Ht; [auto|].
      exfalso. apply Hf. apply (R_find_None ltb c s x HR). exact Ht.
    - cbn [spec_step]. apply (R_find_None ltb c s x HR) in Hf. rewrite Hf.
      destruct (R_put ltb HO c s x y HR Hf) as (c' & -> & HR' & _). eauto.
  Qed.

  (** the arguments of put *)
  Lemma two_refines e1 e2 c s : R c s ->
    match spec_two ltb s e1 e2 with
    | (s', inl (x, y)) =>
        exists r1 r2 c1 c2, eval ltb e1 c = Ret r1 c1 /\ eval ltb e2 c1 = Ret r2 c2 /\ R c2 s' /\ r_cap s' = r_cap s /\
          live c2 r1 x (gets e2) /\ live c2 r2 y 0 /\
          (forall a, r1 = VNode a -> is_get e1) /\ (forall a, r2 = VNode a -> is_get e2)
    | (s', inr ex) => exists c', R c' s' /\ r_cap s' = r_cap s /\
        (eval ltb e1 c = Exc ex c' \/ exists r1 c1, eval ltb e1 c = Ret r1 c1 /\ eval ltb e2 c1 = Exc ex c')
    end.
  Proof.
    intros HR. unfold spec_two. pose proof (eval_refines e1 c s HR) as H1.
    destruct (spec_eval ltb s e1) as [s1 [x|ex]].
    - destruct H1 as (r1 & c1 & E1 & HR1 & Hl1 & Hc1 & _ & Hg1).
      pose proof (eval_refines e2 c1 s1 HR1) as H2.
      destruct (spec_eval ltb s1 e2) as [s2 [y|ex]].
      + destruct H2 as (r2 & c2 & E2 & HR2 & Hl2 & Hc2 & Hold & Hg2).
        exists r1, r2, c1, c2. split; [exact E1|]. split; [exact E2|]. split; [exact HR2|]. split; [congruence|]. split; [|auto].
        apply (Hold r1 x 0%Z); [lia|exact Hl1].
      + destruct H2 as (c' & E2 & HR2 & Hc2). exists c'. split; [exact HR2|]. split; [congruence|]. right. eauto.
    - destruct H1 as (c' & E1 & HR1 & Hc1). exists c'. auto.
  Qed.

  Lemma cstep_refines ltr st c s : R c s -> roomy (r_cap s) ltr st ->
    exists c', cstep ltb ltr c st = (Some c', snd (spec_cstep ltb ltr s st)) /\ R c' (fst (spec_cstep ltb ltr s st)) /\
      r_cap (fst (spec_cstep ltb ltr s st)) = r_cap s.
  Proof.
    intros HR Hroom. unfold cstep. destruct st as [l v|e|e|e]; cbn [call spec_cstep].
    - (* put *)
      set (k := fun rs : vref T * vref T => bind (put_refs ltb (fst rs) (snd rs)) (fun _ => ret (RUnit (V := T)))).
      assert (Hk : forall r1 r2 c2 s2 x y g1 g2, R c2 s2 -> r_cap s2 = r_cap s -> live c2 r1 x g1 -> live c2 r2 y g2 ->
                ~ evicted c2 r1 -> ~ evicted c2 r2 ->
                exists c', match k (r1, r2) c2 with
                           | Ret r c' => (Some c', r) | Exc e c' => (Some c', RThrow e) | _ => (None, RUb) end
                           = (Some c', snd (spec_step ltb s2 (OPut x y))) /\
                           R c' (fst (spec_step ltb s2 (OPut x y))) /\ r_cap (fst (spec_step ltb s2 (OPut x y))) = r_cap s).
      { intros r1 r2 c2 s2 x y g1 g2 HR2 Hc Hl1 Hl2 Hv1 Hv2.
        pose proof (put_refs_step c2 s2 r1 r2 x y g1 g2 HR2 Hl1 Hl2 Hv1 Hv2) as Hp.
        pose proof (spec_caps s2 (OPut x y)) as Hcap.
        destruct (spec_step ltb s2 (OPut x y)) as [s3 o]. unfold k, bind. cbn [fst snd] in *.
        destruct o; try contradiction.
        - destruct Hp as (c' & -> & HR3). exists c'. split; [reflexivity|]. split; [exact HR3|congruence].
        - destruct Hp as (-> & ->). exists c2. auto. }
      destruct ltr; unfold eval_args.
      + pose proof (two_refines l v c s HR) as H2. destruct (spec_two ltb s l v) as [s' [[x y]|ex]].
        * destruct H2 as (r1 & r2 & c1 & c2 & E1 & E2 & HR2 & Hc & Hl1 & Hl2 & Hg1 & Hg2).
          unfold bind at 1 2. rewrite E1. unfold bind at 1. rewrite E2. cbn [ret].
          cbn [roomy] in Hroom. destruct Hroom as [Hr1 Hr2].
          apply (Hk r1 r2 c2 s' x y (gets v) 0%Z); auto.
          -- apply (young_not_evicted c2 s' r1 x (gets v)); auto. intros a Ha. specialize (Hr1 (Hg1 a Ha)). rewrite Hc. lia.
          -- apply (young_not_evicted c2 s' r2 y 0%Z); auto. intros a Ha. specialize (Hr2 (Hg2 a Ha)). rewrite Hc. lia.
        * destruct H2 as (c' & HR' & Hc & [E1|(r1 & c1 & E1 & E2)]); exists c'.
          -- unfold bind at 1 2. rewrite E1. auto.
          -- unfold bind at 1 2. rewrite E1. unfold bind at 1. rewrite E2. auto.
      + pose proof (two_refines v l c s HR) as H2. destruct (spec_two ltb s v l) as [s' [[x y]|ex]].
        * destruct H2 as (r1 & r2 & c1 & c2 & E1 & E2 & HR2 & Hc & Hl1 & Hl2 & Hg1 & Hg2).
          unfold bind at 1 2. rewrite E1. unfold bind at 1. rewrite E2. cbn [ret].
          cbn [roomy] in Hroom. destruct Hroom as [Hr1 Hr2].
          apply (Hk r2 r1 c2 s' y x 0%Z (gets l)); auto.
          -- apply (young_not_evicted c2 s' r2 y 0%Z); auto. intros a Ha. specialize (Hr2 (Hg2 a Ha)). rewrite Hc. lia.
          -- apply (young_not_evicted c2 s' r1 x (gets l)); auto. intros a Ha. specialize (Hr1 (Hg1 a Ha)). rewrite Hc. lia.
        * destruct H2 as (c' & HR' & Hc & [E1|(r1 & c1 & E1 & E2)]); exists c'.
          -- unfold bind at 1 2. rewrite E1. auto.
          -- unfold bind at 1 2. rewrite E1. unfold bind at 1. rewrite E2. auto.
    - pose proof (eval_refines e c s HR) as He. unfold bind at 1. destruct (spec_eval ltb s e) as [s1 [x|ex]].
      + destruct He as (r & c1 & -> & HR1 & Hl & Hc & _). unfold bind at 1. rewrite (live_read _ _ _ _ _ HR1 Hl).
        unfold bind. rewrite has_label_eq. cbn [after]. exists c1. cbn [spec_step fst snd ret].
        split; [|auto]. destruct (find_elem n_key ltb x (c_elems c1)) as [n|] eqn:Hf.
        * destruct (R_find_Some ltb HO _ _ _ _ HR1 Hf) as (l1 & l2 & _ & _ & ->). reflexivity.
        * apply (R_find_None ltb _ _ _ HR1) in Hf. rewrite Hf. reflexivity.
      + destruct He as (c' & -> & HR' & Hc). exists c'. auto.
    - pose proof (eval_refines e c s HR) as He. unfold bind at 1. destruct (spec_eval ltb s e) as [s1 [x|ex]].
      + destruct He as (r & c1 & -> & HR1 & Hl & Hc & _). unfold bind at 1. rewrite (live_read _ _ _ _ _ HR1 Hl).
        unfold bind, age. cbn [after]. exists c1. cbn [spec_step].
        destruct (find_elem n_key ltb x (c_elems c1)) as [n|] eqn:Hf.
        * destruct (R_find_Some ltb HO _ _ _ _ HR1 Hf) as (l1 & l2 & _ & Ha & ->). rewrite Ha. auto.
        * apply (R_find_None ltb _ _ _ HR1) in Hf. rewrite Hf. auto.
      + destruct He as (c' & -> & HR' & Hc). exists c'. auto.
    - pose proof (eval_refines (CGet e) c s HR) as He. cbn [spec_eval] in He.
      unfold bind at 1. destruct (spec_eval ltb s e) as [s1 [x|ex]]; cbn [after].
      + destruct (spec_step ltb s1 (OGet x)) as [s2 o] eqn:Hs. cbn [fst snd].
        pose proof (spec_caps s1 (OGet x)) as Hc1. rewrite Hs in Hc1. cbn [fst] in Hc1.
        assert (Ho : (exists v, o = RVal v) \/ (o = RThrow ERuntime)).
        { simpl in Hs. destruct (take_label ltb x (r_items s1)) as [[[i z] rest]|]; injection Hs as _ <-; eauto. }
        destruct Ho as [[v ->]| ->].
        * destruct He as (r & c1 & -> & HR1 & Hl & Hc & _). exists c1. unfold bind. rewrite (live_read _ _ _ _ _ HR1 Hl).
          auto.
        * destruct He as (c' & -> & HR' & Hc). exists c'. auto.
      + destruct He as (c' & -> & HR' & Hc). exists c'. auto.
  Qed.

  Lemma crun_refines ltr p : forall c s, R c s -> Forall (roomy (r_cap s) ltr) p ->
    exists c', crun ltb ltr c p = (Some c', snd (spec_crun ltb ltr s p)) /\ R c' (fst (spec_crun ltb ltr s p)).
  Proof.
    induction p as [|st t IH]; intros c s HR Hp; simpl; [eauto|].
    inversion Hp as [|? ? H1 H2]; subst.
    destruct (cstep_refines ltr st c s HR H1) as (c1 & -> & HR1 & Hc).
    destruct (spec_cstep ltb ltr s st) as [s1 r1]. cbn [fst snd] in *. rewrite <- Hc in H2.
    destruct (IH c1 s1 HR1 H2) as (c2 & -> & HR2). destruct (spec_crun ltb ltr s1 t). simpl. eauto.
  Qed.

  Lemma programs m ltr (p : list (cst T)) : (0 < m < 2 ^ 64)%Z -> Forall (roomy m ltr) p ->
    exists c0 c', lru_new m = Ret c0 tt /\ crun ltb ltr c0 p = (Some c', snd (spec_crun ltb ltr (mkRlist m []) p)).
  Proof.
    intros Hm Hp. exists (mkCache m [] 0). unfold lru_new. destruct (Z.ltb_spec 0 m); [|lia].
    destruct (crun_refines ltr p _ _ (R_new ltb m Hm) Hp) as (c' & -> & _). eauto.
  Qed.

  (** on every cache a program can reach, whatever references it holds *)
  Lemma read_live c s r x : R c s -> read_vref r c = Ret x c -> exists g, live c r x g.
  Proof.
    intros HR. destruct r as [y|a]; simpl.
    - intros [= <-]. exists 0%Z. reflexivity.
    - unfold read_node. destruct (find _ _) as [n|] eqn:Hfd; [|discriminate]. intros [= <-].
      apply find_some in Hfd as [Hin Ha]. apply Nat.eqb_eq in Ha. exists (n_age n), n. repeat split; auto. lia.
  Qed.
  Lemma references_exact (c : cache) r1 r2 x y : reachable ltb c ->
    read_vref r1 c = Ret x c -> read_vref r2 c = Ret y c ->
    (contains ltb c x -> put_refs ltb r1 r2 c = Exc ERuntime c) /\
    (~ contains ltb c x -> ~ evicted c r1 -> ~ evicted c r2 -> put_refs ltb r1 r2 c = put ltb x (VVal y) false c) /\
    (~ contains ltb c x -> evicted c r1 \/ evicted c r2 -> put_refs ltb r1 r2 c = Ub UbDangling).
  Proof.
    intros Hr H1 H2. destruct (reachable_R ltb HO c Hr) as (s & HR).
    destruct (read_live c s r1 x HR H1) as (g1 & Hl1). destruct (read_live c s r2 y HR H2) as (g2 & Hl2).
    assert (Hc : contains ltb c x <-> find_elem n_key ltb x (c_elems c) <> None).
    { unfold contains. rewrite has_label_eq. destruct (find_elem n_key ltb x (c_elems c)); split; intros H; congruence. }
    destruct (put_refs_exact c s r1 r2 x y g1 g2 HR Hl1 Hl2) as [[Hf E]|[(Hf & Hv1 & Hv2 & E)|(Hf & Hv & E)]];
      rewrite E; repeat split; intros; try tauto; try reflexivity.
  Qed.
End LruRefProofs.

(** ** how much room is needed: for every capacity m, a put whose arguments get m elements *)
Definition ring_value (m i : nat) : nat := if Nat.eqb i 0 then S m else S i.
Definition ring_item (m i : nat) : nat * nat := (i, ring_value m i).
Fixpoint get_times (j : nat) (x : nat) : cexp nat := match j with 0 => CLit x | S j' => CGet (get_times j' x) end.
Definition ring (m : nat) : list (cst nat) :=
  map (fun i => SPut (CLit i) (CLit (ring_value m i))) (seq 0 m) ++ [SPut (CGet (CLit 0)) (get_times (m - 1) 1)].

Lemma take_last (items : list (nat * nat)) l v :
  (forall x, In x items -> fst x <> l) -> take_label Nat.ltb l (items ++ [(l, v)]) = Some (length items, (l, v), items).
Proof.
  induction items as [|x t IH]; intros Hn; simpl.
  - unfold eqvb. rewrite Nat.ltb_irrefl. reflexivity.
  - assert (E : eqvb Nat.ltb (fst x) l = false).
    { specialize (Hn x (or_introl eq_refl)). unfold eqvb. destruct (Nat.ltb_spec (fst x) l), (Nat.ltb_spec l (fst x)); simpl; auto; lia. }
    rewrite E, IH; [reflexivity|]. intros y Hy. apply Hn. right; exact Hy.
Qed.
Lemma take_absent (items : list (nat * nat)) l :
  (forall x, In x items -> fst x <> l) -> take_label Nat.ltb l items = None.
Proof.
  intros Hn. apply take_label_None. intros x Hx. specialize (Hn x Hx).
  unfold eqvb. destruct (Nat.ltb_spec (fst x) l), (Nat.ltb_spec l (fst x)); simpl; auto; lia.
Qed.
Lemma in_ring m a n x : In x (rev (map (ring_item m) (seq a n))) -> a <= fst x < a + n.
Proof. rewrite <- in_rev, in_map_iff. intros (i & <- & Hi). apply in_seq in Hi. exact Hi. Qed.

Lemma ring_puts m k : k <= m -> 
  fst (spec_crun Nat.ltb true (mkRlist (Z.of_nat m) []) (map (fun i => SPut (CLit i) (CLit (ring_value m i))) (seq 0 k)))
  = mkRlist (Z.of_nat m) (rev (map (ring_item m) (seq 0 k))) /\
  snd (spec_crun Nat.ltb true (mkRlist (Z.of_nat m) []) (map (fun i => SPut (CLit i) (CLit (ring_value m i))) (seq 0 k)))
  = repeat RUnit k.
Proof.
  assert (G : forall n a, a + n <= m ->
    let r := spec_crun Nat.ltb true (mkRlist (Z.of_nat m) (rev (map (ring_item m) (seq 0 a))))
               (map (fun i => SPut (CLit i) (CLit (ring_value m i))) (seq a n)) in
    fst r = mkRlist (Z.of_nat m) (rev (map (ring_item m) (seq 0 (a + n)))) /\ snd r = repeat RUnit n).
  { induction n as [|n IH]; intros a Ha; cbv zeta.
    - rewrite Nat.add_0_r. auto.
    - cbn [seq map spec_crun spec_cstep spec_two spec_eval spec_step r_items r_cap].
      rewrite take_absent by (intros x Hx; apply in_ring in Hx; lia).
      rewrite rev_length, map_length, seq_length.
      destruct (Z.ltb_spec (Z.of_nat a) (Z.of_nat m)); [|lia].
      specialize (IH (S a)). cbv zeta in IH.
      rewrite seq_S, map_app, rev_app_distr in IH. cbn [map rev app] in IH.
      change ((a, ring_value m a) :: rev (map (ring_item m) (seq 0 a))) with (ring_item m a :: rev (map (ring_item m) (seq 0 a))).
      replace (0 + a) with a in IH by lia.
      destruct (spec_crun _ _ _ _) as [s' rs]. cbn [fst snd] in *.
      destruct IH as [-> ->]; [lia|]. rewrite Nat.add_succ_r. auto. }
  intros Hk. apply (G k 0 Hk).
Qed.

Lemma ring_gets m j : 1 <= m -> j <= m - 1 ->
  spec_eval Nat.ltb (mkRlist (Z.of_nat m) (ring_item m 0 :: rev (map (ring_item m) (seq 1 (m - 1))))) (get_times j 1)
  = (mkRlist (Z.of_nat m) (rev (map (ring_item m) (seq 1 j)) ++ ring_item m 0 :: rev (map (ring_item m) (seq (S j) (m - 1 - j)))),
     inl (S j)).
Proof.
  intros Hm. induction j as [|j IH]; intros Hj.
  - cbn [get_times spec_eval seq map rev app]. rewrite Nat.sub_0_r. reflexivity.
  - cbn [get_times spec_eval]. rewrite IH by lia. cbn [spec_step r_items r_cap].
    rewrite (seq_S j 1), map_app, rev_app_distr.
    replace (m - 1 - j) with (S (m - 1 - S j)) by lia. cbn [seq map rev].
    change (ring_item m (S j)) with (S j, ring_value m (S j)).
    rewrite app_comm_cons, app_assoc, take_last.
    + reflexivity.
    + intros x Hx. apply in_app_or in Hx as [Hx|[<-|Hx]].
      * apply in_ring in Hx. lia.
      * simpl. lia.
      * apply in_ring in Hx. lia.
Qed.

Lemma ring_undefined m : 1 <= m -> (Z.of_nat m < 2 ^ 64)%Z ->
  crun Nat.ltb true (mkCache (Z.of_nat m) [] 0) (ring m) = (None, repeat RUnit m ++ [RUb]).
Proof.
  intros Hm Hlim. unfold ring.
  assert (HO := swo_nat).
  assert (Hpuf : forall p c c' rs q, crun Nat.ltb true c p = (Some c', rs) ->
    crun Nat.ltb true c (p ++ q) = (fst (crun Nat.ltb true c' q), rs ++ snd (crun Nat.ltb true c' q))).
  { induction p as [|st t IH]; intros c c' rs q; simpl.
    - intros [= <- <-]. destruct (crun Nat.ltb true c q); reflexivity.
    - destruct (cstep Nat.ltb true c st) as [[c1|] r]; [|discriminate].
      destruct (crun Nat.ltb true c1 t) as [c2 rs2] eqn:E. intros [= -> <-].
      rewrite (IH _ _ _ q E). reflexivity. }
  set (puts := map (fun i => SPut (CLit i) (CLit (ring_value m i))) (seq 0 m)).
  assert (Hroom : Forall (roomy (Z.of_nat m) true) puts).
  { apply Forall_forall. intros st Hst. apply in_map_iff in Hst as (i & <- & _). simpl. unfold is_get. simpl. split; intros; lia. }
  destruct (crun_refines Nat.ltb HO true puts (mkCache (Z.of_nat m) [] 0) (mkRlist (Z.of_nat m) [])
              (R_new Nat.ltb (Z.of_nat m) ltac:(lia)) Hroom) as (c & Hrun & HR).
  destruct (ring_puts m m (le_n _)) as [Hs Ho]. fold puts in Hs, Ho. rewrite Hs in HR. rewrite Ho in Hrun.
  rewrite (Hpuf _ _ _ _ [SPut (CGet (CLit 0)) (get_times (m - 1) 1)] Hrun).
  enough (E : cstep Nat.ltb true c (SPut (CGet (CLit 0)) (get_times (m - 1) 1)) = (None, RUb)).
  { cbn [crun]. rewrite E. reflexivity. }
  (* the arguments *)
  pose proof (two_refines Nat.ltb HO (CGet (CLit 0)) (get_times (m - 1) 1) c _ HR) as H2.
  unfold spec_two in H2. cbn [spec_eval spec_step r_items r_cap] in H2.
  assert (Hsplit : rev (map (ring_item m) (seq 0 m)) = rev (map (ring_item m) (seq 1 (m - 1))) ++ [(0, ring_value m 0)]).
  { destruct m as [|m']; [lia|]. cbn [seq map rev]. rewrite Nat.sub_succ, Nat.sub_0_r. reflexivity. }
  rewrite Hsplit, take_last in H2 by (intros x Hx; apply in_ring in Hx; lia).
  cbn [snd] in H2. change (0, ring_value m 0) with (ring_item m 0) in H2.
  rewrite (ring_gets m (m - 1)) in H2 by lia.
  rewrite Nat.sub_diag in H2. cbn [seq map rev] in H2.
  destruct H2 as (r1 & r2 & c1 & c2 & E1 & E2 & HR2 & _ & Hl1 & Hl2 & _ & _).
  assert (Hnode : exists a, r1 = VNode a).
  { cbn [eval] in E1. unfold bind in E1. cbn [ret] in E1. destruct (get_ref Nat.ltb (VVal 0) c); try discriminate.
    injection E1 as <- _. eauto. }
  destruct Hnode as (a & ->).
  set (items := rev (map (ring_item m) (seq 1 (m - 1))) ++ [ring_item m 0]) in *.
  assert (Hlen : length items = m).
  { unfold items. rewrite app_length, rev_length, map_length, seq_length. simpl. lia. }
  assert (Hvic : evicted c2 (VNode a)).
  { split.
    - unfold current_size, maximum_size. rewrite (R_length _ _ _ HR2), (R_cap _ _ _ HR2). cbn [r_items r_cap]. rewrite Hlen. reflexivity.
    - destruct Hl1 as (n & Hin & Ha & Hv & _). exists n. split; [exact Hin|]. split; [exact Ha|].
      unfold maximum_size. rewrite (R_cap _ _ _ HR2). cbn [r_cap].
      destruct (R_item Nat.ltb _ _ n HR2 Hin) as (l1 & l2 & Hi & Hage). cbn [r_items] in Hi.
      rewrite Hv in Hi.
      destruct (Nat.eq_dec (length l1) (m - 1)) as [E|E]; [lia|]. exfalso.
      assert (Hlt : length l1 < m - 1).
      { assert (length items = length l1 + S (length l2)) by (rewrite Hi, app_length; reflexivity). lia. }
      assert (Hnth : nth_error items (length l1) = Some (n_key n, ring_value m 0)).
      { rewrite Hi. rewrite nth_error_app2, Nat.sub_diag by lia. reflexivity. }
      unfold items in Hnth. rewrite nth_error_app1 in Hnth by (rewrite rev_length, map_length, seq_length; lia).
      apply nth_error_In in Hnth. rewrite <- in_rev, in_map_iff in Hnth. destruct Hnth as (i & Hitem & Hseq).
      apply in_seq in Hseq. unfold ring_item, ring_value in Hitem. injection Hitem as _ Hval.
      destruct (Nat.eqb_spec i 0); simpl in Hval; lia. }
  assert (Habs : find_elem n_key Nat.ltb (S m) (c_elems c2) = None).
  { apply (R_find_None Nat.ltb _ _ _ HR2). cbn [r_items]. apply take_absent. unfold items. intros x Hx.
    apply in_app_or in Hx as [Hx|[<-|[]]]; [apply in_ring in Hx; lia|simpl; lia]. }
  unfold cstep, call, eval_args, bind at 1. unfold bind at 1. rewrite E1. unfold bind at 1. rewrite E2. cbn [ret fst snd].
  unfold bind.
  destruct (put_refs_exact Nat.ltb HO c2 _ _ _ _ _ _ _ HR2 Hl1 Hl2) as [[Hf _]|[(_ & Hv1 & _)|(_ & _ & ->)]].
  - exfalso. apply Hf. exact Habs.
  - contradiction.
  - reflexivity.
Qed.
