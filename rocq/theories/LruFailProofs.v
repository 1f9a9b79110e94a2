(** LruFailProofs.v -- lemmas about histories with failing puts; the theorems are in LruProps.v. *)
From Verif Require Import Base StdOrd LruModel LruSpec LruProofs LruFailSpec.

Section LruFail.
  Context {L V : Type} (ltb : L -> L -> bool) (HO : SWO ltb).
  Notation node := (node L V).
  Notation cache := (cache L V).
  Notation slots := (slots L V).
  Notation fop := (fop L V).

  (** occupied slots with their ages *)
  Fixpoint occ (i : Z) (s : slots) : list (Z * (L * V)) :=
    match s with
    | [] => []
    | Some x :: t => (i, x) :: occ (i + 1) t
    | None :: t => occ (i + 1) t
    end.
  Lemma occ_app i s t : occ i (s ++ t) = occ i s ++ occ (i + Z.of_nat (length s)) t.
  Proof.
    revert i; induction s as [|e s IH]; intros i; simpl.
    - f_equal; lia.
    - destruct e; simpl; rewrite IH; [f_equal|]; f_equal; f_equal; lia.
  Qed.
  Lemma occ_In i s a x : In (a, x) (occ i s) ->
    exists s1 s2, s = s1 ++ Some x :: s2 /\ a = (i + Z.of_nat (length s1))%Z.
  Proof.
    revert i; induction s as [|e s IH]; intros i; simpl; [tauto|].
    assert (Hrec : In (a, x) (occ (i + 1) s) ->
              exists s1 s2, e :: s = s1 ++ Some x :: s2 /\ a = (i + Z.of_nat (length s1))%Z).
    { intros H. destruct (IH _ H) as (s1 & s2 & -> & ->). exists (e :: s1), s2. split; [reflexivity|simpl; lia]. }
    destruct e as [y|]; [|exact Hrec]. intros [[= -> ->]|H]; [|exact (Hrec H)].
    exists [], s. split; [reflexivity|simpl; lia].
  Qed.
  Lemma occ_In_mid i s1 x s2 : In ((i + Z.of_nat (length s1))%Z, x) (occ i (s1 ++ Some x :: s2)).
  Proof. rewrite occ_app. apply in_or_app. right. simpl. auto. Qed.
  Lemma occ_length i s : length (occ i s) = count s.
  Proof. revert i; induction s as [|[x|] s IH]; intros i; simpl; auto. Qed.
  Lemma occ_ages (g : Z -> Z) i j s :
    (forall k, (0 <= k < Z.of_nat (length s))%Z -> g (i + k)%Z = (j + k)%Z) ->
    map (fun p => (g (fst p), snd p)) (occ i s) = occ j s.
  Proof.
    revert i j; induction s as [|e s IH]; intros i j Hg; simpl; [reflexivity|].
    assert (Ht : map (fun p => (g (fst p), snd p)) (occ (i + 1) s) = occ (j + 1) s).
    { apply IH. intros k Hk. replace (i + 1 + k)%Z with (i + (k + 1))%Z by lia. rewrite Hg; simpl in *; lia. }
    destruct e as [x|]; [|exact Ht]. simpl. rewrite Ht. f_equal. f_equal.
    rewrite <- (Z.add_0_r i). rewrite Hg; simpl; lia.
  Qed.
  Lemma count_app (s t : slots) : count (s ++ t) = count s + count t.
  Proof. induction s as [|[x|] s IH]; simpl; auto. Qed.
  Lemma upd_mid {A} (s1 : list A) e x s2 : upd (length s1) e (s1 ++ x :: s2) = s1 ++ e :: s2.
  Proof. induction s1 as [|y s1 IH]; simpl; auto. f_equal. exact IH. Qed.

  Lemma find_slot_None l (s : slots) :
    find_slot ltb l s = None <-> (forall x, In (Some x) s -> eqvb ltb (fst x) l = false).
  Proof.
    induction s as [|e s IH]; simpl; [split; auto; intros _ x []|].
    destruct e as [x|].
    - destruct (eqvb ltb (fst x) l) eqn:E.
      + split; [discriminate|]. intros H. rewrite (H x (or_introl eq_refl)) in E. discriminate.
      + destruct (find_slot ltb l s) as [[[i y] q]|].
        * split; [discriminate|]. intros H. enough (Some (i, y, q) = None) by discriminate. apply IH. auto.
        * split; auto. intros _ y [[= <-]|Hy]; auto. apply IH; auto.
    - destruct (find_slot ltb l s) as [[[i y] q]|].
      + split; [discriminate|]. intros H. enough (Some (i, y, q) = None) by discriminate. apply IH. auto.
      + split; auto. intros _ y [[=]|Hy]. apply IH; auto.
  Qed.
  Lemma find_slot_Some l (s : slots) i x rest : find_slot ltb l s = Some (i, x, rest) ->
    exists s1 s2, s = s1 ++ Some x :: s2 /\ rest = s1 ++ s2 /\ i = length s1 /\ eqvb ltb (fst x) l = true.
  Proof.
    revert i rest; induction s as [|e s IH]; simpl; intros i rest; [discriminate|].
    assert (Hrec : match find_slot ltb l s with Some (i, y, rest) => Some (S i, y, e :: rest) | None => None end
                   = Some (i, x, rest) ->
              exists s1 s2, e :: s = s1 ++ Some x :: s2 /\ rest = s1 ++ s2 /\ i = length s1 /\ eqvb ltb (fst x) l = true).
    { destruct (find_slot ltb l s) as [[[j y] q]|]; [|discriminate]. intros [= <- <- <-].
      destruct (IH j q eq_refl) as (s1 & s2 & -> & -> & -> & H). exists (e :: s1), s2. auto. }
    destruct e as [y|]; [|exact Hrec]. destruct (eqvb ltb (fst y) l) eqn:E; [|exact Hrec].
    intros [= <- <- <-]. exists [], s. auto.
  Qed.

  Record G (cap : Z) (c : cache) (s : slots) : Prop := {
    G_cap : c_max c = cap;
    G_range : (0 < cap < 2 ^ 64)%Z;
    G_count : (Z.of_nat (count s) <= cap)%Z;
    G_sorted : sorted n_key ltb (c_elems c);
    G_perm : Permutation (map view (c_elems c)) (occ 0 s);
    G_addr : NoDup (map n_addr (c_elems c));
    G_fresh : forall n, In n (c_elems c) -> n_addr n < c_next c
  }.
  Lemma G_length cap c s : G cap c s -> length (c_elems c) = count s.
  Proof. intros HG. rewrite <- (map_length view), (Permutation_length (G_perm _ _ _ HG)). apply occ_length. Qed.
  Lemma G_item cap c s n : G cap c s -> In n (c_elems c) ->
    exists s1 s2, s = s1 ++ Some (n_key n, n_val n) :: s2 /\ n_age n = Z.of_nat (length s1).
  Proof.
    intros HG Hin.
    assert (Hv : In (view n) (occ 0 s)) by (eapply Permutation_in; [exact (G_perm _ _ _ HG)|]; apply in_map; auto).
    apply occ_In in Hv as (s1 & s2 & Hs & Ha). exists s1, s2. split; [exact Hs|]. lia.
  Qed.
  Lemma G_item_inv cap c s s1 x s2 : G cap c s -> s = s1 ++ Some x :: s2 ->
    exists n, In n (c_elems c) /\ n_key n = fst x /\ n_val n = snd x /\ n_age n = Z.of_nat (length s1).
  Proof.
    intros HG ->. pose proof (occ_In_mid 0 s1 x s2) as Hin.
    apply (Permutation_in _ (Permutation_sym (G_perm _ _ _ HG))) in Hin.
    apply in_map_iff in Hin as (n & Hn & Hin). injection Hn as Ha Hx. exists n. subst x. auto.
  Qed.
  Lemma G_ages_inj cap c s n1 n2 : G cap c s -> In n1 (c_elems c) -> In n2 (c_elems c) ->
    n_age n1 = n_age n2 -> n1 = n2.
  Proof.
    intros HG H1 H2 Ha.
    destruct (G_item _ _ _ _ HG H1) as (a1 & b1 & E1 & L1).
    destruct (G_item _ _ _ _ HG H2) as (a2 & b2 & E2 & L2).
    assert (Hlen : length a1 = length a2) by lia. rewrite E1 in E2.
    assert (Hk : n_key n1 = n_key n2).
    { assert (X : nth_error (a1 ++ Some (n_key n1, n_val n1) :: b1) (length a1) =
                  nth_error (a2 ++ Some (n_key n2, n_val n2) :: b2) (length a2)) by (rewrite E2, Hlen; reflexivity).
      rewrite !nth_error_app_mid in X. congruence. }
    apply (sorted_inj n_key ltb (c_elems c)); auto; [apply (G_sorted _ _ _ HG)|].
    rewrite Hk. apply eqvb_refl; assumption.
  Qed.
  Lemma G_find_None cap c s l : G cap c s ->
    (find_elem n_key ltb l (c_elems c) = None <-> find_slot ltb l s = None).
  Proof.
    intros HG. rewrite find_elem_None, find_slot_None. split.
    - intros Hf x Hx. apply in_split in Hx as (s1 & s2 & ->).
      destruct (G_item_inv _ _ _ s1 x s2 HG eq_refl) as (n & Hn & <- & _). auto.
    - intros Ht n Hn. destruct (G_item _ _ _ _ HG Hn) as (s1 & s2 & -> & _).
      apply (Ht (n_key n, n_val n)). apply in_or_app; simpl; auto.
  Qed.
  Lemma G_find_Some cap c s l n : G cap c s -> find_elem n_key ltb l (c_elems c) = Some n ->
    exists s1 s2, s = s1 ++ Some (n_key n, n_val n) :: s2 /\ n_age n = Z.of_nat (length s1) /\
                  find_slot ltb l s = Some (length s1, (n_key n, n_val n), s1 ++ s2).
  Proof.
    intros HG Hf. pose proof (find_elem_In _ _ _ _ _ Hf) as [Hin Hk].
    destruct (find_slot ltb l s) as [[[i x] rest]|] eqn:Ht.
    - destruct (find_slot_Some _ _ _ _ _ Ht) as (s1 & s2 & Hs & -> & -> & Hx).
      destruct (G_item_inv _ _ _ s1 x s2 HG Hs) as (n' & Hin' & Hk' & Hv' & Ha').
      assert (n' = n).
      { apply (sorted_inj n_key ltb (c_elems c)); auto; [apply (G_sorted _ _ _ HG)|].
        apply eqvb_trans with (b := l); auto.
        - rewrite Hk'. exact Hx.
        - rewrite eqvb_sym. exact Hk. }
      subst n'. exists s1, s2. rewrite Hk', Hv', <- surjective_pairing. auto.
    - apply (G_find_None _ _ _ _ HG) in Ht. congruence.
  Qed.

  Lemma G_get cap c s l n i x rest : G cap c s -> (Z.of_nat (length s) < 2 ^ 64)%Z ->
    find_elem n_key ltb l (c_elems c) = Some n -> find_slot ltb l s = Some (i, x, rest) ->
    G cap (set_elems c (get_elems n (c_elems c))) (Some x :: rest).
  Proof.
    intros HG Hlen64 Hf Ht.
    destruct (G_find_Some _ _ _ _ _ HG Hf) as (s1 & s2 & Hs & Ha & Ht').
    rewrite Ht in Ht'. injection Ht' as -> -> ->.
    pose proof (find_elem_In _ _ _ _ _ Hf) as [Hin Hk].
    pose proof HG as [Hcap Hrange Hbound Hsort Hperm Haddr Hfresh].
    constructor; simpl; auto.
    - rewrite Hs in Hbound. rewrite count_app in *. simpl in *. lia.
    - apply sorted_map_key; auto. intros m.
      destruct (n_addr m =? n_addr n); [reflexivity|]. destruct (n_age m <? n_age n)%Z; reflexivity.
    - set (g := fun a => if (a =? n_age n)%Z then 0%Z else if (a <? n_age n)%Z then wrap64 (a + 1) else a).
      assert (Hview : map view (get_elems n (c_elems c)) =
                      map (fun p => (g (fst p), snd p)) (map view (c_elems c))).
      { unfold get_elems. rewrite !map_map. apply map_ext_in. intros m Hm. unfold view, g. simpl.
        destruct (Nat.eqb_spec (n_addr m) (n_addr n)) as [Heq|Hne].
        - assert (m = n).
          { destruct (In_nth_error _ _ Hm) as (j1 & Hj1). destruct (In_nth_error _ _ Hin) as (j2 & Hj2).
            assert (j1 = j2) by (eapply NoDup_map_nth; eassumption). congruence. }
          subst m. rewrite Z.eqb_refl. reflexivity.
        - destruct (Z.eqb_spec (n_age m) (n_age n)) as [Heq|Hane].
          + exfalso. apply Hne. f_equal. eapply G_ages_inj; eassumption.
          + destruct (n_age m <? n_age n)%Z; reflexivity. }
      rewrite Hview, (Permutation_map (fun p => (g (fst p), snd p)) Hperm).
      rewrite Hs, occ_app, map_app. cbn [occ map]. rewrite occ_app.
      cbn [fst snd]. change (0 + 1)%Z with 1%Z. rewrite Z.add_0_l.
      rewrite Hs, app_length in Hlen64. simpl in Hlen64.
      rewrite (occ_ages g 0 1 s1).
      2:{ intros k Hkr. unfold g. rewrite Ha. destruct (Z.eqb_spec (0 + k) (Z.of_nat (length s1))); [lia|].
          destruct (Z.ltb_spec (0 + k) (Z.of_nat (length s1))); [|lia].
          rewrite wrap64_small; lia. }
      rewrite (occ_ages g _ (Z.of_nat (length s1) + 1) s2).
      2:{ intros k Hkr. unfold g. rewrite Ha.
          destruct (Z.eqb_spec (Z.of_nat (length s1) + 1 + k) (Z.of_nat (length s1))); [lia|].
          destruct (Z.ltb_spec (Z.of_nat (length s1) + 1 + k) (Z.of_nat (length s1))); lia. }
      replace (g (Z.of_nat (length s1))) with 0%Z by (unfold g; rewrite Ha, Z.eqb_refl; reflexivity).
      replace (1 + Z.of_nat (length s1))%Z with (Z.of_nat (length s1) + 1)%Z by lia.
      symmetry. apply Permutation_middle.
    - unfold get_elems. rewrite map_addr_pres; auto. intros m.
      destruct (n_addr m =? n_addr n); [reflexivity|]. destruct (n_age m <? n_age n)%Z; reflexivity.
    - intros m Hm. unfold get_elems in Hm. apply in_map_iff in Hm as (m' & <- & Hm').
      specialize (Hfresh _ Hm').
      destruct (n_addr m' =? n_addr n); [exact Hfresh|]. destruct (n_age m' <? n_age n)%Z; exact Hfresh.
  Qed.

  (** ageing *)
  Lemma aged (es : list node) s : (Z.of_nat (length s) < 2 ^ 64)%Z ->
    Permutation (map view es) (occ 0 s) -> Permutation (map view (map incr_age es)) (occ 1 s).
  Proof.
    intros Hlen Hp.
    assert (Hview : map view (map incr_age es) = map (fun p => (wrap64 (fst p + 1), snd p)) (map view es)).
    { rewrite !map_map. apply map_ext. intros m. reflexivity. }
    rewrite Hview, (Permutation_map _ Hp).
    rewrite (occ_ages (fun a => wrap64 (a + 1)) 0 1 s); [reflexivity|].
    intros k Hk. rewrite wrap64_small; lia.
  Qed.

  (** the part of put before the insertion *)
  Lemma make_room_spec cap c s l v b : G cap c s -> find_slot ltb l s = None ->
    match make_room cap s with
    | Some s' => exists es, put ltb l (VVal v) b c = put_insert ltb l (VVal v) b (set_elems c (map incr_age es)) /\
        (forall n, In n es -> In n (c_elems c)) /\ sorted n_key ltb es /\ NoDup (map n_addr es) /\
        Permutation (map view es) (occ 0 s') /\ (Z.of_nat (count s') < cap)%Z /\ length s' = length s
    | None => put ltb l (VVal v) b c = Ub UbEraseEnd
    end.
  Proof.
    intros HG Ht. assert (Hf := proj2 (G_find_None _ _ _ _ HG) Ht).
    pose proof (G_range _ _ _ HG) as Hrange. pose proof (G_count _ _ _ HG) as Hcount.
    unfold make_room, put. apply find_pos_None in Hf. rewrite Hf.
    rewrite (G_length _ _ _ HG), (G_cap _ _ _ HG).
    destruct (Z.ltb_spec (Z.of_nat (count s)) cap) as [Hlt|Hge].
    - exists (c_elems c). repeat split; auto; apply HG.
    - assert (Hfull : Z.of_nat (count s) = cap) by lia. rewrite <- (G_length _ _ _ HG).
      unfold bind. destruct (put_loop_map c) as (r & Hr & Hrp). rewrite Hr.
      assert (Hw : wrap64 (c_max c - 1) = (cap - 1)%Z) by (rewrite (G_cap _ _ _ HG); apply wrap64_small; lia).
      rewrite Hw in Hrp. unfold put_erase.
      assert (Hold : forall x, nth_error s (Z.to_nat (cap - 1)) = Some (Some x) ->
                exists n, In n (c_elems c) /\ n_age n = (cap - 1)%Z).
      { intros x Hx. apply nth_error_split in Hx as (s1 & s2 & Hs & Hl).
        destruct (G_item_inv _ _ _ s1 x s2 HG Hs) as (n & Hn & _ & _ & Ha). exists n. split; auto. lia. }
      destruct r as [i|].
      + destruct Hrp as (n & Hn & Hna).
        destruct (G_item _ _ _ _ HG (nth_error_In _ _ Hn)) as (s1 & s2 & Hs & Ha).
        assert (Hl : Z.to_nat (cap - 1) = length s1) by lia. rewrite Hl, Hs, nth_error_app_mid, upd_mid.
        destruct (nth_error_split _ _ Hn) as (e1 & e2 & He & Hi). subst i.
        exists (e1 ++ e2). repeat split.
        * f_equal. unfold set_elems; simpl. f_equal. rewrite He, !map_app. simpl.
          rewrite <- (map_length incr_age e1), erase_at_app. reflexivity.
        * intros m Hm. rewrite He. apply in_app_or in Hm. apply in_or_app. simpl. tauto.
        * pose proof (G_sorted _ _ _ HG) as H. rewrite He in H. eapply sorted_app_remove; eassumption.
        * pose proof (G_addr _ _ _ HG) as H. rewrite He, map_app in H. simpl in H. rewrite map_app.
          eapply NoDup_app_remove; eassumption.
        * pose proof (G_perm _ _ _ HG) as Hp. rewrite He, Hs, occ_app, map_app in Hp. simpl in Hp.
          rewrite map_app, occ_app. simpl. rewrite <- Ha in *.
          change (n_age n, (n_key n, n_val n)) with (view n) in Hp.
          apply Permutation_app_inv in Hp. exact Hp.
        * rewrite Hs, count_app in Hfull. rewrite count_app. simpl in *. lia.
        * rewrite !app_length. reflexivity.
      + destruct (nth_error s (Z.to_nat (cap - 1))) as [[x|]|] eqn:E; try reflexivity.
        destruct (Hold x eq_refl) as (n & Hn & Ha). exfalso. apply (Hrp n Hn). exact Ha.
  Qed.

  Lemma G_put cap c s l v b : G cap c s -> (Z.of_nat (length s) < 2 ^ 64)%Z -> find_slot ltb l s = None ->
    match make_room cap s with
    | Some s' => exists c', put ltb l (VVal v) b c = (if b then Exc (EUser 0) c' else Ret tt c') /\
                   G cap c' ((if b then None else Some (l, v)) :: s') /\ length s' = length s
    | None => put ltb l (VVal v) b c = Ub UbEraseEnd
    end.
  Proof.
    intros HG Hlen Ht. pose proof (make_room_spec cap c s l v b HG Ht) as H.
    destruct (make_room cap s) as [s'|]; [|exact H].
    destruct H as (es & Hput & Hes & Hs & Hnd & Hp & Hc & Hl'). rewrite Hput, put_insert_val.
    assert (Hs' : sorted n_key ltb (map incr_age es)) by (apply sorted_map_key; auto).
    assert (Hp' : Permutation (map view (map incr_age es)) (occ 1 s')) by (apply aged; auto; lia).
    pose proof HG as [Hcap Hrange Hbound Hsort Hperm Haddr Hfresh].
    destruct b.
    - eexists. split; [reflexivity|]. split; auto. constructor; simpl; auto; try lia.
      + rewrite incr_age_addr. exact Hnd.
      + intros n Hn. apply in_map_iff in Hn as (m & <- & Hm). apply (Hfresh m). auto.
    - eexists. split; [reflexivity|]. split; auto.
      assert (Hf' : find_elem n_key ltb l (map incr_age es) = None).
      { apply find_elem_None. intros n Hn. apply in_map_iff in Hn as (m & <- & Hm).
        apply (G_find_None _ _ _ _ HG) in Ht. rewrite find_elem_None in Ht. apply (Ht m). auto. }
      pose proof (insert_elem_perm n_key ltb (mkNode (c_next c) l 0%Z v) _ Hs' Hf') as Hip.
      constructor; simpl; auto; try lia.
      + apply insert_elem_sorted; assumption.
      + rewrite (Permutation_map view Hip). simpl. constructor. exact Hp'.
      + apply (Permutation_NoDup (l := c_next c :: map n_addr es)).
        * symmetry. rewrite (Permutation_map n_addr Hip). simpl. rewrite incr_age_addr. reflexivity.
        * constructor; auto. intros Hin. apply in_map_iff in Hin as (m & Hm & Hin).
          specialize (Hfresh m (Hes m Hin)). lia.
      + intros n Hn. apply insert_elem_In in Hn as [->|Hn]; [simpl; lia|].
        apply in_map_iff in Hn as (m & <- & Hm). specialize (Hfresh m (Hes m Hm)). simpl. lia.
  Qed.

  Lemma fstep_refines cap c s o : G cap c s -> (Z.of_nat (length s) < 2 ^ 64)%Z ->
    match slot_step ltb cap s o with
    | (Some s', r) => exists c', fstep ltb c o = (Some c', r) /\ G cap c' s' /\ length s' <= S (length s)
    | (None, r) => fstep ltb c o = (None, r)
    end.
  Proof.
    intros HG Hlen. destruct o as [[l|l|l|l v| |]|l v]; cbn [slot_step fstep step].
    - exists c. rewrite has_label_eq. split; [|auto].
      destruct (find_elem n_key ltb l (c_elems c)) as [n|] eqn:Hf.
      + destruct (G_find_Some _ _ _ _ _ HG Hf) as (s1 & s2 & _ & _ & ->). reflexivity.
      + apply (G_find_None _ _ _ _ HG) in Hf. rewrite Hf. reflexivity.
    - destruct (find_elem n_key ltb l (c_elems c)) as [n|] eqn:Hf.
      + destruct (G_find_Some _ _ _ _ _ HG Hf) as (s1 & s2 & Hs & Ha & Ht). rewrite Ht.
        pose proof (G_get _ _ _ _ _ _ _ _ HG Hlen Hf Ht) as HG'.
        rewrite (get_eq ltb c l n (G_addr _ _ _ HG) Hf).
        pose proof (find_elem_In _ _ _ _ _ Hf) as [Hin _].
        pose proof (get_elems_In n (c_elems c) Hin) as Hin'.
        pose proof (read_node_get (set_elems c (get_elems n (c_elems c))) (set_age n 0%Z) (G_addr _ _ _ HG') Hin') as Hrd.
        simpl in Hrd. rewrite Hrd. eexists. split; [reflexivity|]. split; [exact HG'|].
        rewrite Hs, !app_length. simpl. rewrite app_length. lia.
      + rewrite (get_none ltb c l Hf). apply (G_find_None _ _ _ _ HG) in Hf. rewrite Hf. eauto.
    - unfold age. destruct (find_elem n_key ltb l (c_elems c)) as [n|] eqn:Hf.
      + destruct (G_find_Some _ _ _ _ _ HG Hf) as (s1 & s2 & _ & Ha & ->). rewrite Ha. eauto.
      + apply (G_find_None _ _ _ _ HG) in Hf. rewrite Hf. eauto.
    - unfold put_slot. destruct (find_slot ltb l s) as [q|] eqn:Ht.
      + rewrite put_none_throws; [eauto|]. intros Hn. apply (G_find_None _ _ _ _ HG) in Hn. congruence.
      + pose proof (G_put cap c s l v false HG Hlen Ht) as H. destruct (make_room cap s) as [s'|].
        * destruct H as (c' & -> & HG' & Hl). exists c'. split; auto. split; auto. simpl. lia.
        * rewrite H. reflexivity.
    - unfold current_size. rewrite (G_length _ _ _ HG). eauto.
    - unfold maximum_size. rewrite (G_cap _ _ _ HG). eauto.
    - unfold put_slot. destruct (find_slot ltb l s) as [q|] eqn:Ht.
      + rewrite put_none_throws; [eauto|]. intros Hn. apply (G_find_None _ _ _ _ HG) in Hn. congruence.
      + pose proof (G_put cap c s l v true HG Hlen Ht) as H. destruct (make_room cap s) as [s'|].
        * destruct H as (c' & -> & HG' & Hl). exists c'. split; auto. split; auto. simpl. lia.
        * rewrite H. reflexivity.
  Qed.

  Lemma frun_refines_gen cap ops : forall c s, G cap c s ->
    (Z.of_nat (length s) + Z.of_nat (length ops) <= 2 ^ 64)%Z ->
    match slot_run ltb cap s ops with
    | (Some s', rs) => exists c', frun ltb c ops = (Some c', rs) /\ G cap c' s' /\ length s' <= length s + length ops
    | (None, rs) => frun ltb c ops = (None, rs)
    end.
  Proof.
    induction ops as [|o t IH]; intros c s HG Hlen; cbn [slot_run frun].
    - exists c. split; [reflexivity|]. split; auto. simpl. lia.
    - cbn [length] in Hlen. pose proof (fstep_refines cap c s o HG ltac:(lia)) as H1.
      destruct (slot_step ltb cap s o) as [[s1|] r].
      + destruct H1 as (c1 & -> & HG1 & Hl1). specialize (IH c1 s1 HG1 ltac:(lia)).
        destruct (slot_run ltb cap s1 t) as [[s2|] rs].
        * destruct IH as (c2 & -> & HG2 & Hl2). exists c2. split; auto. split; auto. simpl. lia.
        * rewrite IH. reflexivity.
      + rewrite H1. reflexivity.
  Qed.
  Lemma G_new m : (0 < m < 2 ^ 64)%Z -> G m (mkCache m [] 0) [].
  Proof. intros Hm. constructor; simpl; try lia; try constructor. Qed.
  Lemma frun_refines m ops : (0 < m < 2 ^ 64)%Z -> (Z.of_nat (length ops) <= 2 ^ 64)%Z ->
    exists c0, lru_new (L:=L) (V:=V) m = Ret c0 tt /\ snd (frun ltb c0 ops) = snd (slot_run ltb m [] ops) /\
      (fst (frun ltb c0 ops) = None <-> fst (slot_run ltb m [] ops) = None).
  Proof.
    intros Hm Hl. exists (mkCache m [] 0). unfold lru_new. destruct (Z.ltb_spec 0 m); [|lia].
    split; [reflexivity|].
    pose proof (frun_refines_gen m ops _ _ (G_new m Hm) ltac:(simpl; lia)) as HR.
    destruct (slot_run ltb m [] ops) as [[s|] rs].
    - destruct HR as (c' & -> & _). split; [reflexivity|]. split; discriminate.
    - rewrite HR. split; [reflexivity|]. split; reflexivity.
  Qed.

  (** ** after a failing put that leaves something behind, the next puts run into undefined behaviour *)
  Definition fresh_for (s : slots) (ls : list L) : Prop :=
    ForallOrdPairs (fun a b => eqvb ltb a b = false) ls /\ Forall (fun l => find_slot ltb l s = None) ls.
  Lemma upd_split {A} (s1 : list A) e x s2 k y : nth_error (s1 ++ x :: s2) k = Some y -> length s1 < k ->
    exists a b, s2 = a ++ y :: b /\ upd k e (s1 ++ x :: s2) = s1 ++ x :: a ++ e :: b.
  Proof.
    intros Hn Hk. rewrite nth_error_app2 in Hn by lia.
    destruct (k - length s1) as [|j] eqn:Ej; [lia|]. simpl in Hn.
    apply nth_error_split in Hn as (a & b & -> & Hj). exists a, b. split; auto.
    replace k with (length (s1 ++ x :: a)) by (rewrite app_length; simpl; lia).
    replace (s1 ++ x :: a ++ y :: b) with ((s1 ++ x :: a) ++ y :: b) by (rewrite <- app_assoc; reflexivity).
    rewrite upd_mid, <- app_assoc. reflexivity.
  Qed.

  Lemma gap_fatal cap vs : forall ls (xs : slots) t,
    length ls = length vs -> (0 < cap)%Z -> count xs = length xs ->
    (Z.of_nat (length xs) + Z.of_nat (length ls) = cap)%Z -> ls <> [] ->
    1 <= count t -> (Z.of_nat (count (xs ++ None :: t)) <= cap)%Z ->
    fresh_for (xs ++ None :: t) ls ->
    fst (slot_run ltb cap (xs ++ None :: t) (map (fun p => FCall (OPut (fst p) (snd p))) (combine ls vs))) = None.
  Proof.
    induction vs as [|v vs IH]; intros [|l ls] xs t Hlv Hcap Hxs Hlen Hne Ht Hcnt Hfr; try discriminate; try contradiction.
    simpl combine. cbn [map slot_run slot_step fst snd].
    destruct Hfr as [Hpair Hfr]. inversion Hpair as [|? ? Hl Hpair']; subst.
    inversion Hfr as [|? ? Hl0 Hfr']; subst.
    unfold put_slot. rewrite Hl0. unfold make_room. cbn [length] in *.
    pose proof Hcnt as Hcnt'. rewrite count_app in Hcnt'. simpl in Hcnt'.
    set (s := xs ++ None :: t) in *.
    assert (Hnext : forall s', (exists t', s' = xs ++ None :: t' /\ 1 <= count t' /\ (Z.of_nat (count s') < Z.of_nat (length xs) + Z.of_nat (S (length ls)))%Z /\
                      (forall x, In (Some x) s' -> In (Some x) s)) -> (0 < length ls) ->
              fst (let (s'', rs) := slot_run ltb (Z.of_nat (length xs) + Z.of_nat (S (length ls))) (Some (l, v) :: s')
                       (map (fun p => FCall (OPut (fst p) (snd p))) (combine ls vs)) in (s'', RUnit :: rs)) = None).
    { intros s' (t' & -> & Ht' & Hc' & Hin) Hls.
      assert (Hgo : fst (slot_run ltb (Z.of_nat (length xs) + Z.of_nat (S (length ls))) ((Some (l, v) :: xs) ++ None :: t')
                       (map (fun p => FCall (OPut (fst p) (snd p))) (combine ls vs))) = None).
      { apply IH; auto.
        - simpl. lia.
        - simpl length. lia.
        - intros ->. simpl in Hls. lia.
        - rewrite <- app_comm_cons. simpl. lia.
        - split; auto. apply Forall_forall. intros y Hy. apply find_slot_None. intros x [[= <-]|Hx].
          + simpl. rewrite Forall_forall in Hl. auto.
          + rewrite Forall_forall in Hfr'. specialize (Hfr' y Hy). rewrite find_slot_None in Hfr'. auto. }
      rewrite <- app_comm_cons in Hgo. destruct (slot_run _ _ _ _) as [s'' rs]. simpl in *. exact Hgo. }
    destruct (Z.ltb_spec (Z.of_nat (count s)) (Z.of_nat (length xs) + Z.of_nat (S (length ls)))) as [Hlt|Hge].
    - apply Hnext; [exists t; auto|]. unfold s in Hlt. rewrite count_app in Hlt. simpl in Hlt. lia.
    - destruct (nth_error s (Z.to_nat (Z.of_nat (length xs) + Z.of_nat (S (length ls)) - 1))) as [[y|]|] eqn:En; try reflexivity.
      replace (Z.to_nat (Z.of_nat (length xs) + Z.of_nat (S (length ls)) - 1)) with (length xs + length ls) in * by lia.
      destruct ls as [|l' ls'].
      + exfalso. simpl in En. rewrite Nat.add_0_r in En. unfold s in En. rewrite nth_error_app_mid in En. discriminate.
      + unfold s in En. destruct (upd_split xs None None t _ _ En ltac:(simpl; lia)) as (a & b & Hab & Hupd).
        apply Hnext; [|simpl; lia]. exists (a ++ None :: b).
        assert (Hcs : count s = length xs + count t) by (unfold s; rewrite count_app; simpl; lia).
        rewrite Hab, count_app in Hcs. simpl in Hcs.
        split; [exact Hupd|]. split; [|split].
        * rewrite count_app. simpl in Hge, Hcs |- *. lia.
        * assert (Hu : count (xs ++ None :: a ++ None :: b) = length xs + (count a + count b))
            by (rewrite count_app; simpl; rewrite count_app; simpl; lia).
          fold s in Hupd. rewrite Hupd, Hu. lia.
        * unfold s. rewrite Hupd. intros x Hx. rewrite Hab. apply in_app_or in Hx as [Hx|[[=]|Hx]]; apply in_or_app; auto.
          right. right. apply in_app_or in Hx as [Hx|[[=]|Hx]]; apply in_or_app; simpl; auto.
  Qed.

  Lemma frun_puts (c : cache) ps :
    frun ltb c (map (fun p : L * V => FCall (OPut (fst p) (snd p))) ps) =
    run ltb c (map (fun p : L * V => OPut (fst p) (snd p)) ps).
  Proof.
    revert c. induction ps as [|p ps IH]; intros c; auto. cbn [map frun run fstep].
    destruct (step ltb c (OPut (fst p) (snd p))) as [[c'|] r]; auto. rewrite IH. reflexivity.
  Qed.
  Lemma failure_fatal (c c' : cache) l v ps : freachable ltb c ->
    put ltb l (VVal v) true c = Exc (EUser 0) c' -> (0 < current_size c')%Z ->
    Z.of_nat (length ps) = maximum_size c ->
    ForallOrdPairs (fun a b => eqvb ltb (fst a) (fst b) = false) ps ->
    Forall (fun p : L * V => ~ contains ltb c' (fst p)) ps ->
    fst (run ltb c' (map (fun p => OPut (fst p) (snd p)) ps)) = None.
  Proof.
    intros (m & c0 & ops & outs & Hm & Hlops & Hc0 & Hrun) Hput Hsize Hps Hpair Hfr.
    unfold lru_new in Hc0. destruct (Z.ltb_spec 0 m); [|lia]. injection Hc0 as <-.
    pose proof (frun_refines_gen m ops _ _ (G_new m Hm) ltac:(simpl; lia)) as HR.
    destruct (slot_run ltb m [] ops) as [[s|] rs]; [|rewrite HR in Hrun; discriminate].
    destruct HR as (c1 & Hr & HG & Hls). rewrite Hr in Hrun. injection Hrun as -> _. simpl in Hls.
    assert (Hmax : maximum_size c = m) by (unfold maximum_size; rewrite (G_cap _ _ _ HG); reflexivity).
    destruct (find_slot ltb l s) as [q|] eqn:Hf.
    { rewrite put_none_throws in Hput; [discriminate|]. intros Hn. apply (G_find_None _ _ _ _ HG) in Hn. congruence. }
    pose proof (G_put m c s l v true HG ltac:(lia) Hf) as HP.
    destruct (make_room m s) as [s'|]; [|rewrite HP in Hput; discriminate].
    destruct HP as (c2 & Hp2 & HG2 & Hl2). rewrite Hp2 in Hput. injection Hput as <-.
    rewrite <- frun_puts.
    assert (Hsz : 1 <= count s').
    { unfold current_size in Hsize. rewrite (G_length _ _ _ HG2) in Hsize. simpl in Hsize. lia. }
    assert (Hgap : fst (slot_run ltb m ([] ++ None :: s') (map (fun p => FCall (OPut (fst p) (snd p))) (combine (map fst ps) (map snd ps)))) = None).
    { apply gap_fatal; auto; try lia.
      - rewrite !map_length. reflexivity.
      - rewrite map_length. simpl. lia.
      - intros Hn. apply map_eq_nil in Hn. subst ps. simpl in Hps. lia.
      - apply (G_count _ _ _ HG2).
      - split.
        + clear - Hpair. induction Hpair as [|a ps Ha Hp IH]; simpl; constructor; auto.
          rewrite Forall_forall in *. intros y Hy. apply in_map_iff in Hy as (z & <- & Hz). auto.
        + apply Forall_forall. intros y Hy. apply in_map_iff in Hy as (z & <- & Hz).
          rewrite Forall_forall in Hfr. specialize (Hfr z Hz). apply (G_find_None _ _ _ _ HG2).
          destruct (find_elem n_key ltb (fst z) (c_elems c2)) eqn:E; auto. exfalso. apply Hfr.
          unfold contains. rewrite has_label_eq, E. reflexivity. }
    replace (combine (map fst ps) (map snd ps)) with ps in Hgap
      by (clear; induction ps as [|[a b] ps IH]; simpl; congruence).
    simpl app in Hgap.
    pose proof (frun_refines_gen m (map (fun p : L * V => FCall (OPut (fst p) (snd p))) ps) c2 (None :: s') HG2) as HR2.
    rewrite map_length in HR2. simpl length in HR2.
    specialize (HR2 ltac:(lia)).
    destruct (slot_run ltb m (None :: s') _) as [[s2|] rs2]; [discriminate|]. rewrite HR2. reflexivity.
  Qed.
End LruFail.
