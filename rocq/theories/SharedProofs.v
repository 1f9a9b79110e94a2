(** SharedProofs.v -- supporting lemmas for SharedArray. *)
From Verif Require Import Base SharedModel SharedSpec ArrayProofs.
Open Scope nat_scope.

Lemma Forall2_weaken {A B} (R R' : A -> B -> Prop) l l' : (forall x y, R x y -> R' x y) -> Forall2 R l l' -> Forall2 R' l l'.
Proof. intros H. induction 1; constructor; auto. Qed.

Section Proofs.
  Context {V : Type} (dini : option V).
  Notation St := (sst V).

  (** ** counting *)
  Definition ind (r : option nat) (o : nat) : nat := match r with Some o' => if o' =? o then 1 else 0 | None => 0 end.
  Definition cnt (l : list (option nat)) (o : nat) : nat :=
    length (filter (fun r => match r with Some o' => o' =? o | None => false end) l).
  Lemma cnt_cons r l o : cnt (r :: l) o = ind r o + cnt l o.
  Proof. unfold cnt, ind. cbn [filter]. destruct r as [o'|]; [destruct (o' =? o)|]; reflexivity. Qed.
  Lemma cnt_upd l d r r' o : nth_error l d = Some r -> cnt (upd d r' l) o + ind r o = cnt l o + ind r' o.
  Proof.
    revert d. induction l as [|h l IH]; intros [|d] H; try discriminate; cbn [upd nth_error] in *; rewrite !cnt_cons.
    - injection H as ->. lia.
    - specialize (IH d H). lia.
  Qed.
  Lemma cnt_le l o : cnt l o <= length l.
  Proof. unfold cnt. induction l as [|h l IH]; [auto|]. cbn [filter]. destruct h as [x|]; [destruct (x =? o)|]; cbn [length]; lia. Qed.
  Lemma cnt_pos l d o : nth_error l d = Some (Some o) -> 0 < cnt l o.
  Proof. intros H. pose proof (cnt_upd l d _ None o H) as E. unfold ind in E. rewrite Nat.eqb_refl in E. lia. Qed.
  Lemma ind_same o : ind (Some o) o = 1.
  Proof. unfold ind. rewrite Nat.eqb_refl. reflexivity. Qed.
  Lemma ind_other o o' : o <> o' -> ind (Some o) o' = 0.
  Proof. intros H. unfold ind. apply Nat.eqb_neq in H. rewrite H. reflexivity. Qed.

  Definition slot (m : shst V) (r : option nat) (x : svar) : Prop :=
    match r, x with
    | None, SDead => True
    | Some o, SArr c n p => c = (o, 0%Z) /\ p = o /\ exists l, nth_error (objs m) o = Some l /\ n = length l
    | _, _ => False
    end.
  Definition cblk_of (k : nat) : cblk := mkC (Z.of_nat k) (k =? 0).
  Definition ablk_of (l : list (option V)) (k : nat) : ablk V := mkA l (k =? 0).
  Record Rep (m : shst V) (s : St) : Prop := {
    p_slots : Forall2 (slot m) (refs m) (svars s);
    p_counts : length (counts s) = length (objs m);
    p_arrays : length (arrays s) = length (objs m);
    p_count : forall o, o < length (objs m) -> nth_error (counts s) o = Some (cblk_of (sharers m o));
    p_array : forall o l, nth_error (objs m) o = Some l -> nth_error (arrays s) o = Some (ablk_of l (sharers m o));
    p_cd : scd s = None;
    p_few : (Z.of_nat (length (refs m)) < 2 ^ 64)%Z;
    p_refs : forall a o, nth_error (refs m) a = Some (Some o) -> o < length (objs m) }.

  Lemma rep_init n : (Z.of_nat n < 2 ^ 64)%Z -> Rep (shinit n) (sinit n : St).
  Proof.
    intros Hn. constructor; cbn; auto; try lia.
    - clear. induction n; cbn [repeat]; constructor; [exact I|assumption].
    - intros o l H. destruct o; discriminate.
    - rewrite repeat_length. exact Hn.
    - intros a o H. apply nth_error_In, repeat_spec in H. discriminate.
  Qed.

  (** ** reading a represented state *)
  Lemma rep_ref m (s : St) a o : Rep m s -> ref_of m a = Some o ->
    exists l, nth_error (refs m) a = Some (Some o) /\ nth_error (objs m) o = Some l /\ obj_of m a = Some (o, l) /\
      nth_error (svars s) a = Some (SArr (o, 0%Z) (length l) o) /\ 0 < sharers m o /\
      nth_error (counts s) o = Some (mkC (Z.of_nat (sharers m o)) false) /\ nth_error (arrays s) o = Some (mkA l false).
  Proof.
    intros HR H. pose proof H as H'. unfold ref_of in H. destruct (nth_error (refs m) a) as [r|] eqn:Ha; [|discriminate]. subst r.
    destruct (Forall2_nth _ _ _ _ _ (p_slots _ _ HR) Ha) as (y & Hy & Hs). destruct y as [|c n p]; [contradiction|].
    destruct Hs as (-> & -> & l & Hl & ->). exists l. pose proof (cnt_pos _ _ _ Ha) as Hp.
    assert (o < length (objs m)) as Ho by exact (p_refs _ _ HR _ _ Ha).
    pose proof (p_count _ _ HR o Ho) as Hc. pose proof (p_array _ _ HR o l Hl) as Hr.
    unfold cblk_of in Hc. unfold ablk_of in Hr. change (cnt (refs m) o) with (sharers m o) in Hp.
    assert (sharers m o =? 0 = false) as E by (apply Nat.eqb_neq; lia). rewrite E in Hc, Hr.
    repeat split; auto. unfold obj_of. rewrite H', Hl. reflexivity.
  Qed.
  Lemma rep_obj m (s : St) a o l : Rep m s -> obj_of m a = Some (o, l) -> ref_of m a = Some o /\ nth_error (objs m) o = Some l.
  Proof.
    intros HR H. unfold obj_of in H. destruct (ref_of m a) as [o'|]; [|discriminate]. destruct (nth_error (objs m) o') as [l'|] eqn:E; [|discriminate].
    injection H as -> ->. auto.
  Qed.
  Lemma rep_new m (s : St) d : Rep m s -> is_new m d = true -> nth_error (refs m) d = Some None /\ sfresh d s = Ret tt s.
  Proof.
    intros HR H. unfold is_new in H. destruct (nth_error (refs m) d) as [[o|]|] eqn:Hd; try discriminate. split; [reflexivity|].
    destruct (Forall2_nth _ _ _ _ _ (p_slots _ _ HR) Hd) as (y & Hy & Hs). destruct y; [|contradiction]. unfold sfresh. rewrite Hy. reflexivity.
  Qed.
  Lemma sget_ok (s : St) a c n p : nth_error (svars s) a = Some (SArr c n p) -> sget_var a s = Ret (c, n, p) s.
  Proof. intros H. unfold sget_var. rewrite H. reflexivity. Qed.
  Lemma array_ok (s : St) p l : nth_error (arrays s) p = Some (mkA l false) -> array_at p s = Ret l s.
  Proof. intros H. unfold array_at. rewrite H. reflexivity. Qed.
  Lemma count_ok (s : St) c z : nth_error (counts s) c = Some (mkC z false) -> count_at (c, 0%Z) s = Ret z s.
  Proof. intros H. unfold count_at. cbn [fst snd]. rewrite H. reflexivity. Qed.
  Lemma set_count_ok (s : St) c z z' : nth_error (counts s) c = Some (mkC z false) ->
    set_count (c, 0%Z) z' s = Ret tt (mkS (svars s) (upd c (mkC z' false) (counts s)) (arrays s) (scd s)).
  Proof. intros H. unfold set_count, bind. rewrite (count_ok s c z H). reflexivity. Qed.
  Lemma sload_ok (s : St) p l i v : nth_error (arrays s) p = Some (mkA l false) -> nth_error l i = Some (Some v) -> sload p i s = Ret v s.
  Proof. intros H Hi. unfold sload, bind. rewrite (array_ok s p l H), Hi. reflexivity. Qed.
  Lemma sstore_ok (s : St) p l i v c : nth_error (arrays s) p = Some (mkA l false) -> nth_error l i = Some c -> scd s = None ->
    sstore p i v s = Ret tt (mkS (svars s) (counts s) (upd p (mkA (upd i (Some v) l) false) (arrays s)) None).
  Proof. intros H Hi Hn. unfold sstore, bind. rewrite (array_ok s p l H), Hi. unfold sevent. rewrite Hn. cbn [svars counts arrays scd]. rewrite Hn. reflexivity. Qed.

  Lemma sarg_ok m (s : St) t x : Rep m s -> sarg_val m t = Some x ->
    exists r, sbind t s = Ret r s /\
      forall s' : St, (forall o, o < length (arrays s) -> nth_error (arrays s') o = nth_error (arrays s) o) -> sread r s' = Ret x s'.
  Proof.
    intros HR H. destruct t as [v|a i]; cbn [sarg_val] in H.
    - injection H as ->. exists (inl x). split; reflexivity.
    - unfold elem_of in H. destruct (obj_of m a) as [[o l]|] eqn:Ho; [|discriminate]. destruct (nth_error l i) as [c|] eqn:Hi; [|discriminate]. subst c.
      destruct (rep_obj _ _ _ _ _ HR Ho) as [Hr Hl]. destruct (rep_ref _ _ _ _ HR Hr) as (l' & _ & Hl' & _ & Hv & _ & _ & Ha).
      rewrite Hl in Hl'. injection Hl' as <-. exists (inr (o, i)). split.
      + cbn [sbind]. unfold bind. rewrite (sget_ok _ _ _ _ _ Hv). cbn [snd]. rewrite (array_ok _ _ _ Ha).
        rewrite (proj2 (Nat.ltb_lt _ _) (nth_error_lt _ _ _ Hi)). reflexivity.
      + intros s' Hs'. cbn [sread]. eapply sload_ok; [|exact Hi]. rewrite (Hs' o (nth_error_lt _ _ _ Ha)). exact Ha.
  Qed.

  (** ** changing the reference of one variable *)
  Lemma slot_mono m m' r x : (forall o l, nth_error (objs m) o = Some l -> exists l', nth_error (objs m') o = Some l' /\ length l' = length l) ->
    slot m r x -> slot m' r x.
  Proof.
    intros H. destruct r as [o|], x as [|c n p]; cbn [slot]; auto. intros (-> & -> & l & Hl & ->).
    destruct (H o l Hl) as (l' & Hl' & E). split; [reflexivity|]. split; [reflexivity|]. exists l'. auto.
  Qed.
  Lemma rep_reassign m (s s' : St) d r o l :
    Rep m s -> nth_error (refs m) d = Some r -> nth_error (objs m) o = Some l ->
    svars s' = upd d (SArr (o, 0%Z) (length l) o) (svars s) -> scd s' = None ->
    length (counts s') = length (counts s) -> length (arrays s') = length (arrays s) ->
    (forall o', o' < length (objs m) -> nth_error (counts s') o' = Some (cblk_of (cnt (upd d (Some o) (refs m)) o'))) ->
    (forall o' l', nth_error (objs m) o' = Some l' -> nth_error (arrays s') o' = Some (ablk_of l' (cnt (upd d (Some o) (refs m)) o'))) ->
    Rep (mkSh (upd d (Some o) (refs m)) (objs m)) s'.
  Proof.
    intros HR Hd Ho Hv Hcd Hlc Hla Hc Ha. constructor; cbn [refs objs]; auto.
    - rewrite Hv. apply Forall2_upd; [|split; [reflexivity|]; split; [reflexivity|]; exists l; auto].
      eapply Forall2_weaken; [|exact (p_slots _ _ HR)]. intros x y. apply slot_mono. cbn [objs]. intros o' l' H. exists l'. auto.
    - rewrite Hlc. exact (p_counts _ _ HR).
    - rewrite Hla. exact (p_arrays _ _ HR).
    - rewrite upd_length. exact (p_few _ _ HR).
    - intros a o' H. destruct (Nat.eq_dec d a) as [->|Hne].
      + rewrite nth_error_upd_eq in H by exact (nth_error_lt _ _ _ Hd). injection H as <-. exact (nth_error_lt _ _ _ Ho).
      + rewrite nth_error_upd_neq in H by exact Hne. exact (p_refs _ _ HR _ _ H).
  Qed.

  Definition okres (r : res St (sout V)) (x : sout V) (m : shst V) : Prop := exists s', r = Ret x s' /\ Rep m s'.

  Lemma wrap_small k : (0 <= k < 2 ^ 64)%Z -> wrap64 k = k.
  Proof. apply wrap64_small. Qed.

  Lemma copy_step m (s : St) d a x m' : Rep m s -> shstep dini m (SCopy d a) = Some (x, m') -> okres (sdone (s_copy d a) s) x m'.
  Proof.
    intros HR H. cbn [shstep] in H. destruct (ref_of m a) as [o|] eqn:Ha; [|discriminate]. destruct (is_new m d) eqn:Hd; [|discriminate]. injection H as <- <-.
    destruct (rep_ref _ _ _ _ HR Ha) as (l & Hra & Hl & _ & Hv & Hp & Hc & Har). destruct (rep_new _ _ _ HR Hd) as [Hrd Hf].
    unfold sdone, s_copy, bind. rewrite Hf, (sget_ok _ _ _ _ _ Hv). cbn [fst snd]. unfold sput_var.
    match goal with |- context [count_at _ ?z] => set (s1 := z) end.
    assert (nth_error (counts s1) o = Some (mkC (Z.of_nat (sharers m o)) false)) as Hc1 by exact Hc.
    rewrite (count_ok s1 o _ Hc1), (set_count_ok s1 o _ _ Hc1). eexists. split; [reflexivity|].
    pose proof (cnt_le (upd d (Some o) (refs m)) o) as Hle. rewrite upd_length in Hle. pose proof (p_few _ _ HR) as Hfew.
    pose proof (cnt_upd _ _ _ (Some o) o Hrd) as E. rewrite ind_same in E. cbn [ind] in E. rewrite Nat.add_0_r in E.
    change (cnt (refs m) o) with (sharers m o) in E.
    rewrite wrap_small by lia.
    eapply rep_reassign; [exact HR|exact Hrd|exact Hl|reflexivity|exact (p_cd _ _ HR)|apply upd_length|reflexivity|..]; cbn [counts arrays s1].
    - intros o' Ho'. destruct (Nat.eq_dec o o') as [->|Hne].
      + rewrite nth_error_upd_eq by exact (nth_error_lt _ _ _ Hc). rewrite E. unfold cblk_of. rewrite (proj2 (Nat.eqb_neq _ _)) by lia. do 2 f_equal. lia.
      + rewrite nth_error_upd_neq by exact Hne. rewrite (p_count _ _ HR o' Ho'). pose proof (cnt_upd _ _ _ (Some o) o' Hrd) as E'.
        rewrite ind_other in E' by exact Hne. cbn [ind] in E'. rewrite !Nat.add_0_r in E'. rewrite E'. reflexivity.
    - intros o' l' Ho'. rewrite (p_array _ _ HR o' l' Ho'). destruct (Nat.eq_dec o o') as [->|Hne].
      + rewrite E. unfold ablk_of. rewrite !(proj2 (Nat.eqb_neq _ _)) by lia. reflexivity.
      + pose proof (cnt_upd _ _ _ (Some o) o' Hrd) as E'.
        rewrite ind_other in E' by exact Hne. cbn [ind] in E'. rewrite !Nat.add_0_r in E'. rewrite E'. reflexivity.
  Qed.

  Lemma assign_step m (s : St) d a x m' : Rep m s -> shstep dini m (SAssign d a) = Some (x, m') -> okres (sdone (s_assign d a) s) x m'.
  Proof.
    intros HR H. cbn [shstep] in H. destruct (ref_of m d) as [q|] eqn:Hd; [|discriminate]. destruct (ref_of m a) as [o|] eqn:Ha; [|discriminate].
    injection H as <- <-.
    destruct (rep_ref _ _ _ _ HR Ha) as (l & Hra & Hl & _ & Hv & Hp & Hc & Har).
    destruct (rep_ref _ _ _ _ HR Hd) as (k & Hrd & Hk & _ & Hvd & Hpd & Hcd & Hard).
    unfold sdone, s_assign, bind at 1 2 3. rewrite (sget_ok _ _ _ _ _ Hvd), (sget_ok _ _ _ _ _ Hv). cbn [fst snd].
    destruct (Nat.eqb_spec q o) as [->|Hqo].
    - exists s. split; [reflexivity|]. rewrite upd_same by exact Hrd. destruct m; exact HR.
    - assert (d <> a) as Hda by congruence.
      pose proof (cnt_le (refs m) q) as Hle. pose proof (p_few _ _ HR) as Hfew. change (cnt (refs m) q) with (sharers m q) in Hle.
      pose proof (cnt_le (upd d (Some o) (refs m)) o) as Hle2. rewrite upd_length in Hle2.
      pose proof (cnt_upd _ _ _ (Some o) o Hrd) as Eo. rewrite ind_same, (ind_other q o) in Eo by exact Hqo.
      pose proof (cnt_upd _ _ _ (Some o) q Hrd) as Eq. rewrite ind_same, (ind_other o q) in Eq by congruence.
      change (cnt (refs m) o) with (sharers m o) in Eo. change (cnt (refs m) q) with (sharers m q) in Eq.
      unfold bind at 1. rewrite (count_ok s q _ Hcd). unfold bind at 1. rewrite (set_count_ok s q _ _ Hcd).
      rewrite wrap_small by lia.
      match goal with |- context [(Z.of_nat ?x - 1)%Z] => replace (Z.of_nat x - 1)%Z with (Z.of_nat (x - 1)) by lia end.
      set (s1 := mkS (svars s) (upd q (mkC (Z.of_nat (sharers m q - 1)) false) (counts s)) (arrays s) (scd s)).
      assert (nth_error (counts s1) q = Some (mkC (Z.of_nat (sharers m q - 1)) false)) as Hq1
        by (apply nth_error_upd_eq; exact (nth_error_lt _ _ _ Hcd)).
      unfold bind at 1. rewrite (count_ok s1 q _ Hq1).
      (* after the possible release *)
      set (s2 := mkS (svars s) (upd q (cblk_of (sharers m q - 1)) (counts s)) (upd q (ablk_of k (sharers m q - 1)) (arrays s)) (scd s)).
      assert ((if (Z.of_nat (sharers m q - 1) =? 0)%Z then (delete_count (q, 0%Z) ;;; delete_array q)%M else ret tt) s1 = Ret tt s2) as E2.
      { unfold s2, cblk_of, ablk_of. destruct (Z.eqb_spec (Z.of_nat (sharers m q - 1)) 0) as [E|E].
        - rewrite (proj2 (Nat.eqb_eq (sharers m q - 1) 0)) by lia. unfold bind, delete_count, bind. rewrite (count_ok s1 q _ Hq1).
          unfold delete_array. cbn [arrays s1]. rewrite Hard. cbn [a_freed a_cells svars counts scd fst s1]. rewrite upd_upd. reflexivity.
        - rewrite (proj2 (Nat.eqb_neq (sharers m q - 1) 0)) by lia. unfold ret, s1. rewrite (upd_same q _ (arrays s) Hard). reflexivity. }
      unfold bind at 1. rewrite E2. unfold bind at 1. rewrite (sget_ok s2 a _ _ _ Hv). cbn [fst snd]. unfold bind at 1, sput_var.
      set (s3 := mkS (upd d (SArr (o, 0%Z) (length l) o) (svars s2)) (counts s2) (arrays s2) (scd s2)).
      assert (nth_error (counts s3) o = Some (mkC (Z.of_nat (sharers m o)) false)) as Hc3.
      { cbn [counts s3 s2]. rewrite nth_error_upd_neq by exact Hqo. exact Hc. }
      unfold bind. rewrite (count_ok s3 o _ Hc3), (set_count_ok s3 o _ _ Hc3). rewrite wrap_small by lia.
      eexists. split; [reflexivity|].
      eapply rep_reassign; [exact HR|exact Hrd|exact Hl|reflexivity|exact (p_cd _ _ HR)| | |..]; cbn [counts arrays s3 s2].
      + rewrite !upd_length. reflexivity.
      + rewrite !upd_length. reflexivity.
      + intros o' Ho'. destruct (Nat.eq_dec o o') as [->|Hne].
        * rewrite nth_error_upd_eq by (rewrite upd_length; exact (nth_error_lt _ _ _ Hc)). unfold cblk_of.
          rewrite (proj2 (Nat.eqb_neq _ _)) by lia. do 2 f_equal. lia.
        * rewrite nth_error_upd_neq by exact Hne. destruct (Nat.eq_dec q o') as [->|Hne'].
          -- rewrite nth_error_upd_eq by exact (nth_error_lt _ _ _ Hcd). do 2 f_equal. lia.
          -- rewrite nth_error_upd_neq by exact Hne'. rewrite (p_count _ _ HR o' Ho').
             pose proof (cnt_upd _ _ _ (Some o) o' Hrd) as E'. rewrite (ind_other o o'), (ind_other q o'), !Nat.add_0_r in E' by assumption.
             rewrite E'. reflexivity.
      + intros o' l' Ho'. destruct (Nat.eq_dec q o') as [->|Hne'].
        * rewrite nth_error_upd_eq by exact (nth_error_lt _ _ _ Hard). rewrite Hk in Ho'. injection Ho' as <-. do 2 f_equal. lia.
        * rewrite nth_error_upd_neq by exact Hne'. rewrite (p_array _ _ HR o' l' Ho'). unfold ablk_of.
          destruct (Nat.eq_dec o o') as [->|Hne].
          -- rewrite !(proj2 (Nat.eqb_neq _ _)) by lia. reflexivity.
          -- pose proof (cnt_upd _ _ _ (Some o) o' Hrd) as E'. rewrite (ind_other o o'), (ind_other q o'), !Nat.add_0_r in E' by assumption.
             rewrite E'. reflexivity.
  Qed.

  (** ** constructors *)
  Lemma sevents_none n e (s : St) : scd s = None -> sevents n e s = Ret tt s.
  Proof. intros H. induction n as [|n IH]; cbn [sevents]; [reflexivity|]. unfold bind, sevent. rewrite H. exact IH. Qed.
  Definition created (s : St) d n l : St :=
    mkS (upd d (SArr (length (counts s), 0%Z) n (length (arrays s))) (svars s)) (counts s ++ [mkC 1 false]) (arrays s ++ [mkA l false]) None.
  Lemma new_exact (s : St) d n : scd s = None -> sfresh d s = Ret tt s -> s_new dini d n s = Ret tt (created s d n (repeat dini n)).
  Proof.
    intros Hn Hf. unfold s_new, bind. rewrite Hf. unfold new_count, bind, sevent. rewrite Hn. cbn [counts svars arrays scd].
    unfold new_array, bind, sevent. cbn [scd]. rewrite Hn.
    assert (forall s' : St, scd s' = None -> match dini with None => ret tt | Some _ => sevents n (EUser 0) end s' = Ret tt s') as E.
    { intros s' H. destruct dini; [apply sevents_none; exact H|reflexivity]. }
    rewrite E by reflexivity. unfold sput_var, created. cbn [svars counts arrays scd]. reflexivity.
  Qed.
  Lemma sfill_exact rd p vs n : forall i l (s : St),
    nth_error (arrays s) p = Some (mkA l false) -> length l = i + n -> i + n = length vs -> scd s = None ->
    (forall j v (s' : St), nth_error vs j = Some v -> (forall o, o <> p -> nth_error (arrays s') o = nth_error (arrays s) o) -> rd j s' = Ret v s') ->
    sfill p i n rd s = Ret tt (mkS (svars s) (counts s) (upd p (mkA (firstn i l ++ map Some (skipn i vs)) false) (arrays s)) None).
  Proof.
    induction n as [|n IH]; intros i l s Hp Hl Hv Hn Hrd; cbn [sfill].
    - rewrite (skipn_all2 vs) by lia. cbn [map]. rewrite app_nil_r, firstn_all2 by lia. rewrite upd_same by exact Hp. rewrite <- Hn. destruct s; reflexivity.
    - destruct (nth_error vs i) as [v|] eqn:Ei; [|apply nth_error_None in Ei; lia].
      destruct (nth_error l i) as [c|] eqn:El; [|apply nth_error_None in El; lia].
      unfold bind. rewrite (Hrd i v s Ei) by reflexivity. rewrite (sstore_ok s p l i v c Hp El Hn).
      rewrite (IH (S i) (upd i (Some v) l)); cbn [svars counts arrays scd].
      + rewrite upd_upd. do 4 f_equal.
        assert (skipn i vs = v :: skipn (S i) vs) as ->.
        { clear - Ei. revert i Ei. induction vs as [|w vs IH]; intros [|i] E; try discriminate; cbn [nth_error skipn] in *; [injection E as ->; reflexivity|].
          rewrite (IH i E). destruct vs; [destruct i; discriminate|reflexivity]. }
        cbn [map]. change (Some v :: map Some (skipn (S i) vs)) with ([Some v] ++ map Some (skipn (S i) vs)). rewrite app_assoc. f_equal.
        clear - El. revert i El. induction l as [|w l IH]; intros [|i] E; try discriminate; cbn [nth_error upd firstn app] in *; [reflexivity|].
        f_equal. apply IH. exact E.
      + apply nth_error_upd_eq. exact (nth_error_lt _ _ _ Hp).
      + rewrite upd_length. lia.
      + lia.
      + reflexivity.
      + intros j w s' Hj Hs'. apply Hrd; [exact Hj|]. intros o Ho. rewrite (Hs' o Ho). apply nth_error_upd_neq. congruence.
  Qed.
  Lemma cnt_none l d o : nth_error l d = Some None -> (forall a o', nth_error l a = Some (Some o') -> o' < o) -> cnt l o = 0.
  Proof.
    intros _ H. unfold cnt. assert (forall r, In r l -> match r with Some o' => o' =? o | None => false end = false) as E.
    { intros [o'|] Hin; [|reflexivity]. destruct (In_nth_error _ _ Hin) as (a & Ha). apply Nat.eqb_neq. specialize (H a o' Ha). lia. }
    clear H. induction l as [|r l IH]; [reflexivity|]. cbn [filter]. rewrite E by (left; reflexivity). apply IH. intros r' Hr'. apply E. right. exact Hr'.
  Qed.
  Lemma rep_created m (s : St) d l : Rep m s -> nth_error (refs m) d = Some None ->
    Rep (mkSh (upd d (Some (length (objs m))) (refs m)) (objs m ++ [l])) (created s d (length l) l).
  Proof.
    intros HR Hd. pose proof (p_counts _ _ HR) as Lc. pose proof (p_arrays _ _ HR) as La.
    assert (cnt (refs m) (length (objs m)) = 0) as Hz by (eapply cnt_none; [exact Hd|exact (p_refs _ _ HR)]).
    assert (cnt (upd d (Some (length (objs m))) (refs m)) (length (objs m)) = 1) as Hone.
    { pose proof (cnt_upd _ _ _ (Some (length (objs m))) (length (objs m)) Hd) as E. rewrite ind_same in E. cbn [ind] in E. lia. }
    assert (forall o, o < length (objs m) -> cnt (upd d (Some (length (objs m))) (refs m)) o = sharers m o) as Hold.
    { intros o Ho. pose proof (cnt_upd _ _ _ (Some (length (objs m))) o Hd) as E. rewrite ind_other in E by lia. cbn [ind] in E.
      change (sharers m o) with (cnt (refs m) o). lia. }
    constructor; cbn [refs objs created svars counts arrays scd]; auto.
    - rewrite Lc, La. apply Forall2_upd.
      + eapply Forall2_weaken; [|exact (p_slots _ _ HR)]. intros x y. apply slot_mono. cbn [objs]. intros o' l' H. exists l'. split; [|reflexivity].
        rewrite nth_error_app1 by exact (nth_error_lt _ _ _ H). exact H.
      + split; [reflexivity|]. split; [reflexivity|]. exists l. split; [apply nth_error_app_mid|reflexivity].
    - rewrite !app_length. cbn [length]. lia.
    - rewrite !app_length. cbn [length]. lia.
    - intros o Ho. rewrite app_length in Ho. cbn [length] in Ho. unfold sharers. cbn [refs]. fold (cnt (upd d (Some (length (objs m))) (refs m)) o).
      destruct (Nat.eq_dec o (length (objs m))) as [->|Hne].
      + rewrite <- Lc at 1. rewrite nth_error_app_mid, Hone. reflexivity.
      + rewrite nth_error_app1 by lia. rewrite Hold by lia. apply (p_count _ _ HR). lia.
    - intros o l' Ho. pose proof (nth_error_lt _ _ _ Ho) as Hlt. rewrite app_length in Hlt. cbn [length] in Hlt. unfold sharers. cbn [refs].
      fold (cnt (upd d (Some (length (objs m))) (refs m)) o).
      destruct (Nat.eq_dec o (length (objs m))) as [->|Hne].
      + rewrite nth_error_app_mid in Ho. injection Ho as <-. rewrite <- La at 1. rewrite nth_error_app_mid, Hone. reflexivity.
      + rewrite nth_error_app1 in Ho by lia. rewrite nth_error_app1 by lia. rewrite Hold by lia. apply (p_array _ _ HR). exact Ho.
    - rewrite upd_length. exact (p_few _ _ HR).
    - intros a o H. rewrite app_length. cbn [length]. destruct (Nat.eq_dec d a) as [->|Hne].
      + rewrite nth_error_upd_eq in H by exact (nth_error_lt _ _ _ Hd). injection H as <-. lia.
      + rewrite nth_error_upd_neq in H by exact Hne. pose proof (p_refs _ _ HR _ _ H). lia.
  Qed.
  Lemma new_step m (s : St) d n x m' : Rep m s -> shstep dini m (SNew d n) = Some (x, m') -> okres (sdone (s_new dini d n) s) x m'.
  Proof.
    intros HR H. cbn [shstep] in H. unfold create in H. destruct (is_new m d) eqn:Hd; [|discriminate]. injection H as <- <-.
    destruct (rep_new _ _ _ HR Hd) as [Hrd Hf]. unfold sdone, bind. rewrite (new_exact s d n (p_cd _ _ HR) Hf). eexists. split; [reflexivity|].
    rewrite <- (repeat_length dini n) at 2. apply rep_created; assumption.
  Qed.
  (** a constructor that fills the new array *)
  Lemma filled m (s : St) d n vs rd : Rep m s -> is_new m d = true -> length vs = n ->
    (forall j v (s' : St), nth_error vs j = Some v ->
       (forall o, o < length (arrays s) -> nth_error (arrays s') o = nth_error (arrays s) o) -> rd j s' = Ret v s') ->
    exists s', (s_new dini d n ;;; delegated d (k <- sget_var d ;; sfill (snd k) 0 n rd))%M s = Ret tt s' /\
      Rep (mkSh (upd d (Some (length (objs m))) (refs m)) (objs m ++ [map Some vs])) s'.
  Proof.
    intros HR Hd Hn Hrd. destruct (rep_new _ _ _ HR Hd) as [Hr Hf]. unfold bind at 1. rewrite (new_exact s d n (p_cd _ _ HR) Hf).
    unfold delegated, bind.
    assert (nth_error (svars s) d = Some SDead) as Hv.
    { unfold sfresh in Hf. destruct (nth_error (svars s) d) as [[|]|]; try discriminate. reflexivity. }
    rewrite (sget_ok (created s d n (repeat dini n)) d (length (counts s), 0%Z) n (length (arrays s)))
      by (apply nth_error_upd_eq; exact (nth_error_lt _ _ _ Hv)). cbn [snd].
    rewrite (sfill_exact rd (length (arrays s)) vs n 0 (repeat dini n)).
    - eexists. split; [reflexivity|]. cbn [firstn skipn app].
      pose proof (rep_created m s d (map Some vs) HR Hr) as E. rewrite map_length, Hn in E.
      unfold created in *. cbn [svars counts arrays]. rewrite upd_app_mid. exact E.
    - cbn [created arrays]. apply nth_error_app_mid.
    - rewrite repeat_length. reflexivity.
    - symmetry. exact Hn.
    - reflexivity.
    - intros j v s' Hj Hs'. apply Hrd; [exact Hj|]. intros o Ho. rewrite (Hs' o) by lia. cbn [created arrays].
      apply nth_error_app1. exact Ho.
  Qed.
  Lemma value_step m (s : St) d n t x m' : Rep m s -> shstep dini m (SValue d n t) = Some (x, m') -> okres (sdone (s_value dini d n t) s) x m'.
  Proof.
    intros HR H. cbn [shstep] in H. destruct (sarg_val m t) as [v|] eqn:Ht; [|discriminate]. unfold create in H.
    destruct (is_new m d) eqn:Hd; [|discriminate]. injection H as <- <-.
    destruct (rep_new _ _ _ HR Hd) as [Hr Hf]. destruct (sarg_ok _ _ _ _ HR Ht) as (r & Hb & Hread).
    destruct (filled m s d n (repeat v n) (fun _ => sread r) HR Hd (repeat_length v n)) as (s' & E & HR').
    { intros j w s1 Hj Hs1. apply nth_error_In, repeat_spec in Hj. subst w. apply Hread. exact Hs1. }
    unfold sdone, s_value, bind at 1 2 3. rewrite Hf, Hb, E. eexists. split; [reflexivity|].
    replace (repeat (Some v) n) with (map Some (repeat v n)) by (clear; induction n; cbn [repeat map]; congruence). exact HR'.
  Qed.
  Lemma list_step m (s : St) d l x m' : Rep m s -> shstep dini m (SList d l) = Some (x, m') -> okres (sdone (s_list dini d l) s) x m'.
  Proof.
    intros HR H. cbn [shstep] in H. unfold create in H. destruct (is_new m d) eqn:Hd; [|discriminate]. injection H as <- <-.
    destruct (filled m s d (length l) l (fun i => match nth_error l i with Some v => ret v | None => undefined UbOutOfBounds end) HR Hd eq_refl) as (s' & E & HR').
    { intros j w s1 Hj Hs1. rewrite Hj. reflexivity. }
    assert (s_list dini d l s = Ret tt s') as E' by exact E. unfold sdone, bind. rewrite E'. eexists. split; [reflexivity|]. exact HR'.
  Qed.

  (** ** elements *)
  Lemma set_step m (s : St) a i t x m' : Rep m s -> shstep dini m (SSet a i t) = Some (x, m') -> okres (sdone (s_set a i t) s) x m'.
  Proof.
    intros HR H. cbn [shstep] in H. destruct (obj_of m a) as [[o l]|] eqn:Ho; [|discriminate]. destruct (sarg_val m t) as [v|] eqn:Ht; [|discriminate].
    destruct (Nat.ltb_spec i (length l)) as [Hi|]; [|discriminate]. injection H as <- <-.
    destruct (rep_obj _ _ _ _ _ HR Ho) as [Hr Hl]. destruct (rep_ref _ _ _ _ HR Hr) as (l' & Hra & Hl' & _ & Hv & Hp & Hc & Ha).
    rewrite Hl in Hl'. injection Hl' as <-. destruct (sarg_ok _ _ _ _ HR Ht) as (r & Hb & Hread).
    destruct (nth_error l i) as [c|] eqn:Hci; [|apply nth_error_None in Hci; lia].
    unfold sdone, s_set, bind. rewrite Hb, (sget_ok _ _ _ _ _ Hv). cbn [snd]. rewrite Hread by reflexivity.
    rewrite (sstore_ok s o l i v c Ha Hci (p_cd _ _ HR)). eexists. split; [reflexivity|].
    constructor; cbn [refs objs svars counts arrays scd].
    - eapply Forall2_weaken; [|exact (p_slots _ _ HR)]. intros y z. apply slot_mono. cbn [objs]. intros o' l' H.
      destruct (Nat.eq_dec o o') as [->|Hne].
      + exists (upd i (Some v) l). split; [apply nth_error_upd_eq; exact (nth_error_lt _ _ _ Hl)|]. rewrite upd_length. congruence.
      + exists l'. split; [rewrite nth_error_upd_neq by exact Hne; exact H|reflexivity].
    - rewrite upd_length. exact (p_counts _ _ HR).
    - rewrite !upd_length. exact (p_arrays _ _ HR).
    - intros o' Ho'. rewrite upd_length in Ho'. exact (p_count _ _ HR o' Ho').
    - intros o' l' H. change (sharers (mkSh (refs m) (upd o (upd i (Some v) l) (objs m))) o') with (sharers m o').
      destruct (Nat.eq_dec o o') as [->|Hne].
      + rewrite nth_error_upd_eq by exact (nth_error_lt _ _ _ Ha). rewrite nth_error_upd_eq in H by exact (nth_error_lt _ _ _ Hl). injection H as <-.
        unfold ablk_of. rewrite (proj2 (Nat.eqb_neq _ _)) by lia. reflexivity.
      + rewrite nth_error_upd_neq by exact Hne. rewrite nth_error_upd_neq in H by exact Hne. exact (p_array _ _ HR o' l' H).
    - reflexivity.
    - exact (p_few _ _ HR).
    - intros b o' H. rewrite upd_length. exact (p_refs _ _ HR b o' H).
  Qed.
  Lemma sloads_ok (s : St) p l vs n : forall i, nth_error (arrays s) p = Some (mkA l false) -> length vs = n ->
    (forall j v, nth_error vs j = Some v -> nth_error l (i + j) = Some (Some v)) -> sloads p i n s = Ret vs s.
  Proof.
    revert n. induction vs as [|v vs IH]; intros n i Hp Hn Hl; subst n; cbn [length sloads]; [reflexivity|].
    unfold bind. rewrite (sload_ok s p l i v Hp) by (rewrite <- (Nat.add_0_r i); apply (Hl 0); reflexivity).
    rewrite (IH (length vs) (S i) Hp eq_refl); [reflexivity|]. intros j w Hj. rewrite Nat.add_succ_comm. apply (Hl (S j)). exact Hj.
  Qed.
  Lemma all_values_iff (l : list (option V)) vs : all_values l = Some vs <-> l = map Some vs.
  Proof.
    revert vs. induction l as [|[v|] l IH]; intros vs; cbn [all_values].
    - split; [intros H; injection H as <-; reflexivity|]. destruct vs; [reflexivity|discriminate].
    - destruct (all_values l) as [ws|]; split.
      + intros H. injection H as <-. cbn [map]. f_equal. apply IH. reflexivity.
      + destruct vs as [|w vs]; [discriminate|]. cbn [map]. intros H. injection H as -> H. apply IH in H. injection H as ->. reflexivity.
      + discriminate.
      + destruct vs as [|w vs]; [discriminate|]. cbn [map]. intros H. injection H as _ H. apply IH in H. discriminate.
    - split; [discriminate|]. destruct vs; discriminate.
  Qed.

  Lemma step_ok m (s : St) o x m' : Rep m s -> shstep dini m o = Some (x, m') -> okres (sexec_op dini o s) x m'.
  Proof.
    intros HR H. destruct o; cbn [sexec_op].
    - apply (new_step m); assumption.
    - apply (value_step m); assumption.
    - apply (list_step m); assumption.
    - apply (copy_step m); assumption.
    - apply (assign_step m); assumption.
    - apply (set_step m); assumption.
    - cbn [shstep] in H. unfold elem_of in H. destruct (obj_of m a) as [[o l]|] eqn:Ho; [|discriminate].
      destruct (nth_error l i) as [[v|]|] eqn:Hi; try discriminate. injection H as <- <-.
      destruct (rep_obj _ _ _ _ _ HR Ho) as [Hr Hl]. destruct (rep_ref _ _ _ _ HR Hr) as (l' & Hra & Hl' & _ & Hv & Hp & Hc & Ha).
      rewrite Hl in Hl'. injection Hl' as <-. exists s. split; [|exact HR].
      unfold s_get, bind. rewrite (sget_ok _ _ _ _ _ Hv). cbn [snd]. rewrite (sload_ok s o l i v Ha Hi). reflexivity.
    - cbn [shstep] in H. destruct (obj_of m a) as [[o l]|] eqn:Ho; [|discriminate]. injection H as <- <-.
      destruct (rep_obj _ _ _ _ _ HR Ho) as [Hr Hl]. destruct (rep_ref _ _ _ _ HR Hr) as (l' & Hra & Hl' & _ & Hv & _).
      rewrite Hl in Hl'. injection Hl' as <-. exists s. split; [|exact HR]. unfold s_size, bind. rewrite (sget_ok _ _ _ _ _ Hv). reflexivity.
    - cbn [shstep] in H. destruct (obj_of m a) as [[o l]|] eqn:Ho; [|discriminate]. destruct (all_values l) as [vs|] eqn:Hvs; [|discriminate].
      injection H as <- <-. apply all_values_iff in Hvs.
      destruct (rep_obj _ _ _ _ _ HR Ho) as [Hr Hl]. destruct (rep_ref _ _ _ _ HR Hr) as (l' & Hra & Hl' & _ & Hv & Hp & Hc & Ha).
      rewrite Hl in Hl'. injection Hl' as <-. exists s. split; [|exact HR].
      unfold s_elems, bind. rewrite (sget_ok _ _ _ _ _ Hv). cbn [fst snd]. rewrite (sloads_ok s o l vs (length l) 0 Ha); [reflexivity|subst l; rewrite map_length; reflexivity|].
      intros j v Hj. subst l. cbn [Nat.add]. rewrite nth_error_map, Hj. reflexivity.
    - discriminate.
  Qed.
  Lemma run_ok p : forall m (s : St) l m', Rep m s -> shexec dini m p = Some (l, m') -> exists s', srun dini p s = Ret l s' /\ Rep m' s'.
  Proof.
    induction p as [|o p IH]; intros m s l m' HR H.
    - injection H as <- <-. exists s. split; [reflexivity|exact HR].
    - cbn [shexec] in H. destruct (shstep dini m o) as [[x m1]|] eqn:Hs; [|discriminate].
      destruct (shexec dini m1 p) as [[l1 m2]|] eqn:He; [|discriminate]. injection H as <- <-.
      destruct (step_ok m s o x m1 HR Hs) as (s1 & E & HR1). destruct (IH m1 s1 l1 m2 HR1 He) as (s2 & E2 & HR2).
      exists s2. split; [|exact HR2]. cbn [srun]. rewrite E. unfold bind. rewrite E2. reflexivity.
  Qed.

  (** ** what is seen *)
  Lemma seen m (s : St) a o l : Rep m s -> obj_of m a = Some (o, l) ->
    seen_elems s a = Some l /\ seen_count s a = Some (Z.of_nat (sharers m o)).
  Proof.
    intros HR Ho. destruct (rep_obj _ _ _ _ _ HR Ho) as [Hr Hl]. destruct (rep_ref _ _ _ _ HR Hr) as (l' & Hra & Hl' & _ & Hv & Hp & Hc & Ha).
    rewrite Hl in Hl'. injection Hl' as <-. unfold seen_elems, seen_count. rewrite Hv, Ha, Hc. cbn [a_freed a_cells c_freed c_val negb orb Z.eqb].
    rewrite Nat.eqb_refl. auto.
  Qed.
  Lemma filter_len {A} (f : A -> bool) (g : nat -> bool) (l : list A) k :
    (forall i x, nth_error l i = Some x -> f x = g (k + i)) -> length (filter f l) = length (filter g (seq k (length l))).
  Proof.
    revert k. induction l as [|x l IH]; intros k H; [reflexivity|]. cbn [filter length seq].
    rewrite (H 0 x eq_refl), Nat.add_0_r.
    assert (length (filter f l) = length (filter g (seq (S k) (length l)))) as E.
    { apply IH. intros i y Hy. rewrite Nat.add_succ_comm. apply H. exact Hy. }
    destruct (g k); cbn [length]; rewrite E; reflexivity.
  Qed.
  Lemma live_ok m (s : St) : Rep m s -> live_arrays s = live_objects m /\ live_counts s = live_objects m.
  Proof.
    intros HR. unfold live_arrays, live_counts, live_objects. split.
    - rewrite <- (p_arrays _ _ HR). apply filter_len. intros i x Hx. cbn [Nat.add].
      destruct (nth_error (objs m) i) as [l|] eqn:Hl; [|apply nth_error_None in Hl; pose proof (nth_error_lt _ _ _ Hx); rewrite (p_arrays _ _ HR) in *; lia].
      rewrite (p_array _ _ HR i l Hl) in Hx. injection Hx as <-. reflexivity.
    - rewrite <- (p_counts _ _ HR). apply filter_len. intros i x Hx. cbn [Nat.add].
      rewrite (p_count _ _ HR i) in Hx by (rewrite <- (p_counts _ _ HR); exact (nth_error_lt _ _ _ Hx)). injection Hx as <-. reflexivity.
  Qed.
  Lemma shared_history n p l m : (Z.of_nat n < 2 ^ 64)%Z -> shexec dini (shinit n) p = Some (l, m) ->
    exists s', srun dini p (sinit n) = Ret l s' /\
      (forall a o k, obj_of m a = Some (o, k) -> seen_elems s' a = Some k /\ seen_count s' a = Some (Z.of_nat (sharers m o))) /\
      live_arrays s' = live_objects m /\ live_counts s' = live_objects m.
  Proof.
    intros Hn H. destruct (run_ok p _ _ _ _ (rep_init n Hn) H) as (s' & E & HR). exists s'. split; [exact E|]. split; [|exact (live_ok m s' HR)].
    intros a o k Ho. exact (seen m s' a o k HR Ho).
  Qed.

  (** ** destruction *)
  Lemma destroy_ub (s : St) a z : seen_count s a = Some z -> s_destroy a s = Ub UbOutOfBounds.
  Proof.
    unfold seen_count, s_destroy, bind, sget_var. destruct (nth_error (svars s) a) as [[|[c off] n p]|]; try discriminate.
    destruct (nth_error (counts s) c) as [k|] eqn:Hc; [|discriminate]. destruct (c_freed k); [discriminate|]. cbn [orb].
    destruct (Z.eqb_spec off 0) as [->|]; [|discriminate]. intros _. cbn [fst snd]. unfold sput_var, count_at. cbn [counts fst snd]. rewrite Hc. reflexivity.
  Qed.
  Lemma shared_destroy n p l m a : (Z.of_nat n < 2 ^ 64)%Z -> shexec dini (shinit n) p = Some (l, m) -> ref_of m a <> None ->
    srun dini (p ++ [SDestroy a]) (sinit n) = Ub UbOutOfBounds.
  Proof.
    intros Hn H Ha. destruct (ref_of m a) as [o|] eqn:Hr; [|contradiction]. clear Ha.
    assert (forall p (s : St) l s', srun dini p s = Ret l s' -> s_destroy a s' = Ub UbOutOfBounds -> srun dini (p ++ [SDestroy a]) s = Ub UbOutOfBounds) as Happ.
    { clear. induction p as [|q p IH]; intros s l s' E Hd; cbn [app srun].
      - injection E as _ ->. cbn [sexec_op]. unfold sdone, bind at 1. rewrite Hd. reflexivity.
      - cbn [srun] in E. destruct (sexec_op dini q s) as [x s1|e s1| | |]; try discriminate; unfold bind in *.
        + destruct (srun dini p s1) as [l1 s2| | | |] eqn:E1; try discriminate. injection E as _ ->. rewrite (IH _ _ _ E1 Hd). reflexivity.
        + destruct (srun dini p s1) as [l1 s2| | | |] eqn:E1; try discriminate. injection E as _ ->. rewrite (IH _ _ _ E1 Hd). reflexivity. }
    destruct (run_ok p _ _ _ _ (rep_init n Hn) H) as (s' & E & HR). apply (Happ _ _ _ _ E).
    destruct (rep_ref _ _ _ _ HR Hr) as (k & _ & _ & Ho & _). exact (destroy_ub s' a _ (proj2 (seen m s' a o k HR Ho))).
  Qed.
  (** a constructor with a failing element destroys the new object *)
  Lemma failing_list (s : St) d l j : nth_error (svars s) d = Some SDead -> dini = None -> j < length l -> scd s = Some (2 + j) ->
    s_list dini d l s = Ub UbOutOfBounds.
  Proof.
    intros Hd Hi Hj Hcd. unfold s_list, bind at 1. unfold s_new, bind at 1. unfold sfresh. rewrite Hd.
    unfold bind at 1, new_count, bind at 1, sevent at 1. rewrite Hcd. cbn [Nat.add]. cbn [svars counts arrays scd].
    unfold bind at 1, new_array, bind at 1, sevent at 1. cbn [scd]. rewrite Hi. unfold bind at 1, ret at 1. cbn [svars counts arrays scd]. unfold sput_var.
    cbn [svars counts arrays scd]. unfold delegated.
    match goal with |- context [mkS (upd d ?v (svars s)) ?c ?a ?k] => set (s1 := mkS (upd d v (svars s)) c a k) end.
    assert (nth_error (svars s1) d = Some (SArr (length (counts s), 0%Z) (length l) (length (arrays s)))) as Hv1
      by (apply nth_error_upd_eq; exact (nth_error_lt _ _ _ Hd)).
    unfold bind at 1. rewrite (sget_ok _ _ _ _ _ Hv1). cbn [snd].
    set (rd := fun i => match nth_error l i with Some v => ret v | None => undefined UbOutOfBounds end).
    assert (forall n i j' (s2 : St), i + n = length l -> j' < n -> scd s2 = Some j' -> svars s2 = svars s1 -> counts s2 = counts s1 ->
      (exists k, nth_error (arrays s2) (length (arrays s)) = Some (mkA k false) /\ length k = length l) ->
      exists s3, sfill (length (arrays s)) i n rd s2 = Exc (EUser 0) s3 /\ svars s3 = svars s1 /\ counts s3 = counts s1) as Hloop.
    { induction n as [|n IH]; intros i j' s2 Hl Hj' Hcd2 Hv2 Hc2 (k & Hk & Hlen); [lia|]. cbn [sfill]. unfold bind at 1, rd at 1.
      destruct (nth_error l i) as [v|] eqn:Ei; [|apply nth_error_None in Ei; lia]. unfold ret at 1.
      unfold bind at 1. unfold sstore, bind at 1. rewrite (array_ok _ _ _ Hk).
      destruct (nth_error k i) as [c|] eqn:Ek; [|apply nth_error_None in Ek; lia]. unfold bind at 1, sevent. rewrite Hcd2. destruct j' as [|j'].
      - eexists. split; [reflexivity|]. auto.
      - cbn [svars counts arrays scd]. apply (IH (S i) j'); [lia|lia|reflexivity|exact Hv2|exact Hc2|].
        cbn [arrays]. exists (upd i (Some v) k). split; [apply nth_error_upd_eq; exact (nth_error_lt _ _ _ Hk)|]. rewrite upd_length. exact Hlen. }
    destruct (Hloop (length l) 0 j s1 eq_refl Hj eq_refl eq_refl eq_refl) as (s3 & E & Hv3 & Hc3).
    { eexists. split; [cbn [arrays s1]; apply nth_error_app_mid|apply repeat_length]. }
    rewrite E. unfold bind. rewrite (destroy_ub s3 d 1%Z); [reflexivity|].
    unfold seen_count. rewrite Hv3, Hv1, Hc3. cbn [counts s1]. rewrite nth_error_app_mid. reflexivity.
  Qed.
End Proofs.
