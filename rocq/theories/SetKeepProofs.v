(** SetKeepProofs.v -- lemmas for C168. *)
From Verif Require Import Base StdOrd SetModel SetSpec SetProofs SetKeepSpec.

Section SetKeepProofs.
  Context {T : Type} (ltb : T -> T -> bool) (HO : SWO ltb).
  Notation eqv := (eqvb ltb).
  Notation sorted := (increasing ltb).

  Lemma sinsert_In l t x : sorted l ->
    (In x (sinsert ltb l t) <-> In x l \/ (x = t /\ contains ltb l t = false)).
  Proof.
    intros Hs. split.
    - intros Hin. destruct (contains ltb l t) eqn:Hc.
      + rewrite (insert_present ltb HO l t Hs Hc) in Hin. auto.
      + apply insert_elem_In in Hin as [->|Hin]; auto.
    - intros [Hin|[-> Hc]].
      + apply insert_elem_keeps; exact Hin.
      + assert (Hc' : contains ltb (sinsert ltb l t) t = true).
        { rewrite (sinsert_contains ltb HO) by exact Hs. rewrite (eqvb_refl ltb HO). apply orb_true_r. }
        apply (contains_true ltb) in Hc' as (e & He & Hq).
        assert (He' := He). apply insert_elem_In in He' as [->|Hel]; [exact He|]. exfalso.
        rewrite (proj1 (contains_false ltb l t) Hc e Hel) in Hq. discriminate.
  Qed.

  Lemma earliest_cons h t x : earliest ltb (h :: t) x <-> x = h \/ (eqv h x = false /\ earliest ltb t x).
  Proof.
    split.
    - intros (pre & post & He & Hp). destruct pre as [|p pre]; simpl in He; injection He as -> ->; [auto|].
      right. split; [apply Hp; left; reflexivity|]. exists pre, post. split; [reflexivity|].
      intros y Hy. apply Hp. right; exact Hy.
    - intros [->|[Hq (pre & post & -> & Hp)]].
      + exists [], t. split; [reflexivity|]. intros y [].
      + exists (h :: pre), post. split; [reflexivity|]. intros y [<-|Hy]; auto.
  Qed.
  Lemma earliest_nil x : ~ earliest ltb [] x.
  Proof. intros (pre & post & He & _). destruct pre; discriminate. Qed.

  Lemma fold_insert_In l : forall acc x, sorted acc ->
    (In x (fold_left (sinsert ltb) l acc) <-> In x acc \/ (contains ltb acc x = false /\ earliest ltb l x)).
  Proof.
    induction l as [|h t IH]; intros acc x Hs; simpl.
    - split; [auto|]. intros [H|[_ H]]; [exact H|]. destruct (earliest_nil _ H).
    - rewrite IH by (apply (sinsert_sorted ltb HO); exact Hs).
      rewrite (sinsert_In acc h x Hs), (sinsert_contains ltb HO) by exact Hs.
      rewrite earliest_cons. split.
      + intros [[H|[-> H]]|[H He]]; [auto| |].
        * right. split; [exact H|]. left; reflexivity.
        * apply orb_false_iff in H as [H1 H2]. right. auto.
      + intros [H|[H [->|[Hq He]]]]; [auto|auto|]. right. rewrite H, Hq. auto.
  Qed.

  Lemma earliest_sorted l x : sorted l -> (earliest ltb l x <-> In x l).
  Proof.
    intros Hs. split.
    - intros (pre & post & -> & _). apply in_or_app; simpl; auto.
    - intros Hin. apply in_split in Hin as (pre & post & ->). exists pre, post. split; [reflexivity|].
      intros y Hy. destruct (sorted_split ltb pre x post Hs) as [H _].
      apply ltb_not_eqv. apply H. exact Hy.
  Qed.

  Lemma contains_present l x : contains ltb l x = true <-> present ltb l x.
  Proof. apply contains_true. Qed.
  Lemma contains_absent l x : contains ltb l x = false <-> absent ltb l x.
  Proof. apply contains_false. Qed.

  Lemma join_keeps s1 s2 : sorted s1 -> sorted s2 ->
    exists r, join ltb s1 s2 = Some r /\ sorted r /\
      forall x, In x r <-> In x s1 \/ (In x s2 /\ absent ltb s1 x).
  Proof.
    intros H1 H2. exists (fold_left (sinsert ltb) s2 s1). split; [|split].
    - unfold join, adjoin. apply (adjoin_other_gen ltb HO s2 [] s2); auto.
    - apply (fold_insert_sorted ltb HO); exact H1.
    - intros x. rewrite fold_insert_In by exact H1. rewrite (earliest_sorted s2 x H2), contains_absent. tauto.
  Qed.

  Lemma intersection_keeps s1 s2 : sorted s1 ->
    exists r, intersection ltb s1 s2 = Some r /\ sorted r /\
      forall x, In x r <-> In x s1 /\ present ltb s2 x.
  Proof.
    intros H1. eexists. split; [|split].
    - unfold intersection, free_restrict.
      apply (erase_loop_gen ltb HO false (other_arg s2) (contains ltb s2) s1 [] (S (length s1))); auto.
    - apply (filter_sorted' ltb); exact H1.
    - intros x. simpl. rewrite filter_In, <- contains_present.
      destruct (contains ltb s2 x); simpl; intuition congruence.
  Qed.

  Lemma difference_keeps s1 s2 : sorted s1 ->
    exists r, difference ltb s1 s2 = Some r /\ sorted r /\
      forall x, In x r <-> In x s1 /\ absent ltb s2 x.
  Proof.
    intros H1. eexists. split; [|split].
    - unfold difference, free_remove.
      apply (erase_loop_gen ltb HO true (other_arg s2) (contains ltb s2) s1 [] (S (length s1))); auto.
    - apply (filter_sorted' ltb); exact H1.
    - intros x. simpl. rewrite filter_In, <- contains_absent.
      destruct (contains ltb s2 x); simpl; intuition congruence.
  Qed.

  Lemma two_sets_keep s1 s2 : sorted s1 -> sorted s2 ->
    (exists r, join ltb s1 s2 = Some r /\ sorted r /\
      forall x, In x r <-> In x s1 \/ (In x s2 /\ absent ltb s1 x)) /\
    (exists r, intersection ltb s1 s2 = Some r /\ sorted r /\
      forall x, In x r <-> In x s1 /\ present ltb s2 x) /\
    (exists r, difference ltb s1 s2 = Some r /\ sorted r /\
      forall x, In x r <-> In x s1 /\ absent ltb s2 x).
  Proof. auto using join_keeps, intersection_keeps, difference_keeps. Qed.

  Lemma from_list_keeps l x : In x (set_of_list ltb l) <-> earliest ltb l x.
  Proof.
    unfold set_of_list. rewrite fold_insert_In by constructor. simpl. split; [tauto|]. intros H. right. auto.
  Qed.

  Lemma intersection_list_fold s1 l : forall r,
    intersection_list ltb s1 l r = fold_left (sinsert ltb) (filter (contains ltb s1) l) r.
  Proof.
    induction l as [|h t IH]; intros r; simpl; [reflexivity|]. rewrite IH.
    destruct (contains ltb s1 h); reflexivity.
  Qed.
  Lemma earliest_filter f l x : (forall a b, eqv a b = true -> f a = f b) ->
    (earliest ltb (filter f l) x <-> earliest ltb l x /\ f x = true).
  Proof.
    intros Hf. induction l as [|h t IH]; simpl.
    - split; [intros H|intros [H _]]; destruct (earliest_nil _ H).
    - destruct (f h) eqn:Hh; rewrite !earliest_cons.
      + rewrite IH. split.
        * intros [->|[Hq [He Hx]]]; auto.
        * intros [[->|[Hq He]] Hx]; auto.
      + rewrite IH. split.
        * intros [He Hx]. split; [|exact Hx]. right. split; [|exact He].
          destruct (eqv h x) eqn:Hq; [|reflexivity]. rewrite (Hf _ _ Hq) in Hh. congruence.
        * intros [[->|[Hq He]] Hx]; [congruence|auto].
  Qed.
  Lemma intersection_list_keeps s1 l x :
    In x (intersection_list ltb s1 l []) <-> earliest ltb l x /\ present ltb s1 x.
  Proof.
    rewrite intersection_list_fold, fold_insert_In by constructor. simpl.
    rewrite earliest_filter by (intros a b Hq; apply (contains_eqv ltb HO); exact Hq).
    rewrite contains_present. split; [tauto|]. intros H. right. auto.
  Qed.

  (** duplicates *)
  Lemma duplicate_In l : forall res found x, sorted res -> sorted found ->
    (forall y, contains ltb res y = true -> contains ltb found y = true) ->
    (In x (duplicate_loop ltb res found l) <->
     In x res \/ (contains ltb res x = false /\
       ((contains ltb found x = true /\ earliest ltb l x) \/ (contains ltb found x = false /\ second ltb l x)))).
  Proof.
    induction l as [|h t IH]; intros res found x Hr Hfo Hsub; simpl.
    - split; [auto|]. intros [H|(_ & [[_ H]|[_ (pre & y & mid & post & H & _)]])]; [exact H| |].
      + destruct (earliest_nil _ H).
      + destruct pre; discriminate.
    - assert (Hsec : second ltb (h :: t) x <-> (eqv h x = true /\ earliest ltb t x) \/ (eqv h x = false /\ second ltb t x)).
      { split.
        - intros (pre & y & mid & post & He & Hq & Hp). destruct pre as [|p pre]; simpl in He; injection He as -> ->.
          + left. split; [exact Hq|]. exists mid, post. split; [reflexivity|]. intros z Hz. apply Hp. exact Hz.
          + right. split; [apply Hp; left; reflexivity|]. exists pre, y, mid, post. split; [reflexivity|].
            split; [exact Hq|]. intros z Hz. apply Hp. right; exact Hz.
        - intros [[Hq (mid & post & -> & Hp)]|[Hq (pre & y & mid & post & -> & Hy & Hp)]].
          + exists [], h, mid, post. auto.
          + exists (h :: pre), y, mid, post. split; [reflexivity|]. split; [exact Hy|].
            intros z [<-|Hz]; auto. }
      rewrite Hsec, earliest_cons. clear Hsec.
      destruct (contains ltb found h) eqn:Hch.
      + rewrite IH; [|apply (sinsert_sorted ltb HO); exact Hr|exact Hfo|].
        2:{ intros y. rewrite (sinsert_contains ltb HO) by exact Hr. intros H. apply orb_true_iff in H as [H|H]; [auto|].
            rewrite <- (contains_eqv ltb HO found h y H). exact Hch. }
        rewrite (sinsert_In res h x Hr), (sinsert_contains ltb HO) by exact Hr.
        destruct (eqv h x) eqn:Hq.
        * assert (Hx : contains ltb found x = true) by (rewrite <- (contains_eqv ltb HO found h x Hq); exact Hch).
          rewrite Hx, orb_true_r. rewrite <- (contains_eqv ltb HO res h x Hq).
          intuition congruence.
        * assert (Hne : x <> h) by (intros ->; rewrite (eqvb_refl ltb HO) in Hq; discriminate).
          rewrite orb_false_r. intuition congruence.
      + rewrite IH; [|exact Hr|apply (sinsert_sorted ltb HO); exact Hfo|].
        2:{ intros y Hy. rewrite (sinsert_contains ltb HO) by exact Hfo. rewrite (Hsub y Hy). reflexivity. }
        rewrite (sinsert_contains ltb HO) by exact Hfo.
        destruct (eqv h x) eqn:Hq.
        * assert (Hx : contains ltb found x = false) by (rewrite <- (contains_eqv ltb HO found h x Hq); exact Hch).
          rewrite Hx. simpl. intuition congruence.
        * assert (Hne : x <> h) by (intros ->; rewrite (eqvb_refl ltb HO) in Hq; discriminate).
          rewrite orb_false_r. intuition congruence.
  Qed.
  Lemma duplicates_keep l x : In x (duplicate_elements ltb l) <-> second ltb l x.
  Proof.
    unfold duplicate_elements. rewrite duplicate_In; [|constructor|constructor|auto]. simpl.
    split; [intros [[]|(_ & [[H _]|[_ H]])]; [discriminate|exact H]|]. intros H. right. auto.
  Qed.

  Lemma earliest_present l x : earliest ltb l x -> present ltb l x.
  Proof.
    intros (pre & post & -> & _). exists x. split; [apply in_or_app; simpl; auto|apply (eqvb_refl ltb HO)].
  Qed.
  Lemma earliest_unique l : forall x y, earliest ltb l x -> earliest ltb l y -> eqv x y = true -> x = y.
  Proof.
    induction l as [|h t IH]; intros x y Hx Hy Hq; [destruct (earliest_nil _ Hx)|].
    apply earliest_cons in Hx as [->|[Hx1 Hx]]; apply earliest_cons in Hy as [->|[Hy1 Hy]].
    - reflexivity.
    - congruence.
    - rewrite (eqvb_sym ltb) in Hq. congruence.
    - apply IH; assumption.
  Qed.
  Lemma intersections_differ s l : sorted s ->
    exists r, intersection ltb s (set_of_list ltb l) = Some r /\
      ((forall x, In x r <-> In x (intersection_list ltb s l [])) <->
       (forall x, In x s -> present ltb l x -> earliest ltb l x)).
  Proof.
    intros Hs. destruct (intersection_keeps s (set_of_list ltb l) Hs) as (r & Hr & _ & Hin).
    exists r. split; [exact Hr|].
    assert (Hp : forall x, present ltb (set_of_list ltb l) x <-> present ltb l x).
    { intros x. rewrite <- !contains_present, (set_of_list_contains ltb HO), contains_in_list. reflexivity. }
    split.
    - intros Heq x Hx Hl. apply (intersection_list_keeps s l x). apply Heq. apply Hin. split; [exact Hx|].
      apply Hp; exact Hl.
    - intros He x. rewrite Hin, intersection_list_keeps, Hp. split.
      + intros [Hx Hl]. split; [apply He; assumption|]. exists x. split; [exact Hx|apply (eqvb_refl ltb HO)].
      + intros [Hx (y & Hy & Hq)].
        assert (Hyl : present ltb l y).
        { destruct (earliest_present l x Hx) as (z & Hz & Hzx). exists z. split; [exact Hz|].
          apply (swo_eqv_trans _ HO z x y Hzx). rewrite (eqvb_sym ltb). exact Hq. }
        assert (x = y) as ->.
        { apply (earliest_unique l); [exact Hx|apply He; assumption|]. rewrite (eqvb_sym ltb). exact Hq. }
        auto.
  Qed.

  (** ** programs *)
  Notation fnd := (find_elem (fun x : T => x) ltb).
  Lemma fnd_rlist l x : fnd x l = rlist ltb l x.
  Proof. unfold rlist. induction l as [|h t IH]; simpl; [reflexivity|]. rewrite IH. reflexivity. Qed.
  Lemma contains_fnd l x : contains ltb l x = match fnd x l with Some _ => true | None => false end.
  Proof. apply contains_find. Qed.
  Lemma fnd_sinsert l t x : sorted l -> fnd x (sinsert ltb l t) = rjoin (fun y => fnd y l) (rlist ltb [t]) x.
  Proof.
    intros Hs. unfold sinsert, rjoin, rlist. simpl. destruct (eqv t x) eqn:Hq.
    - apply (insert_elem_find_same (fun x : T => x) ltb HO); assumption.
    - rewrite (insert_elem_find_other (fun x : T => x) ltb) by exact Hq. destruct (fnd x l); reflexivity.
  Qed.
  Lemma fnd_fold_insert l : forall acc x, sorted acc ->
    fnd x (fold_left (sinsert ltb) l acc) = rjoin (fun y => fnd y acc) (rlist ltb l) x.
  Proof.
    induction l as [|h t IH]; intros acc x Hs; cbn [fold_left].
    - unfold rjoin, rlist. simpl. destruct (fnd x acc); reflexivity.
    - rewrite IH by (apply (sinsert_sorted ltb HO); exact Hs). unfold rjoin at 1.
      rewrite fnd_sinsert by exact Hs. unfold rjoin, rlist. simpl.
      destruct (fnd x acc); [reflexivity|]. destruct (eqv h x); reflexivity.
  Qed.
  Lemma fnd_filter f l x : (forall a b, eqv a b = true -> f a = f b) ->
    fnd x (filter f l) = if f x then fnd x l else None.
  Proof.
    intros Hf. induction l as [|h t IH]; simpl; [destruct (f x); reflexivity|].
    destruct (f h) eqn:Hh; simpl; destruct (eqv h x) eqn:Hq.
    - rewrite <- (Hf h x Hq), Hh. reflexivity.
    - exact IH.
    - rewrite IH. rewrite <- (Hf h x Hq), Hh. reflexivity.
    - exact IH.
  Qed.
  Lemma fnd_fold_erase l : forall acc x,
    fnd x (fold_left (serase ltb) l acc) = rminus (fun y => fnd y acc) (rlist ltb l) x.
  Proof.
    induction l as [|h t IH]; intros acc x; cbn [fold_left]; [reflexivity|].
    rewrite IH. unfold rminus. unfold serase at 1. rewrite (erase_key_find (fun x : T => x) ltb HO).
    unfold rlist. simpl. destruct (eqv h x); [|reflexivity].
    destruct (find (fun y => eqv y x) t); reflexivity.
  Qed.
  Lemma fnd_eqv l x y : eqv x y = true -> fnd x l = fnd y l.
  Proof.
    intros Hq. induction l as [|h t IH]; simpl; [reflexivity|].
    rewrite (eqvb_cong_r ltb HO x y h Hq), IH. reflexivity.
  Qed.
  Lemma fnd_remove_elem l t x : fnd x (remove_elem ltb t l) = rminus (fun y => fnd y l) (rlist ltb [t]) x.
  Proof.
    unfold remove_elem, rminus, rlist. simpl. destruct (fnd t l) as [e|] eqn:Hf.
    - unfold serase. rewrite (erase_key_find (fun x : T => x) ltb HO).
      apply find_elem_In in Hf as [_ Hq]. cbn beta in Hq.
      replace (eqv e x) with (eqv t x); [destruct (eqv t x); reflexivity|].
      symmetry. rewrite (eqvb_sym ltb e x), (eqvb_sym ltb t x). apply (eqvb_cong_r ltb HO). exact Hq.
    - destruct (eqv t x) eqn:Hq; [|reflexivity]. rewrite <- (fnd_eqv l t x Hq). exact Hf.
  Qed.

  Lemma erase_fnd ei src (p : T -> bool) l : sorted l ->
    (forall pre x post, sorted (pre ++ x :: post) -> contains ltb (src (pre ++ x :: post)) x = p x) ->
    (forall a b, eqv a b = true -> p a = p b) ->
    exists r, erase_loop ltb ei (S (length l)) (it_begin l) src l = Some r /\ sorted r /\
      forall x, fnd x r = if Bool.eqb (p x) ei then None else fnd x l.
  Proof.
    intros Hs Hp Hc. exists (filter (fun x => negb (Bool.eqb (p x) ei)) l). split; [|split].
    - apply (erase_loop_gen ltb HO ei src p l [] (S (length l))); auto.
    - apply (filter_sorted' ltb); exact Hs.
    - intros x. rewrite fnd_filter by (intros a b Hq; rewrite (Hc a b Hq); reflexivity).
      destruct (Bool.eqb (p x) ei); reflexivity.
  Qed.
  Lemma erase_other_fnd ei s l : sorted l ->
    exists r, erase_loop ltb ei (S (length l)) (it_begin l) (other_arg s) l = Some r /\ sorted r /\
      forall x, fnd x r = if Bool.eqb (match fnd x s with Some _ => true | None => false end) ei then None else fnd x l.
  Proof.
    intros Hs. destruct (erase_fnd ei (other_arg s) (contains ltb s) l Hs) as (r & H1 & H2 & H3).
    - reflexivity.
    - intros a b Hq. apply (contains_eqv ltb HO); exact Hq.
    - exists r. split; [exact H1|]. split; [exact H2|]. intros x. rewrite H3, contains_fnd. reflexivity.
  Qed.
  Lemma erase_arg_fnd ei st d s : (forall v, sorted (st v)) ->
    exists r, erase_loop ltb ei (S (length (st d))) (it_begin (st d)) (arg st d s) (st d) = Some r /\ sorted r /\
      forall x, fnd x r = if Bool.eqb (match fnd x (st s) with Some _ => true | None => false end) ei
                          then None else fnd x (st d).
  Proof.
    intros Hs. unfold arg. destruct (Nat.eqb_spec d s) as [<-|]; [|apply erase_other_fnd, Hs].
    destruct (erase_fnd ei self_arg (fun _ => true) (st d) (Hs d)) as (r & H1 & H2 & H3).
    - intros pre x post _. apply (contains_self ltb HO). apply in_or_app; simpl; auto.
    - reflexivity.
    - exists r. split; [exact H1|]. split; [exact H2|]. intros x. rewrite H3.
      destruct (fnd x (st d)); [reflexivity|]. destruct (Bool.eqb true ei), (Bool.eqb false ei); reflexivity.
  Qed.
  Lemma adjoin_other_fnd s l : sorted l -> sorted s ->
    exists r, adjoin ltb (other_arg s) l = Some r /\ sorted r /\
      forall x, fnd x r = match fnd x l with Some e => Some e | None => fnd x s end.
  Proof.
    intros Hl Hs. exists (fold_left (sinsert ltb) s l). split; [|split].
    - unfold adjoin. apply (adjoin_other_gen ltb HO s [] s); auto.
    - apply (fold_insert_sorted ltb HO); exact Hl.
    - intros x. rewrite fnd_fold_insert by exact Hl. unfold rjoin. rewrite (fnd_rlist s). reflexivity.
  Qed.
  Lemma adjoin_arg_fnd st d s : (forall v, sorted (st v)) ->
    exists r, adjoin ltb (arg st d s) (st d) = Some r /\ sorted r /\
      forall x, fnd x r = match fnd x (st d) with Some e => Some e | None => fnd x (st s) end.
  Proof.
    intros Hs. unfold arg. destruct (Nat.eqb_spec d s) as [<-|].
    - exists (st d). split; [|split; [apply Hs|intros x; destruct (fnd x (st d)); reflexivity]].
      unfold adjoin, self_arg at 1 2. apply (adjoin_self_gen ltb HO (st d) [] (st d)); auto.
    - apply adjoin_other_fnd; apply Hs.
  Qed.
  Lemma intersection_list_fnd s l : sorted (intersection_list ltb s l []) /\
    forall x, fnd x (intersection_list ltb s l []) = rmeet (rlist ltb l) (fun y => fnd y s) x.
  Proof.
    rewrite intersection_list_fold. split; [apply (fold_insert_sorted ltb HO); constructor|].
    intros x. rewrite fnd_fold_insert by constructor. unfold rjoin, rmeet. simpl.
    rewrite <- fnd_rlist, fnd_filter by (intros a b Hq; apply (contains_eqv ltb HO); exact Hq).
    rewrite contains_fnd, (fnd_rlist l). destruct (fnd x s); reflexivity.
  Qed.

  Definition RRel (st : nat -> list T) (p : nat -> rset) : Prop :=
    (forall v, sorted (st v)) /\ (forall v x, fnd x (st v) = p v x).
  Lemma RRel_set st p d l q : RRel st p -> sorted l -> (forall x, fnd x l = q x) ->
    RRel (set_var st d l) (set_var p d q).
  Proof.
    intros [H1 H2] Hl Hq. split.
    - intros v. unfold set_var. destruct (Nat.eqb v d); [exact Hl|apply H1].
    - intros v x. unfold set_var. destruct (Nat.eqb v d); [apply Hq|apply H2].
  Qed.
  Lemma rstep_refines o st p : no_member_restrict o -> RRel st p ->
    exists st', sstep ltb o st = Ret tt st' /\ RRel st' (rset_step ltb o p).
  Proof.
    intros Hok HR. pose proof HR as [Hs Hp].
    destruct o as [d|d l|d s|d t|d s|d t|d s|d l|d s|d s|d s|d s1 s2|d s1 s2|d s1 l|d s1 s2]; cbn [sstep rset_step];
      try (destruct Hok; fail).
    - eexists; split; [reflexivity|]. apply RRel_set; [exact HR|constructor|reflexivity].
    - eexists; split; [reflexivity|]. apply RRel_set; [exact HR|apply (set_of_list_sorted ltb HO)|].
      intros x. unfold set_of_list. rewrite fnd_fold_insert by constructor. reflexivity.
    - eexists; split; [reflexivity|]. apply RRel_set; [exact HR|apply Hs|apply Hp].
    - eexists; split; [reflexivity|]. apply RRel_set; [exact HR|apply (sinsert_sorted ltb HO), Hs|].
      intros x. rewrite fnd_sinsert by apply Hs. unfold rjoin. rewrite Hp. reflexivity.
    - destruct (adjoin_arg_fnd st d s Hs) as (r & -> & Hrs & Hrc). eexists; split; [reflexivity|].
      apply RRel_set; [exact HR|exact Hrs|]. intros x. rewrite Hrc, !Hp. reflexivity.
    - eexists; split; [reflexivity|]. destruct (remove_elem_spec ltb HO t (st d) (Hs d)) as [H1 _].
      apply RRel_set; [exact HR|exact H1|]. intros x. rewrite fnd_remove_elem. unfold rminus. rewrite Hp. reflexivity.
    - unfold member_remove. destruct (erase_arg_fnd true st d s Hs) as (r & -> & Hrs & Hrc). eexists; split; [reflexivity|].
      apply RRel_set; [exact HR|exact Hrs|]. intros x. rewrite Hrc, !Hp. unfold rminus. destruct (p s x); reflexivity.
    - eexists; split; [reflexivity|]. apply RRel_set; [exact HR|apply (fold_erase_sorted ltb), Hs|].
      intros x. unfold remove_list. rewrite fnd_fold_erase. unfold rminus. rewrite Hp. reflexivity.
    - unfold free_remove. destruct (erase_arg_fnd true st d s Hs) as (r & -> & Hrs & Hrc). eexists; split; [reflexivity|].
      apply RRel_set; [exact HR|exact Hrs|]. intros x. rewrite Hrc, !Hp. unfold rminus. destruct (p s x); reflexivity.
    - unfold free_restrict. destruct (erase_arg_fnd false st d s Hs) as (r & -> & Hrs & Hrc). eexists; split; [reflexivity|].
      apply RRel_set; [exact HR|exact Hrs|]. intros x. rewrite Hrc, !Hp. unfold rmeet. destruct (p s x); reflexivity.
    - unfold join. destruct (adjoin_other_fnd (st s2) (st s1) (Hs s1) (Hs s2)) as (r & -> & Hrs & Hrc).
      eexists; split; [reflexivity|]. apply RRel_set; [exact HR|exact Hrs|]. intros x. rewrite Hrc, !Hp. reflexivity.
    - unfold intersection, free_restrict. destruct (erase_other_fnd false (st s2) (st s1) (Hs s1)) as (r & -> & Hrs & Hrc).
      eexists; split; [reflexivity|]. apply RRel_set; [exact HR|exact Hrs|]. intros x. rewrite Hrc, !Hp.
      unfold rmeet. destruct (p s2 x); reflexivity.
    - eexists; split; [reflexivity|]. destruct (intersection_list_fnd (st s1) l) as [H1 H2].
      apply RRel_set; [exact HR|exact H1|]. intros x. rewrite H2. unfold rmeet. rewrite Hp. reflexivity.
    - unfold difference, free_remove. destruct (erase_other_fnd true (st s2) (st s1) (Hs s1)) as (r & -> & Hrs & Hrc).
      eexists; split; [reflexivity|]. apply RRel_set; [exact HR|exact Hrs|]. intros x. rewrite Hrc, !Hp.
      unfold rminus. destruct (p s2 x); reflexivity.
  Qed.
  Lemma rrun_refines ops : forall st p, Forall no_member_restrict ops -> RRel st p ->
    exists st', srun ltb ops st = Ret tt st' /\ RRel st' (rset_run ltb ops p).
  Proof.
    induction ops as [|o t IH]; intros st p Hok HR; cbn [srun].
    - exists st. auto.
    - inversion Hok as [|a b Ho Ht]; subst. destruct (rstep_refines o st p Ho HR) as (st1 & H1 & HR1).
      unfold bind. rewrite H1. apply (IH st1 (rset_step ltb o p) Ht HR1).
  Qed.
  Lemma representatives ops : Forall no_member_restrict ops ->
    exists st', srun ltb ops (fun _ => []) = Ret tt st' /\
      forall v, increasing ltb (st' v) /\
        forall x, In x (st' v) <-> rset_run ltb ops (fun _ _ => None) v x = Some x.
  Proof.
    intros Hok. destruct (rrun_refines ops (fun _ => []) (fun _ _ => None) Hok) as (st' & H1 & H2 & H3).
    - split; [constructor|reflexivity].
    - exists st'. split; [exact H1|]. intros v. split; [apply H2|]. intros x. rewrite <- H3. split.
      + intros Hin. apply (find_elem_sorted (fun x : T => x) ltb HO); [apply H2|exact Hin|apply (eqvb_refl ltb HO)].
      + intros Hf. apply find_elem_In in Hf as [Hin _]. exact Hin.
  Qed.
End SetKeepProofs.
