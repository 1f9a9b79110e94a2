(** SetProofs.v -- lemmas about SetModel. *)
From Verif Require Import Base StdOrd SetModel SetSpec.

Section SetProofs.
  Context {T : Type} (ltb : T -> T -> bool) (HO : SWO ltb).
  Notation eqv := (eqvb ltb).
  Notation key := (fun x : T => x).
  Notation sorted := (increasing ltb).

  Lemma forallb_filter_id (f : T -> bool) l : forallb f l = true -> filter f l = l.
  Proof.
    induction l as [|h t IH]; simpl; [reflexivity|]. intros Hf. apply andb_true_iff in Hf as [-> Ht].
    f_equal. auto.
  Qed.
  Lemma contains_find l t : contains ltb l t = match find_elem key ltb t l with Some _ => true | None => false end.
  Proof.
    unfold contains, sfind. destruct (find_pos key ltb t l) as [i|] eqn:Hp.
    - destruct (find_pos_nth _ _ _ _ _ Hp) as (e & _ & ->). reflexivity.
    - apply find_pos_None in Hp. rewrite Hp. reflexivity.
  Qed.
  Lemma contains_in_list l t : contains ltb l t = in_list ltb l t.
  Proof.
    rewrite contains_find. unfold in_list. induction l as [|h u IH]; simpl; [reflexivity|].
    destruct (eqv h t); [reflexivity|exact IH].
  Qed.
  Lemma contains_true l t : contains ltb l t = true <-> exists e, In e l /\ eqv e t = true.
  Proof. rewrite contains_in_list. unfold in_list. apply existsb_exists. Qed.
  Lemma contains_false l t : contains ltb l t = false <-> forall e, In e l -> eqv e t = false.
  Proof.
    split.
    - intros Hc e He. destruct (eqv e t) eqn:Hq; [|reflexivity].
      enough (contains ltb l t = true) by congruence. apply contains_true. eauto.
    - intros Hf. destruct (contains ltb l t) eqn:Hc; [|reflexivity].
      apply contains_true in Hc as (e & He & Hq). rewrite (Hf e He) in Hq. discriminate.
  Qed.
  Lemma contains_self l t : In t l -> contains ltb l t = true.
  Proof. intros Hin. apply contains_true. exists t. split; [exact Hin|apply eqvb_refl; exact HO]. Qed.
  Lemma contains_eqv l t t' : eqv t t' = true -> contains ltb l t = contains ltb l t'.
  Proof.
    intros Hq. rewrite !contains_in_list. unfold in_list. induction l as [|h u IH]; simpl; [reflexivity|].
    rewrite IH. f_equal. apply eqvb_cong_r; assumption.
  Qed.

  Lemma sinsert_sorted l t : sorted l -> sorted (sinsert ltb l t).
  Proof. intros Hs. apply (insert_elem_sorted key ltb HO). exact Hs. Qed.
  Lemma sinsert_contains l t x : sorted l -> contains ltb (sinsert ltb l t) x = contains ltb l x || eqv t x.
  Proof.
    intros Hs. rewrite !contains_find. unfold sinsert. destruct (eqv t x) eqn:Hq.
    - rewrite (insert_elem_find_same key ltb HO t l x Hs Hq).
      destruct (find_elem key ltb x l); reflexivity.
    - rewrite (insert_elem_find_other key ltb t l x Hq).
      destruct (find_elem key ltb x l); reflexivity.
  Qed.
  Lemma serase_sorted l t : sorted l -> sorted (serase ltb l t).
  Proof. intros Hs. apply (erase_key_sorted key ltb). exact Hs. Qed.
  Lemma serase_contains l t x : contains ltb (serase ltb l t) x = contains ltb l x && negb (eqv t x).
  Proof.
    rewrite !contains_find. unfold serase. rewrite (erase_key_find key ltb HO t l x).
    destruct (eqv t x); destruct (find_elem key ltb x l); reflexivity.
  Qed.

  Lemma fold_insert_sorted l : forall acc, sorted acc -> sorted (fold_left (sinsert ltb) l acc).
  Proof. induction l as [|h u IH]; intros acc Hs; simpl; [exact Hs|]. apply IH. apply sinsert_sorted. exact Hs. Qed.
  Lemma fold_insert_contains l : forall acc x, sorted acc ->
    contains ltb (fold_left (sinsert ltb) l acc) x = contains ltb acc x || in_list ltb l x.
  Proof.
    induction l as [|h u IH]; intros acc x Hs; simpl.
    - rewrite orb_false_r. reflexivity.
    - rewrite IH by (apply sinsert_sorted; exact Hs). rewrite sinsert_contains by exact Hs.
      rewrite <- orb_assoc. reflexivity.
  Qed.
  Lemma sorted_nil : sorted [].
  Proof. constructor. Qed.
  Lemma set_of_list_sorted l : sorted (set_of_list ltb l).
  Proof. apply fold_insert_sorted. constructor. Qed.
  Lemma set_of_list_contains l x : contains ltb (set_of_list ltb l) x = in_list ltb l x.
  Proof. unfold set_of_list. rewrite fold_insert_contains by constructor. reflexivity. Qed.

  Lemma fold_erase_sorted l : forall acc, sorted acc -> sorted (fold_left (serase ltb) l acc).
  Proof. induction l as [|h u IH]; intros acc Hs; simpl; [exact Hs|]. apply IH. apply serase_sorted. exact Hs. Qed.
  Lemma fold_erase_contains l : forall acc x,
    contains ltb (fold_left (serase ltb) l acc) x = contains ltb acc x && negb (in_list ltb l x).
  Proof.
    induction l as [|h u IH]; intros acc x; simpl.
    - rewrite andb_true_r. reflexivity.
    - rewrite IH, serase_contains, negb_orb, andb_assoc. reflexivity.
  Qed.

  (** ** iteration *)
  Lemma sorted_split pre x post : sorted (pre ++ x :: post) ->
    (forall y, In y pre -> ltb y x = true) /\ (forall y, In y post -> ltb x y = true).
  Proof.
    unfold increasing. induction pre as [|h t IH]; simpl; intros Hs; inversion Hs as [|a b Hs' Hf]; subst.
    - rewrite Forall_forall in Hf. split; [intros y []|exact Hf].
    - destruct (IH Hs') as [H1 H2]. rewrite Forall_forall in Hf. split; [|exact H2].
      intros y [<-|Hy]; [|auto]. apply Hf. apply in_or_app; simpl; auto.
  Qed.
  Lemma it_next_split pre x post : sorted (pre ++ x :: post) ->
    it_next ltb x (pre ++ x :: post) = hd_error post.
  Proof.
    intros Hs. destruct (sorted_split _ _ _ Hs) as [H1 H2]. unfold it_next.
    clear Hs. induction pre as [|h t IH]; simpl.
    - rewrite (swo_irrefl _ HO). destruct post as [|y post]; simpl; [reflexivity|].
      rewrite H2 by (simpl; auto). reflexivity.
    - rewrite (ltb_asym ltb HO h x) by (apply H1; simpl; auto).
      apply IH. intros y Hy. apply H1; simpl; auto.
  Qed.
  Lemma sorted_remove pre x post : sorted (pre ++ x :: post) -> sorted (pre ++ post).
  Proof. apply (sorted_app_remove key ltb). Qed.

  Lemma serase_split pre x post : sorted (pre ++ x :: post) ->
    serase ltb (pre ++ x :: post) x = pre ++ post.
  Proof.
    intros Hs. destruct (sorted_split _ _ _ Hs) as [H1 H2]. unfold serase.
    rewrite erase_key_filter, filter_app. simpl. rewrite eqvb_refl by exact HO. simpl.
    f_equal.
    - apply forallb_filter_id. apply forallb_forall. intros y Hy.
      rewrite (ltb_not_eqv ltb y x) by auto. reflexivity.
    - apply forallb_filter_id. apply forallb_forall. intros y Hy.
      rewrite (ltb_not_eqv' ltb x y) by auto. reflexivity.
  Qed.

  Lemma erase_loop_gen ei src (p : T -> bool) rest : forall done fuel,
    (forall pre x post, sorted (pre ++ x :: post) -> contains ltb (src (pre ++ x :: post)) x = p x) ->
    sorted (done ++ rest) -> length rest < fuel ->
    erase_loop ltb ei fuel (it_begin rest) src (done ++ rest) =
    Some (done ++ filter (fun x => negb (Bool.eqb (p x) ei)) rest).
  Proof.
    induction rest as [|x rest IH]; intros done fuel Hp Hs Hf;
      (destruct fuel as [|fuel]; [simpl in Hf; lia|]); cbn [erase_loop it_begin hd_error filter].
    - reflexivity.
    - rewrite (it_next_split _ _ _ Hs), (Hp _ _ _ Hs).
      simpl in Hf. destruct (Bool.eqb (p x) ei); simpl.
      + rewrite (serase_split _ _ _ Hs). apply (IH done fuel Hp); [|lia]. eapply sorted_remove; exact Hs.
      + replace (done ++ x :: rest) with ((done ++ [x]) ++ rest) in * by (rewrite <- app_assoc; reflexivity).
        change (hd_error rest) with (it_begin rest). rewrite (IH (done ++ [x]) fuel Hp Hs) by lia.
        rewrite <- app_assoc. reflexivity.
  Qed.

  Lemma filter_contains f l x : sorted l -> (forall a b, eqv a b = true -> f a = f b) ->
    contains ltb (filter f l) x = contains ltb l x && f x.
  Proof.
    intros Hs Hf. rewrite !contains_in_list. unfold in_list.
    induction l as [|h t IH]; simpl; [reflexivity|]. inversion Hs; subst.
    destruct (f h) eqn:Hfh; simpl; rewrite IH by assumption.
    - destruct (eqv h x) eqn:Hq; simpl; [|reflexivity]. rewrite <- (Hf h x Hq), Hfh. reflexivity.
    - destruct (eqv h x) eqn:Hq; simpl; [|reflexivity].
      rewrite <- (Hf h x Hq), Hfh. rewrite andb_false_r. reflexivity.
  Qed.
  Lemma filter_sorted' f l : sorted l -> sorted (filter f l).
  Proof. apply (filter_sorted key ltb). Qed.

  (** the erasing loop, for both kinds of argument *)
  Lemma erase_other ei s l : sorted l ->
    exists r, erase_loop ltb ei (S (length l)) (it_begin l) (other_arg s) l = Some r /\ sorted r /\
      forall x, contains ltb r x = contains ltb l x && negb (Bool.eqb (contains ltb s x) ei).
  Proof.
    intros Hs. eexists. split.
    - apply (erase_loop_gen ei (other_arg s) (contains ltb s) l [] (S (length l))); auto.
    - split; [apply filter_sorted'; exact Hs|]. intros x. apply filter_contains; [exact Hs|].
      intros a b Hq. rewrite (contains_eqv s a b Hq). reflexivity.
  Qed.
  Lemma erase_self ei l : sorted l ->
    exists r, erase_loop ltb ei (S (length l)) (it_begin l) self_arg l = Some r /\ sorted r /\
      forall x, contains ltb r x = contains ltb l x && negb (Bool.eqb (contains ltb l x) ei).
  Proof.
    intros Hs. eexists. split.
    - apply (erase_loop_gen ei self_arg (fun _ => true) l [] (S (length l))); auto.
      intros pre x post _. apply contains_self. apply in_or_app; simpl; auto.
    - split; [apply filter_sorted'; exact Hs|]. intros x.
      etransitivity; [apply (filter_contains (fun _ : T => negb (Bool.eqb true ei)) l x Hs); reflexivity|].
      destruct (contains ltb l x); reflexivity.
  Qed.
  Lemma erase_arg ei st d s : (forall v, sorted (st v)) ->
    exists r, erase_loop ltb ei (S (length (st d))) (it_begin (st d)) (arg st d s) (st d) = Some r /\ sorted r /\
      forall x, contains ltb r x = contains ltb (st d) x && negb (Bool.eqb (contains ltb (st s) x) ei).
  Proof.
    intros Hs. unfold arg. destruct (Nat.eqb_spec d s) as [<-|].
    - apply erase_self. apply Hs.
    - apply erase_other. apply Hs.
  Qed.

  Lemma insert_present l t : sorted l -> contains ltb l t = true -> sinsert ltb l t = l.
  Proof.
    intros Hs. unfold sinsert, increasing in *. induction Hs as [|h u Hu IH Hh]; intros Hc.
    - discriminate.
    - simpl. rewrite contains_in_list in Hc. unfold in_list in Hc. simpl in Hc.
      destruct (ltb h t) eqn:Hht.
      + rewrite (ltb_not_eqv ltb h t Hht) in Hc. simpl in Hc. f_equal. apply IH.
        rewrite contains_in_list. exact Hc.
      + destruct (ltb t h) eqn:Hth; [|reflexivity]. exfalso.
        rewrite (ltb_not_eqv' ltb t h Hth) in Hc. simpl in Hc.
        apply existsb_exists in Hc as (y & Hy & Hq). rewrite Forall_forall in Hh.
        assert (Hty : ltb t y = true) by (eapply (swo_trans _ HO); [exact Hth|auto]).
        rewrite (ltb_not_eqv' ltb t y Hty) in Hq. discriminate.
  Qed.

  Lemma adjoin_other_gen s pre rest : forall l fuel, s = pre ++ rest -> sorted s -> length rest < fuel ->
    adjoin_loop ltb fuel (it_begin rest) (other_arg s) l = Some (fold_left (sinsert ltb) rest l).
  Proof.
    revert pre; induction rest as [|x rest IH]; intros pre l fuel Hs Hsort Hf;
      (destruct fuel as [|fuel]; [simpl in Hf; lia|]); cbn [adjoin_loop it_begin hd_error fold_left].
    - reflexivity.
    - unfold other_arg at 1. rewrite Hs. rewrite Hs in Hsort. rewrite (it_next_split _ _ _ Hsort).
      rewrite <- Hs. apply (IH (pre ++ [x])).
      + rewrite <- app_assoc. exact Hs.
      + rewrite Hs. exact Hsort.
      + simpl in Hf. lia.
  Qed.
  Lemma adjoin_self_gen l pre rest : forall fuel, l = pre ++ rest -> sorted l -> length rest < fuel ->
    adjoin_loop ltb fuel (it_begin rest) self_arg l = Some l.
  Proof.
    revert pre; induction rest as [|x rest IH]; intros pre fuel Hs Hsort Hf;
      (destruct fuel as [|fuel]; [simpl in Hf; lia|]); cbn [adjoin_loop it_begin hd_error].
    - reflexivity.
    - rewrite (insert_present l x Hsort).
      2:{ apply contains_self. rewrite Hs. apply in_or_app; simpl; auto. }
      unfold self_arg at 1. rewrite Hs at 1. rewrite (it_next_split pre x rest) by (rewrite <- Hs; exact Hsort).
      apply (IH (pre ++ [x])).
      + rewrite <- app_assoc. exact Hs.
      + exact Hsort.
      + simpl in Hf. lia.
  Qed.
  Lemma adjoin_other s l : sorted l -> sorted s ->
    exists r, adjoin ltb (other_arg s) l = Some r /\ sorted r /\
      forall x, contains ltb r x = contains ltb l x || contains ltb s x.
  Proof.
    intros Hl Hs. unfold adjoin. eexists. split.
    - apply (adjoin_other_gen s [] s); auto.
    - split; [apply fold_insert_sorted; exact Hl|]. intros x.
      rewrite fold_insert_contains by exact Hl. rewrite (contains_in_list s). reflexivity.
  Qed.
  Lemma adjoin_arg st d s : (forall v, sorted (st v)) ->
    exists r, adjoin ltb (arg st d s) (st d) = Some r /\ sorted r /\
      forall x, contains ltb r x = contains ltb (st d) x || contains ltb (st s) x.
  Proof.
    intros Hs. unfold arg. destruct (Nat.eqb_spec d s) as [<-|].
    - exists (st d). split; [|split; [apply Hs|intros x; rewrite orb_diag; reflexivity]].
      unfold adjoin, self_arg at 1 2. apply (adjoin_self_gen (st d) [] (st d)); auto.
    - apply adjoin_other; apply Hs.
  Qed.

  Lemma intersection_list_spec s1 l2 : forall r, sorted r ->
    sorted (intersection_list ltb s1 l2 r) /\
    forall x, contains ltb (intersection_list ltb s1 l2 r) x =
              contains ltb r x || (contains ltb s1 x && in_list ltb l2 x).
  Proof.
    induction l2 as [|h t IH]; intros r Hr; simpl.
    - split; [exact Hr|]. intros x. rewrite andb_false_r, orb_false_r. reflexivity.
    - destruct (contains ltb s1 h) eqn:Hc.
      + destruct (IH (sinsert ltb r h) (sinsert_sorted _ _ Hr)) as [H1 H2]. split; [exact H1|].
        intros x. rewrite H2, sinsert_contains by exact Hr.
        destruct (eqv h x) eqn:Hq; simpl; [|rewrite orb_false_r; reflexivity].
        rewrite <- (contains_eqv s1 h x Hq), Hc. simpl. rewrite !orb_true_r. reflexivity.
      + destruct (IH r Hr) as [H1 H2]. split; [exact H1|]. intros x. rewrite H2.
        destruct (eqv h x) eqn:Hq; simpl; [|reflexivity].
        rewrite <- (contains_eqv s1 h x Hq), Hc. reflexivity.
  Qed.

  Lemma remove_elem_spec t l : sorted l -> sorted (remove_elem ltb t l) /\
    forall x, contains ltb (remove_elem ltb t l) x = contains ltb l x && negb (eqv t x).
  Proof.
    intros Hs. unfold remove_elem. destruct (find_elem key ltb t l) as [e|] eqn:Hf.
    - apply find_elem_In in Hf as [Hin Hq]. split; [apply serase_sorted; exact Hs|].
      intros x. rewrite serase_contains. do 2 f_equal. apply eqvb_cong_l; assumption.
    - split; [exact Hs|]. intros x. destruct (eqv t x) eqn:Hq; [|rewrite andb_true_r; reflexivity].
      rewrite <- (contains_eqv l t x Hq). rewrite contains_find, Hf. reflexivity.
  Qed.

  (** ** programs *)
  Definition Rel (st : nat -> list T) (p : nat -> mset) : Prop :=
    (forall v, sorted (st v)) /\ (forall v x, contains ltb (st v) x = p v x).

  Lemma Rel_set st p d l q : Rel st p -> sorted l -> (forall x, contains ltb l x = q x) ->
    Rel (set_var st d l) (set_var p d q).
  Proof.
    intros [H1 H2] Hl Hq. split.
    - intros v. unfold set_var. destruct (Nat.eqb v d); [exact Hl|apply H1].
    - intros v x. unfold set_var. destruct (Nat.eqb v d); [apply Hq|apply H2].
  Qed.

  Lemma sstep_refines o st p : no_member_restrict o -> Rel st p ->
    exists st', sstep ltb o st = Ret tt st' /\ Rel st' (spec_sstep ltb o p).
  Proof.
    intros Hok HR. pose proof HR as [Hs Hp].
    assert (Herase : forall ei d s, exists r,
      erase_loop ltb ei (S (length (st d))) (it_begin (st d)) (arg st d s) (st d) = Some r /\ sorted r /\
      forall x, contains ltb r x = p d x && negb (Bool.eqb (p s x) ei)).
    { intros ei d s. destruct (erase_arg ei st d s Hs) as (r & Hr & Hrs & Hrc). exists r.
      split; [exact Hr|]. split; [exact Hrs|]. intros x. rewrite Hrc, !Hp. reflexivity. }
    assert (Hero : forall ei d s, exists r,
      erase_loop ltb ei (S (length (st d))) (it_begin (st d)) (other_arg (st s)) (st d) = Some r /\ sorted r /\
      forall x, contains ltb r x = p d x && negb (Bool.eqb (p s x) ei)).
    { intros ei d s. destruct (erase_other ei (st s) (st d) (Hs d)) as (r & Hr & Hrs & Hrc). exists r.
      split; [exact Hr|]. split; [exact Hrs|]. intros x. rewrite Hrc, !Hp. reflexivity. }
    destruct o as [d|d l|d s|d t|d s|d t|d s|d l|d s|d s|d s|d s1 s2|d s1 s2|d s1 l|d s1 s2]; cbn [sstep spec_sstep];
      try (destruct Hok; fail).
    - eexists; split; [reflexivity|]. apply Rel_set; [exact HR|constructor|reflexivity].
    - eexists; split; [reflexivity|]. apply Rel_set; [exact HR|apply set_of_list_sorted|apply set_of_list_contains].
    - eexists; split; [reflexivity|]. apply Rel_set; [exact HR|apply Hs|apply Hp].
    - eexists; split; [reflexivity|]. apply Rel_set; [exact HR|apply sinsert_sorted, Hs|].
      intros x. rewrite sinsert_contains by apply Hs. rewrite Hp. reflexivity.
    - destruct (adjoin_arg st d s Hs) as (r & -> & Hrs & Hrc). eexists; split; [reflexivity|].
      apply Rel_set; [exact HR|exact Hrs|]. intros x. rewrite Hrc, !Hp. reflexivity.
    - eexists; split; [reflexivity|]. destruct (remove_elem_spec t (st d) (Hs d)) as [H1 H2].
      apply Rel_set; [exact HR|exact H1|]. intros x. rewrite H2, Hp. reflexivity.
    - unfold member_remove. destruct (Herase true d s) as (r & -> & Hrs & Hrc). eexists; split; [reflexivity|].
      apply Rel_set; [exact HR|exact Hrs|]. intros x. rewrite Hrc. destruct (p s x); reflexivity.
    - eexists; split; [reflexivity|]. apply Rel_set; [exact HR|apply fold_erase_sorted, Hs|].
      intros x. unfold remove_list. rewrite fold_erase_contains, Hp. reflexivity.
    - unfold free_remove. destruct (Herase true d s) as (r & -> & Hrs & Hrc). eexists; split; [reflexivity|].
      apply Rel_set; [exact HR|exact Hrs|]. intros x. rewrite Hrc. destruct (p s x); reflexivity.
    - unfold free_restrict. destruct (Herase false d s) as (r & -> & Hrs & Hrc). eexists; split; [reflexivity|].
      apply Rel_set; [exact HR|exact Hrs|]. intros x. rewrite Hrc. destruct (p s x); reflexivity.
    - unfold join. destruct (adjoin_other (st s2) (st s1) (Hs s1) (Hs s2)) as (r & -> & Hrs & Hrc).
      eexists; split; [reflexivity|]. apply Rel_set; [exact HR|exact Hrs|]. intros x. rewrite Hrc, !Hp. reflexivity.
    - unfold intersection, free_restrict. destruct (Hero false s1 s2) as (r & -> & Hrs & Hrc).
      eexists; split; [reflexivity|]. apply Rel_set; [exact HR|exact Hrs|]. intros x. rewrite Hrc.
      destruct (p s2 x); reflexivity.
    - eexists; split; [reflexivity|]. destruct (intersection_list_spec (st s1) l [] sorted_nil) as [H1 H2].
      apply Rel_set; [exact HR|exact H1|]. intros x. rewrite H2, Hp. reflexivity.
    - unfold difference, free_remove. destruct (Hero true s1 s2) as (r & -> & Hrs & Hrc).
      eexists; split; [reflexivity|]. apply Rel_set; [exact HR|exact Hrs|]. intros x. rewrite Hrc.
      destruct (p s2 x); reflexivity.
  Qed.

  Lemma srun_refines ops : forall st p, Forall no_member_restrict ops -> Rel st p ->
    exists st', srun ltb ops st = Ret tt st' /\ Rel st' (spec_srun ltb ops p).
  Proof.
    induction ops as [|o t IH]; intros st p Hok HR; cbn [srun].
    - exists st. auto.
    - inversion Hok as [|a b Ho Ht]; subst. destruct (sstep_refines o st p Ho HR) as (st1 & H1 & HR1).
      unfold bind. rewrite H1. apply (IH st1 (spec_sstep ltb o p) Ht HR1).
  Qed.

  Lemma iterate_all s pre rest : forall fuel, s = pre ++ rest -> sorted s -> length rest < fuel ->
    iterate ltb fuel (it_begin rest) s = Some rest.
  Proof.
    revert pre; induction rest as [|x rest IH]; intros pre fuel Hs Hsort Hf;
      (destruct fuel as [|fuel]; [simpl in Hf; lia|]); cbn [iterate it_begin hd_error].
    - reflexivity.
    - rewrite Hs at 1. rewrite (it_next_split pre x rest) by (rewrite <- Hs; exact Hsort).
      change (hd_error rest) with (it_begin rest). rewrite (IH (pre ++ [x])).
      + reflexivity.
      + rewrite <- app_assoc. exact Hs.
      + exact Hsort.
      + simpl in Hf. lia.
  Qed.
  Lemma make_list_id s : sorted s -> make_list ltb s = Some s.
  Proof. intros Hs. apply (iterate_all s []); auto. Qed.

  (** from the empty store *)
  Lemma set_histories ops : Forall no_member_restrict ops ->
    exists st', srun ltb ops (fun _ => []) = Ret tt st' /\
      forall v,
        (forall x, contains ltb (st' v) x = spec_srun ltb ops (fun _ _ => false) v x) /\
        (exists l, make_list ltb (st' v) = Some l /\ increasing ltb l /\
                   forall x, in_list ltb l x = spec_srun ltb ops (fun _ _ => false) v x).
  Proof.
    intros Hok. destruct (srun_refines ops (fun _ => []) (fun _ _ => false) Hok) as (st' & Hr & Hs & Hp).
    - split; [intros v; constructor|reflexivity].
    - exists st'. split; [exact Hr|]. intros v. split; [apply Hp|].
      exists (st' v). split; [apply make_list_id, Hs|]. split; [apply Hs|].
      intros x. rewrite <- contains_in_list. apply Hp.
  Qed.

  (** ** decision functions *)
  Lemma subset_forallb s1 s2 : subset ltb s1 s2 = forallb (contains ltb s2) s1.
  Proof. induction s1 as [|x s IH]; simpl; [reflexivity|]. rewrite <- IH. destruct (contains ltb s2 x); reflexivity. Qed.
  Lemma subset_iff s1 s2 : subset ltb s1 s2 = true <->
    forall x, contains ltb s1 x = true -> contains ltb s2 x = true.
  Proof.
    rewrite subset_forallb, forallb_forall. split.
    - intros Hf x Hx. apply contains_true in Hx as (e & He & Hq). rewrite <- (contains_eqv s2 e x Hq). auto.
    - intros Hx e He. apply Hx. apply contains_self. exact He.
  Qed.
  Lemma member_subset_iff this s : member_subset ltb this s = true <->
    forall x, contains ltb s x = true -> contains ltb this x = true.
  Proof.
    rewrite <- subset_iff, subset_forallb. replace (member_subset ltb this s) with (forallb (contains ltb this) s).
    - reflexivity.
    - induction s as [|x s IH]; simpl; [reflexivity|]. rewrite <- IH. destruct (contains ltb this x); reflexivity.
  Qed.

  Lemma forallb_negb_contains s1 l : forallb (fun x => negb (contains ltb s1 x)) l = true <->
    ~ exists x, contains ltb s1 x = true /\ in_list ltb l x = true.
  Proof.
    rewrite forallb_forall. split.
    - intros Hf (x & H1 & H2). unfold in_list in H2. apply existsb_exists in H2 as (e & He & Hq).
      specialize (Hf e He). rewrite (contains_eqv s1 e x Hq), H1 in Hf. discriminate.
    - intros Hn x Hx. destruct (contains ltb s1 x) eqn:Hc; [|reflexivity]. exfalso. apply Hn. exists x.
      split; [exact Hc|]. rewrite <- contains_in_list. apply contains_self. exact Hx.
  Qed.
  Lemma disjoint_all s1 l :
    (member_disjoint ltb s1 l = true <-> ~ exists x, contains ltb s1 x = true /\ in_list ltb l x = true) /\
    (disjoint ltb s1 l = true <-> ~ exists x, contains ltb s1 x = true /\ in_list ltb l x = true) /\
    (disjoint_list ltb s1 l = true <-> ~ exists x, contains ltb s1 x = true /\ in_list ltb l x = true).
  Proof.
    assert (H1 : member_disjoint ltb s1 l = forallb (fun x => negb (contains ltb s1 x)) l).
    { induction l as [|x l IH]; simpl; [reflexivity|]. rewrite <- IH. destruct (contains ltb s1 x); reflexivity. }
    assert (H2 : disjoint_list ltb s1 l = forallb (fun x => negb (contains ltb s1 x)) l).
    { clear H1. induction l as [|x l IH]; simpl; [reflexivity|]. rewrite <- IH. destruct (contains ltb s1 x); reflexivity. }
    assert (H3 : disjoint ltb s1 l = forallb (fun x => negb (contains ltb l x)) s1).
    { clear. induction s1 as [|x s IH]; simpl; [reflexivity|]. rewrite <- IH. destruct (contains ltb l x); reflexivity. }
    rewrite H1, H2, H3. split; [apply forallb_negb_contains|]. split; [|apply forallb_negb_contains].
    rewrite forallb_negb_contains. split; intros Hn (x & Ha & Hb); apply Hn; exists x; split;
      rewrite ?contains_in_list in *; assumption.
  Qed.

  (** ** duplicates *)
  Notation occurs_twice := (occurs_twice ltb).

  Lemma unique_loop_spec lst : forall found, sorted found ->
    (unique_loop ltb found lst = true <->
     (forall x, In x lst -> contains ltb found x = false) /\ ForallOrdPairs (fun a b => eqv a b = false) lst).
  Proof.
    induction lst as [|x t IH]; intros found Hs; simpl.
    - split; [intros _; split; [intros y []|constructor]|reflexivity].
    - destruct (contains ltb found x) eqn:Hc.
      + split; [discriminate|]. intros [Hf _]. rewrite Hf in Hc by auto. discriminate.
      + rewrite IH by (apply sinsert_sorted; exact Hs). split.
        * intros [Hf Hp]. split.
          -- intros y [<-|Hy]; [exact Hc|]. specialize (Hf y Hy).
             rewrite sinsert_contains in Hf by exact Hs. apply orb_false_iff in Hf. tauto.
          -- constructor; [|exact Hp]. apply Forall_forall. intros y Hy. specialize (Hf y Hy).
             rewrite sinsert_contains in Hf by exact Hs. apply orb_false_iff in Hf. tauto.
        * intros [Hf Hp]. inversion Hp as [|a b Hx Ht]; subst. split; [|exact Ht].
          intros y Hy. rewrite sinsert_contains by exact Hs. rewrite Hf by auto.
          rewrite Forall_forall in Hx. rewrite Hx by exact Hy. reflexivity.
  Qed.

  Lemma ordpairs_iff lst : ForallOrdPairs (fun a b => eqv a b = false) lst <->
    ~ exists x, occurs_twice lst x.
  Proof.
    split.
    - intros Hp (x & i & j & a & b & Hij & Ha & Hb & Hax & Hbx).
      assert (Hab : eqv a b = true).
      { eapply eqvb_trans; [exact HO|exact Hax|]. rewrite eqvb_sym. exact Hbx. }
      clear Hax Hbx. revert i j Hij Ha Hb. induction Hp as [|h t Hh Ht IH]; intros i j Hij Ha Hb.
      + destruct i; discriminate.
      + destruct j as [|j]; [lia|]. destruct i as [|i]; simpl in *.
        * injection Ha as ->. rewrite Forall_forall in Hh.
          rewrite Hh in Hab by (eapply nth_error_In; exact Hb). discriminate.
        * apply (IH i j); [lia|exact Ha|exact Hb].
    - intros Hn. induction lst as [|h t IH]; constructor.
      + apply Forall_forall. intros y Hy. destruct (eqv h y) eqn:Hq; [|reflexivity]. exfalso. apply Hn.
        apply In_nth_error in Hy as (j & Hj). exists y, 0, (S j), h, y.
        repeat split; [lia|exact Hj|exact Hq|apply eqvb_refl; exact HO].
      + apply IH. intros (x & i & j & a & b & Hij & Ha & Hb & Hax & Hbx). apply Hn.
        exists x, (S i), (S j), a, b. repeat split; auto. lia.
  Qed.

  Lemma unique_iff lst : unique_elements ltb lst = true <-> ~ exists x, occurs_twice lst x.
  Proof.
    unfold unique_elements. rewrite (unique_loop_spec lst [] sorted_nil), ordpairs_iff. split; [tauto|].
    intros Hn. split; [reflexivity|exact Hn].
  Qed.

  Lemma duplicate_loop_spec lst : forall result found, sorted result -> sorted found ->
    sorted (duplicate_loop ltb result found lst) /\
    forall x, contains ltb (duplicate_loop ltb result found lst) x = true <->
      contains ltb result x = true \/
      (contains ltb found x = true /\ in_list ltb lst x = true) \/ occurs_twice lst x.
  Proof.
    induction lst as [|h t IH]; intros result found Hr Hf; simpl.
    - split; [exact Hr|]. intros x. split; [auto|]. intros [H1|[[_ H1]|H1]]; [exact H1|discriminate|].
      destruct H1 as (i & j & a & b & _ & Ha & _). destruct i; discriminate.
    - assert (Htw : forall x, occurs_twice (h :: t) x <-> (eqv h x = true /\ in_list ltb t x = true) \/ occurs_twice t x).
      { intros x. split.
        - intros (i & j & a & b & Hij & Ha & Hb & Hax & Hbx). destruct j as [|j]; [lia|]. simpl in Hb.
          destruct i as [|i]; simpl in Ha.
          + injection Ha as ->. left. split; [exact Hax|]. unfold in_list. apply existsb_exists.
            exists b. split; [eapply nth_error_In; exact Hb|exact Hbx].
          + right. exists i, j, a, b. repeat split; auto. lia.
        - intros [[Hh Ht]|(i & j & a & b & Hij & Ha & Hb & Hax & Hbx)].
          + unfold in_list in Ht. apply existsb_exists in Ht as (b & Hb & Hq).
            apply In_nth_error in Hb as (j & Hj). exists 0, (S j), h, b. repeat split; auto. lia.
          + exists (S i), (S j), a, b. repeat split; auto. lia. }
      destruct (contains ltb found h) eqn:Hc.
      + destruct (IH (sinsert ltb result h) found (sinsert_sorted _ _ Hr) Hf) as [H1 H2]. split; [exact H1|].
        intros x. rewrite H2, Htw, sinsert_contains by exact Hr. unfold in_list. simpl. fold (in_list ltb t x).
        rewrite !orb_true_iff. split.
        * intros [[Hx|Hx]|[[Ha Hb]|Hx]]; auto; try tauto.
          right; left. rewrite <- (contains_eqv found h x Hx). auto.
        * intros [Hx|[[Ha [Hb|Hb]]|[[Ha Hb]|Hx]]]; auto; try tauto.
      + destruct (IH result (sinsert ltb found h) Hr (sinsert_sorted _ _ Hf)) as [H1 H2]. split; [exact H1|].
        intros x. rewrite H2, Htw, sinsert_contains by exact Hf. unfold in_list. simpl. fold (in_list ltb t x).
        rewrite !orb_true_iff. split.
        * intros [Hx|[[[Ha|Ha] Hb]|Hx]]; auto; tauto.
        * intros [Hx|[[Ha [Hb|Hb]]|[[Ha Hb]|Hx]]]; auto; try tauto.
          exfalso. rewrite <- (contains_eqv found h x Hb), Hc in Ha. discriminate.
  Qed.
  Lemma duplicates_iff lst :
    (unique_elements ltb lst = true <-> ~ exists x, occurs_twice lst x) /\
    increasing ltb (duplicate_elements ltb lst) /\
    (forall x, contains ltb (duplicate_elements ltb lst) x = true <-> occurs_twice lst x) /\
    (duplicate_elements ltb lst = [] <-> unique_elements ltb lst = true).
  Proof.
    destruct (duplicate_loop_spec lst [] [] sorted_nil sorted_nil) as [Hs Hd].
    assert (Hd' : forall x, contains ltb (duplicate_elements ltb lst) x = true <-> occurs_twice lst x).
    { intros x. unfold duplicate_elements. rewrite Hd. split; [|auto].
      intros [H1|[[H1 _]|H1]]; [discriminate|discriminate|exact H1]. }
    split; [apply unique_iff|]. split; [exact Hs|]. split; [exact Hd'|].
    rewrite unique_iff. split.
    - intros He (x & Hx). apply Hd' in Hx. rewrite He in Hx. discriminate.
    - intros Hn. destruct (duplicate_elements ltb lst) as [|x u] eqn:He; [reflexivity|]. exfalso. apply Hn.
      exists x. apply Hd'. apply contains_self. simpl; auto.
  Qed.

  Lemma sorted_ext l1 : forall l2, sorted l1 -> sorted l2 -> (forall x, In x l1 <-> In x l2) -> l1 = l2.
  Proof.
    induction l1 as [|a t IH]; intros [|b u] H1 H2 Hx.
    - reflexivity.
    - destruct (proj2 (Hx b)); simpl; auto.
    - destruct (proj1 (Hx a)); simpl; auto.
    - inversion H1 as [|? ? H1' Hf1]; subst. inversion H2 as [|? ? H2' Hf2]; subst.
      rewrite Forall_forall in Hf1, Hf2.
      assert (a = b).
      { destruct (proj1 (Hx a)) as [Hab|Hab]; [simpl; auto|auto|].
        destruct (proj2 (Hx b)) as [Hba|Hba]; [simpl; auto|auto|].
        specialize (Hf1 b Hba). specialize (Hf2 a Hab). rewrite (ltb_asym ltb HO _ _ Hf1) in Hf2. discriminate. }
      subst b. f_equal. apply IH; auto. intros x. specialize (Hx x). simpl in Hx. split; intros Hin.
      + destruct (proj1 Hx (or_intror Hin)) as [<-|]; auto. specialize (Hf1 a Hin).
        rewrite (swo_irrefl _ HO) in Hf1. discriminate.
      + destruct (proj2 Hx (or_intror Hin)) as [<-|]; auto. specialize (Hf2 a Hin).
        rewrite (swo_irrefl _ HO) in Hf2. discriminate.
  Qed.

  Lemma set_of_sorted s : sorted s -> set_of_list ltb s = s.
  Proof.
    unfold set_of_list. intros Hs.
    assert (Hgen : forall rest acc, sorted (acc ++ rest) -> fold_left (sinsert ltb) rest acc = acc ++ rest).
    { induction rest as [|x rest IH]; intros acc Ha; simpl; [rewrite app_nil_r; reflexivity|].
      assert (He : sinsert ltb acc x = acc ++ [x]).
      { destruct (sorted_split _ _ _ Ha) as [H1 _]. clear -H1. unfold sinsert.
        induction acc as [|h t IH]; simpl; [reflexivity|]. rewrite H1 by (simpl; auto).
        f_equal. apply IH. intros y Hy. apply H1; simpl; auto. }
      rewrite He, IH; rewrite <- app_assoc; [reflexivity|exact Ha]. }
    apply (Hgen s []). exact Hs.
  Qed.

  Lemma conversions :
    (forall s, increasing ltb s -> make_list ltb s = Some s) /\
    (forall l, increasing ltb (make_set ltb l) /\ forall x, contains ltb (make_set ltb l) x = in_list ltb l x) /\
    (forall s, increasing ltb s -> option_map (make_set ltb) (make_list ltb s) = Some s).
  Proof.
    split; [exact make_list_id|]. split.
    - intros l. split; [apply set_of_list_sorted|apply set_of_list_contains].
    - intros s Hs. rewrite (make_list_id s Hs). simpl. unfold make_set. rewrite set_of_sorted by exact Hs. reflexivity.
  Qed.

  (** each operation on any store of sets, aliased arguments included *)
  Lemma one_step o (st : nat -> list T) : no_member_restrict o -> (forall v, increasing ltb (st v)) ->
    exists st', sstep ltb o st = Ret tt st' /\
      (forall v, increasing ltb (st' v)) /\
      forall v x, contains ltb (st' v) x = spec_sstep ltb o (fun v => contains ltb (st v)) v x.
  Proof.
    intros Ho Hs. destruct (sstep_refines o st (fun v => contains ltb (st v)) Ho) as (st' & H1 & H2 & H3).
    - split; [exact Hs|reflexivity].
    - exists st'. auto.
  Qed.
  Lemma intersection_ops (st : nat -> list T) d r s l : (forall v, increasing ltb (st v)) ->
    (forall o, In o [SFreeRestrict r s; SIntersection d r s] ->
       exists st', sstep ltb o st = Ret tt st' /\
         forall x, contains ltb (st' (match o with SFreeRestrict _ _ => r | _ => d end)) x
                   = contains ltb (st r) x && contains ltb (st s) x) /\
    (exists st', sstep ltb (SIntersectionList d r l) st = Ret tt st' /\
         forall x, contains ltb (st' d) x = contains ltb (st r) x && in_list ltb l x) /\
    (forall o, In o [SFreeRemove r s; SRemoveSet r s; SDifference d r s] ->
       exists st', sstep ltb o st = Ret tt st' /\
         forall x, contains ltb (st' (match o with SDifference _ _ _ => d | _ => r end)) x
                   = contains ltb (st r) x && negb (contains ltb (st s) x)).
  Proof.
    intros Hs. split; [|split].
    - intros o Ho.
      assert (Hok : no_member_restrict o) by (destruct Ho as [<-|[<-|[]]]; exact I).
      destruct (one_step o st Hok Hs) as (st' & H1 & _ & H2). exists st'. split; [exact H1|].
      intros x. destruct Ho as [<-|[<-|[]]]; rewrite H2; cbn [spec_sstep]; rewrite set_var_eq; reflexivity.
    - destruct (one_step (SIntersectionList d r l) st I Hs) as (st' & H1 & _ & H2).
      exists st'. split; [exact H1|]. intros x. rewrite H2; cbn [spec_sstep]; rewrite set_var_eq; reflexivity.
    - intros o Ho.
      assert (Hok : no_member_restrict o) by (destruct Ho as [<-|[<-|[<-|[]]]]; exact I).
      destruct (one_step o st Hok Hs) as (st' & H1 & _ & H2). exists st'. split; [exact H1|].
      intros x. destruct Ho as [<-|[<-|[<-|[]]]]; rewrite H2; cbn [spec_sstep]; rewrite set_var_eq; reflexivity.
  Qed.

  (** member restrict: what it really does *)
  Lemma member_restrict_is_remove src l : member_restrict ltb src l = member_remove ltb src l.
  Proof. reflexivity. Qed.
  Lemma member_restrict_spec st d s : (forall v, increasing ltb (st v)) ->
    exists st', sstep ltb (SMemberRestrict d s) st = Ret tt st' /\
      forall x, contains ltb (st' d) x = contains ltb (st d) x && negb (contains ltb (st s) x).
  Proof.
    intros Hs. cbn [sstep]. unfold member_restrict.
    destruct (erase_arg true st d s Hs) as (r & -> & Hrs & Hrc).
    eexists; split; [reflexivity|]. intros x. rewrite set_var_eq, Hrc. destruct (contains ltb (st s) x); reflexivity.
  Qed.
  Lemma member_restrict_right_iff st d s : (forall v, increasing ltb (st v)) ->
    exists st', sstep ltb (SMemberRestrict d s) st = Ret tt st' /\
      ((forall x, contains ltb (st' d) x = contains ltb (st d) x && contains ltb (st s) x) <-> st d = []).
  Proof.
    intros Hs. destruct (member_restrict_spec st d s Hs) as (st' & Hst & Hc). exists st'. split; [exact Hst|].
    split.
    - intros Hx. destruct (st d) as [|h t] eqn:Hd; [reflexivity|]. exfalso.
      specialize (Hx h). rewrite Hc in Hx.
      assert (Hh : contains ltb (h :: t) h = true) by (apply contains_self; simpl; auto).
      rewrite Hh in Hx. simpl in Hx. destruct (contains ltb (st s) h); discriminate.
    - intros Hd x. rewrite Hc, Hd. reflexivity.
  Qed.
End SetProofs.
