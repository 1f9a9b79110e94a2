(** StdOrd.v -- contract of the ordered associative containers (std::set, std::map) used by the
    library.  A container is the sorted list of its elements; [key] projects the ordering key.
    Positions are indices into the list, [end()] is "no position".
    Trusted: this is the contract of [associative.reqmts] in the C++ standard, not library code. *)
From Verif Require Import Base.
From Coq Require Export Sorting.Sorted Sorting.Permutation.

(** Equivalence induced by a comparison: neither is less than the other. *)
Definition eqvb {K} (ltb : K -> K -> bool) (a b : K) : bool := negb (ltb a b) && negb (ltb b a).

(** Strict weak order, the requirement of the standard on std::less<K>. *)
Record SWO {K} (ltb : K -> K -> bool) : Prop := {
  swo_irrefl : forall a, ltb a a = false;
  swo_trans : forall a b c, ltb a b = true -> ltb b c = true -> ltb a c = true;
  swo_eqv_trans : forall a b c, eqvb ltb a b = true -> eqvb ltb b c = true -> eqvb ltb a c = true
}.

Section Container.
  Context {E K : Type} (key : E -> K) (ltb : K -> K -> bool).

  (** c.find(k): position of the element with a key equivalent to k, [None] for end(). *)
  Fixpoint find_pos (k : K) (l : list E) : option nat :=
    match l with
    | [] => None
    | e :: t => if eqvb ltb (key e) k then Some 0 else option_map S (find_pos k t)
    end.

  (** the element c.find(k) points to *)
  Fixpoint find_elem (k : K) (l : list E) : option E :=
    match l with
    | [] => None
    | e :: t => if eqvb ltb (key e) k then Some e else find_elem k t
    end.

  (** c.insert(e): no effect if an equivalent key is present. *)
  Fixpoint insert_elem (e : E) (l : list E) : list E :=
    match l with
    | [] => [e]
    | h :: t => if ltb (key h) (key e) then h :: insert_elem e t
                else if ltb (key e) (key h) then e :: h :: t
                else h :: t
    end.

  (** c.erase(k) *)
  Fixpoint erase_key (k : K) (l : list E) : list E :=
    match l with
    | [] => []
    | h :: t => if eqvb ltb (key h) k then erase_key k t else h :: erase_key k t
    end.

  (** c.erase(pos) for a valid position *)
  Fixpoint erase_at (i : nat) (l : list E) : list E :=
    match l, i with
    | [], _ => []
    | _ :: t, O => t
    | h :: t, S j => h :: erase_at j t
    end.

  Definition sorted (l : list E) : Prop :=
    StronglySorted (fun a b => ltb (key a) (key b) = true) l.

  (** *** Laws *)
  Context (H : SWO ltb).

  Lemma eqvb_refl a : eqvb ltb a a = true.
  Proof. unfold eqvb. rewrite (swo_irrefl _ H). reflexivity. Qed.
  Lemma eqvb_sym a b : eqvb ltb a b = eqvb ltb b a.
  Proof. unfold eqvb. apply andb_comm. Qed.
  Lemma eqvb_trans a b c : eqvb ltb a b = true -> eqvb ltb b c = true -> eqvb ltb a c = true.
  Proof. apply (swo_eqv_trans _ H). Qed.
  Lemma eqvb_cong_l a b c : eqvb ltb a b = true -> eqvb ltb a c = eqvb ltb b c.
  Proof.
    intros Hab. destruct (eqvb ltb b c) eqn:Hbc.
    - eapply eqvb_trans; eassumption.
    - destruct (eqvb ltb a c) eqn:Hac; auto.
      rewrite <- Hbc. symmetry. eapply eqvb_trans; [|exact Hac]. rewrite eqvb_sym; exact Hab.
  Qed.
  Lemma eqvb_cong_r a b c : eqvb ltb a b = true -> eqvb ltb c a = eqvb ltb c b.
  Proof. intros Hab. rewrite (eqvb_sym c a), (eqvb_sym c b). apply eqvb_cong_l; assumption. Qed.

  Lemma ltb_not_eqv a b : ltb a b = true -> eqvb ltb a b = false.
  Proof. intros Hab. unfold eqvb. rewrite Hab. reflexivity. Qed.
  Lemma ltb_not_eqv' a b : ltb a b = true -> eqvb ltb b a = false.
  Proof. intros Hab. rewrite eqvb_sym. apply ltb_not_eqv; assumption. Qed.
  Lemma ltb_asym a b : ltb a b = true -> ltb b a = false.
  Proof.
    intros Hab. destruct (ltb b a) eqn:Hba; auto.
    pose proof (swo_trans _ H _ _ _ Hab Hba) as Haa. rewrite (swo_irrefl _ H) in Haa. discriminate.
  Qed.
  Lemma ltb_trichotomy a b : ltb a b = false -> ltb b a = false -> eqvb ltb a b = true.
  Proof. intros H1 H2. unfold eqvb. rewrite H1, H2. reflexivity. Qed.

  (** equivalent keys are interchangeable in comparisons *)
  Lemma ltb_cong_r a b c : eqvb ltb b c = true -> ltb a b = ltb a c.
  Proof.
    assert (Haux : forall b c, eqvb ltb b c = true -> ltb a b = true -> ltb a c = true).
    { intros b' c' Hbc Hab. destruct (ltb a c') eqn:Hac; auto.
      destruct (ltb c' a) eqn:Hca.
      - pose proof (swo_trans _ H _ _ _ Hca Hab) as Hcb.
        unfold eqvb in Hbc. rewrite Hcb in Hbc. rewrite andb_false_r in Hbc. discriminate.
      - assert (Hac' : eqvb ltb a c' = true) by (apply ltb_trichotomy; assumption).
        rewrite <- (eqvb_cong_r _ _ a Hbc) in Hac'.
        rewrite (ltb_not_eqv _ _ Hab) in Hac'. discriminate. }
    intros Hbc. destruct (ltb a b) eqn:Hab, (ltb a c) eqn:Hac; auto.
    - rewrite (Haux b c Hbc Hab) in Hac. discriminate.
    - rewrite (Haux c b) in Hab; [discriminate| rewrite eqvb_sym; exact Hbc | exact Hac].
  Qed.
  Lemma ltb_cong_l a b c : eqvb ltb a b = true -> ltb a c = ltb b c.
  Proof.
    assert (Haux : forall a b, eqvb ltb a b = true -> ltb a c = true -> ltb b c = true).
    { intros a' b' Hab Hac. destruct (ltb b' c) eqn:Hbc; auto.
      destruct (ltb c b') eqn:Hcb.
      - pose proof (swo_trans _ H _ _ _ Hac Hcb) as Hx.
        unfold eqvb in Hab. rewrite Hx in Hab. discriminate.
      - assert (Hx : eqvb ltb b' c = true) by (apply ltb_trichotomy; assumption).
        rewrite <- (eqvb_cong_l _ _ c Hab) in Hx.
        rewrite (ltb_not_eqv _ _ Hac) in Hx. discriminate. }
    intros Hab. destruct (ltb a c) eqn:Hac, (ltb b c) eqn:Hbc; auto.
    - rewrite (Haux a b Hab Hac) in Hbc. discriminate.
    - rewrite (Haux b a) in Hac; [discriminate| rewrite eqvb_sym; exact Hab | exact Hbc].
  Qed.

  Lemma find_elem_In k l e : find_elem k l = Some e -> In e l /\ eqvb ltb (key e) k = true.
  Proof.
    induction l as [|h t IH]; simpl; [discriminate|].
    destruct (eqvb ltb (key h) k) eqn:Hh.
    - intros [= <-]. auto.
    - intros Hf. destruct (IH Hf). auto.
  Qed.
  Lemma find_elem_None k l : find_elem k l = None <-> (forall e, In e l -> eqvb ltb (key e) k = false).
  Proof.
    induction l as [|h t IH]; simpl.
    - split; auto. intros _ e [].
    - destruct (eqvb ltb (key h) k) eqn:Hh.
      + split; [discriminate|]. intros Hx. specialize (Hx h (or_introl eq_refl)). congruence.
      + rewrite IH. split.
        * intros Hx e [<-|He]; auto.
        * auto.
  Qed.
  Lemma find_pos_nth k l i : find_pos k l = Some i ->
    exists e, nth_error l i = Some e /\ find_elem k l = Some e.
  Proof.
    revert i; induction l as [|h t IH]; simpl; intros i; [discriminate|].
    destruct (eqvb ltb (key h) k) eqn:Hh.
    - intros [= <-]. exists h. auto.
    - destruct (find_pos k t) as [j|] eqn:Hf; simpl; [|discriminate].
      intros [= <-]. destruct (IH j eq_refl) as (e & Hn & He). exists e; auto.
  Qed.
  Lemma find_pos_None k l : find_pos k l = None <-> find_elem k l = None.
  Proof.
    induction l as [|h t IH]; simpl; [tauto|].
    destruct (eqvb ltb (key h) k); [split; discriminate|].
    destruct (find_pos k t); simpl; rewrite <- IH; split; congruence.
  Qed.

  (** sorted lists have at most one element per equivalence class *)
  Lemma sorted_inj l a b : sorted l -> In a l -> In b l -> eqvb ltb (key a) (key b) = true -> a = b.
  Proof.
    intros Hs. induction Hs as [|h t Ht IH Hh]; simpl; [tauto|].
    rewrite Forall_forall in Hh.
    intros [<-|Ha] [<-|Hb] Hab; auto.
    - rewrite (ltb_not_eqv _ _ (Hh _ Hb)) in Hab. discriminate.
    - rewrite eqvb_sym, (ltb_not_eqv _ _ (Hh _ Ha)) in Hab. discriminate.
  Qed.
  Lemma find_elem_sorted k l e : sorted l -> In e l -> eqvb ltb (key e) k = true -> find_elem k l = Some e.
  Proof.
    intros Hs He Hk. destruct (find_elem k l) as [e'|] eqn:Hf.
    - apply find_elem_In in Hf as [Hin Hk']. f_equal. apply (sorted_inj l); auto.
      eapply eqvb_trans; [exact Hk'|]. rewrite eqvb_sym; exact Hk.
    - rewrite find_elem_None in Hf. rewrite (Hf e He) in Hk. discriminate.
  Qed.

  (** insertion *)
  Lemma insert_elem_In e l x : In x (insert_elem e l) -> x = e \/ In x l.
  Proof.
    induction l as [|h t IH]; simpl; [intuition|].
    destruct (ltb (key h) (key e)); simpl; [intuition|].
    destruct (ltb (key e) (key h)); simpl; intuition.
  Qed.
  Lemma insert_elem_keeps e l x : In x l -> In x (insert_elem e l).
  Proof.
    induction l as [|h t IH]; simpl; [tauto|].
    destruct (ltb (key h) (key e)); simpl; [intuition|].
    destruct (ltb (key e) (key h)); simpl; intuition.
  Qed.
  Lemma insert_elem_sorted e l : sorted l -> sorted (insert_elem e l).
  Proof.
    intros Hs. induction Hs as [|h t Ht IH Hh]; simpl.
    - constructor; constructor.
    - destruct (ltb (key h) (key e)) eqn:Hhe.
      + constructor; [exact IH|]. apply Forall_forall. intros x Hx.
        apply insert_elem_In in Hx as [->|Hx]; [exact Hhe|].
        rewrite Forall_forall in Hh; auto.
      + destruct (ltb (key e) (key h)) eqn:Heh.
        * constructor; [constructor; assumption|]. constructor; [exact Heh|].
          eapply Forall_impl; [|exact Hh]. intros x Hx. eapply (swo_trans _ H); eassumption.
        * constructor; assumption.
  Qed.
  Lemma insert_elem_find_other e l k : eqvb ltb (key e) k = false ->
    find_elem k (insert_elem e l) = find_elem k l.
  Proof.
    intros He. induction l as [|h t IH]; simpl.
    - rewrite He. reflexivity.
    - destruct (ltb (key h) (key e)) eqn:Hhe; simpl.
      + rewrite IH. reflexivity.
      + destruct (ltb (key e) (key h)) eqn:Heh; simpl; [rewrite He|]; reflexivity.
  Qed.
  Lemma insert_elem_find_same e l k : sorted l -> eqvb ltb (key e) k = true ->
    find_elem k (insert_elem e l) = match find_elem k l with Some x => Some x | None => Some e end.
  Proof.
    intros Hs He. induction Hs as [|h t Ht IH Hh]; simpl.
    - rewrite He. reflexivity.
    - destruct (ltb (key h) (key e)) eqn:Hhe; simpl.
      + assert (Hhk : eqvb ltb (key h) k = false).
        { rewrite <- (eqvb_cong_r (key e) k); auto. apply ltb_not_eqv; assumption. }
        rewrite Hhk. exact IH.
      + destruct (ltb (key e) (key h)) eqn:Heh; simpl.
        * rewrite He.
          assert (Hhk : eqvb ltb (key h) k = false).
          { rewrite <- (eqvb_cong_r (key e) k); auto. apply ltb_not_eqv'; assumption. }
          rewrite Hhk.
          assert (Hn : find_elem k t = None).
          { apply find_elem_None. intros x Hx.
            rewrite <- (eqvb_cong_r (key e) k); auto. apply ltb_not_eqv'.
            rewrite Forall_forall in Hh. eapply (swo_trans _ H); [exact Heh|]. auto. }
          rewrite Hn. reflexivity.
        * assert (Hhk : eqvb ltb (key h) k = true).
          { rewrite <- (eqvb_cong_r (key e) k); auto. apply ltb_trichotomy; assumption. }
          rewrite Hhk. reflexivity.
  Qed.
  (** inserting an element whose key is absent adds exactly it *)
  Lemma insert_elem_perm e l : sorted l -> find_elem (key e) l = None ->
    Permutation (insert_elem e l) (e :: l).
  Proof.
    intros Hs Hn. induction l as [|h t IH]; simpl.
    - constructor; constructor.
    - rewrite find_elem_None in Hn.
      inversion Hs; subst.
      destruct (ltb (key h) (key e)) eqn:Hhe.
      + rewrite IH; auto. { constructor. }
        apply find_elem_None. intros x Hx. apply Hn. simpl; auto.
      + destruct (ltb (key e) (key h)) eqn:Heh.
        * reflexivity.
        * assert (Hx : eqvb ltb (key h) (key e) = true) by (apply ltb_trichotomy; assumption).
          rewrite Hn in Hx; [discriminate|simpl; auto].
  Qed.

  (** erasure *)
  Lemma erase_key_filter k l : erase_key k l = filter (fun e => negb (eqvb ltb (key e) k)) l.
  Proof. induction l as [|h t IH]; simpl; auto. destruct (eqvb ltb (key h) k); simpl; congruence. Qed.
  Lemma filter_sorted f l : sorted l -> sorted (filter f l).
  Proof.
    intros Hs. induction Hs as [|h t Ht IH Hh]; simpl; [constructor|].
    destruct (f h); auto. constructor; auto.
    apply Forall_forall. intros x Hx. apply filter_In in Hx as [Hx _].
    rewrite Forall_forall in Hh; auto.
  Qed.
  Lemma erase_key_sorted k l : sorted l -> sorted (erase_key k l).
  Proof. rewrite erase_key_filter. apply filter_sorted. Qed.
  Lemma erase_key_find k l k' : find_elem k' (erase_key k l) = if eqvb ltb k k' then None else find_elem k' l.
  Proof.
    destruct (eqvb ltb k k') eqn:Hk.
    - apply find_elem_None. intros e He. rewrite erase_key_filter in He.
      apply filter_In in He as [_ He]. rewrite <- (eqvb_cong_r _ _ (key e) Hk).
      destruct (eqvb ltb (key e) k); simpl in He; congruence.
    - induction l as [|h t IH]; simpl; auto.
      destruct (eqvb ltb (key h) k) eqn:Hh; simpl.
      + rewrite (eqvb_cong_l _ _ k' Hh), Hk. exact IH.
      + rewrite IH. reflexivity.
  Qed.
  Lemma erase_at_app l1 x l2 : erase_at (length l1) (l1 ++ x :: l2) = l1 ++ l2.
  Proof. induction l1 as [|h t IH]; simpl; congruence. Qed.
  Lemma sorted_app_remove l1 x l2 : sorted (l1 ++ x :: l2) -> sorted (l1 ++ l2).
  Proof.
    induction l1 as [|h t IH]; simpl; intros Hs; inversion Hs as [|a b Hs' Hf]; subst; auto.
    constructor; [apply IH; exact Hs'|]. rewrite Forall_forall in *. intros y Hy. apply Hf.
    apply in_app_or in Hy. apply in_or_app. simpl. tauto.
  Qed.
End Container.

(** *** orders used in the examples *)
Lemma swo_nat : SWO Nat.ltb.
Proof.
  constructor.
  - intros a. apply Nat.ltb_irrefl.
  - intros a b c. rewrite !Nat.ltb_lt. lia.
  - intros a b c. unfold eqvb. rewrite !andb_true_iff, !negb_true_iff, !Nat.ltb_ge. lia.
Qed.
Lemma swo_Z : SWO Z.ltb.
Proof.
  constructor.
  - intros a. apply Z.ltb_irrefl.
  - intros a b c. rewrite !Z.ltb_lt. lia.
  - intros a b c. unfold eqvb. rewrite !andb_true_iff, !negb_true_iff, !Z.ltb_ge. lia.
Qed.
(** a strict weak order whose equivalence is not equality: compare modulo 10 *)
Definition mod10_ltb (a b : nat) : bool := Nat.ltb (a mod 10) (b mod 10).
Lemma swo_mod10 : SWO mod10_ltb.
Proof.
  unfold mod10_ltb. constructor.
  - intros a. apply Nat.ltb_irrefl.
  - intros a b c. rewrite !Nat.ltb_lt. lia.
  - intros a b c. unfold eqvb. rewrite !andb_true_iff, !negb_true_iff, !Nat.ltb_ge. lia.
Qed.
