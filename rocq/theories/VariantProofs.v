(** VariantProofs.v -- lemmas about VariantModel. *)
From Verif Require Import Base VariantModel.

Section Variant.
  Context {T S R : Type} (code_of : T -> Z) (v : T -> M S R).

  Lemma nodupb_NoDup l : nodupb l = true <-> NoDup l.
  Proof.
    induction l as [|c l IH]; simpl.
    - split; [constructor|reflexivity].
    - rewrite andb_true_iff, negb_true_iff, IH. split.
      + intros [H1 H2]. constructor; [|exact H2]. intros Hin.
        assert (existsb (Z.eqb c) l = true) by (apply existsb_exists; exists c; split; [exact Hin|apply Z.eqb_refl]). congruence.
      + intros H. inversion H as [|? ? Hni Hnd]; subst. split; [|exact Hnd].
        destruct (existsb (Z.eqb c) l) eqn:He; [|reflexivity]. apply existsb_exists in He as (x & Hx & Hxc).
        apply Z.eqb_eq in Hxc. subst. contradiction.
  Qed.
  (** all seventeen overloads are the one switch over the alternatives *)
  Lemma coded_visit_switch alts code : length alts <= 16 ->
    coded_visit code_of v alts code = switch code (map (case code_of v) alts).
  Proof.
    intros Hl. do 17 (destruct alts as [|? alts]; [reflexivity|]). simpl in Hl. lia.
  Qed.
  Lemma coded_visit_too_many alts code : 16 < length alts -> coded_visit code_of v alts code = None.
  Proof.
    intros Hl. do 17 (destruct alts as [|? alts]; [simpl in Hl; lia|]). reflexivity.
  Qed.
  Lemma select_in alts t : NoDup (map code_of alts) -> In t alts ->
    select (code_of t) (map (case code_of v) alts) = v t.
  Proof.
    induction alts as [|a alts IH]; intros Hnd Hin; [contradiction|]. simpl. inversion Hnd as [|? ? Hni Hnd']; subst.
    destruct (Z.eqb_spec (code_of t) (code_of a)) as [He|Hne].
    - destruct Hin as [->|Hin]; [reflexivity|]. exfalso. apply Hni. rewrite <- He. apply in_map. exact Hin.
    - destruct Hin as [->|Hin]; [congruence|]. apply IH; assumption.
  Qed.
  Lemma select_out alts code : ~ In code (map code_of alts) ->
    select code (map (case code_of v) alts) = fun _ => Abort.
  Proof.
    induction alts as [|a alts IH]; intros Hin; [reflexivity|]. simpl.
    destruct (Z.eqb_spec code (code_of a)) as [He|Hne].
    - exfalso. apply Hin. left. auto.
    - apply IH. intros H. apply Hin. right. exact H.
  Qed.
  Lemma visit_defined alts code : NoDup (map code_of alts) -> length alts <= 16 ->
    coded_visit code_of v alts code = Some (select code (map (case code_of v) alts)).
  Proof.
    intros Hnd Hl. rewrite coded_visit_switch by exact Hl. unfold switch. rewrite map_map.
    change (map (fun x => fst (case code_of v x)) alts) with (map code_of alts).
    rewrite (proj2 (nodupb_NoDup _) Hnd). reflexivity.
  Qed.

  Lemma accept_alternative alts t : NoDup (map code_of alts) -> length alts <= 16 -> In t alts ->
    accept code_of v alts (variant_of code_of t) = Some (v t) /\
    forall u, (holds_alternative code_of u (variant_of code_of t) = true <-> code_of u = code_of t) /\
              (In u alts -> (holds_alternative code_of u (variant_of code_of t) = true <-> u = t)).
  Proof.
    intros Hnd Hl Hin. split.
    - unfold accept, variant_of. simpl. rewrite visit_defined by assumption. rewrite select_in by assumption. reflexivity.
    - intros u. unfold holds_alternative, variant_of. simpl. split.
      + rewrite Z.eqb_eq. split; auto.
      + intros Hu. rewrite Z.eqb_eq. split; [|intros ->; reflexivity]. intros He.
        clear v S R Hl. revert Hnd Hin Hu He. induction alts as [|a alts IH]; intros Hnd Hin Hu He; [contradiction|].
        inversion Hnd as [|? ? Hni Hnd']; subst.
        destruct Hin as [->|Hin], Hu as [->|Hu]; auto.
        * exfalso. apply Hni. rewrite He. apply in_map. exact Hu.
        * exfalso. apply Hni. rewrite <- He. apply in_map. exact Hin.
  Qed.
  Lemma accept_other alts code : NoDup (map code_of alts) -> length alts <= 16 -> ~ In code (map code_of alts) ->
    accept code_of v alts (variant_of_code code) = Some (fun _ => Abort).
  Proof.
    intros Hnd Hl Hin. unfold accept. simpl. rewrite visit_defined by assumption. rewrite select_out by assumption.
    reflexivity.
  Qed.
End Variant.

Section TypeLists.
  Context {T : Type} (eqb : T -> T -> bool) (eqb_ok : forall a b, eqb a b = true <-> a = b).
  Lemma eqb_refl' a : eqb a a = true.
  Proof. apply eqb_ok. reflexivity. Qed.
  Lemma is_one_of_ok t us : is_one_of eqb t us = true <-> In t us.
  Proof.
    induction us as [|u us IH]; simpl; [split; [discriminate|tauto]|].
    destruct (eqb t u) eqn:He.
    - apply eqb_ok in He as ->. tauto.
    - rewrite IH. split; [tauto|]. intros [->|H]; [rewrite eqb_refl' in He; discriminate|exact H].
  Qed.
  Lemma are_all_same_ok ts : are_all_same eqb ts = true <-> forall a b, In a ts -> In b ts -> a = b.
  Proof.
    induction ts as [|t ts IH]; [simpl; tauto|]. destruct ts as [|u ts].
    - simpl. split; [|reflexivity]. intros _ a b [->|[]] [->|[]]. reflexivity.
    - cbn [are_all_same]. cbn [are_all_same] in IH. destruct (eqb t u) eqn:He.
      + apply eqb_ok in He as ->. rewrite IH. split.
        * intros H a b [<-|Ha] [<-|Hb]; auto; apply H; simpl; auto.
        * intros H a b Ha Hb. apply H; right; assumption.
      + split; [discriminate|]. intros H. exfalso. specialize (H t u (or_introl eq_refl) (or_intror (or_introl eq_refl))).
        subst. rewrite eqb_refl' in He. discriminate.
  Qed.
  Lemma index_of_ok t ts :
    (forall n, index_of eqb t ts = Some n <-> (nth_error ts n = Some t /\ forall m, m < n -> nth_error ts m <> Some t)) /\
    (index_of eqb t ts = None <-> ~ In t ts).
  Proof.
    induction ts as [|u ts [IH1 IH2]]; simpl.
    - split; [|tauto]. intros n. split; [discriminate|]. intros [H _]. destruct n; discriminate.
    - destruct (eqb t u) eqn:He.
      + apply eqb_ok in He as ->. split.
        * intros n. split.
          -- intros [= <-]. split; [reflexivity|]. intros m Hm. lia.
          -- intros [H1 H2]. destruct n as [|n]; [reflexivity|]. exfalso. apply (H2 0); [lia|reflexivity].
        * split; [discriminate|]. tauto.
      + assert (Hne : t <> u) by (intros ->; rewrite eqb_refl' in He; discriminate). split.
        * intros n. destruct (index_of eqb t ts) as [k|] eqn:Hk.
          -- destruct (proj1 (IH1 k) eq_refl) as [Hn Hlt]. split.
             ++ intros [= <-]. rewrite Nat.add_1_r. split; [exact Hn|]. intros [|m] Hm; [simpl; congruence|].
                simpl. apply Hlt. lia.
             ++ intros [H1 H2]. destruct n as [|n]; [simpl in H1; congruence|]. simpl in H1.
                assert (Hx : index_of eqb t ts = Some n).
                { rewrite Hk. apply (proj2 (IH1 n)). split; [exact H1|]. intros m Hm. apply (H2 (S m)). lia. }
                rewrite Hk in Hx. injection Hx as ->. f_equal. lia.
          -- split; [discriminate|]. intros [H1 _]. destruct n as [|n]; [simpl in H1; congruence|].
             exfalso. apply (proj1 IH2 eq_refl). eapply nth_error_In. exact H1.
        * destruct (index_of eqb t ts) as [k|] eqn:Hk.
          -- split; [discriminate|]. intros H. exfalso. apply H. right.
             destruct (proj1 (IH1 k) eq_refl) as [Hn _]. eapply nth_error_In. exact Hn.
          -- split; [|reflexivity]. intros _ [H|H]; [congruence|]. apply (proj1 IH2 eq_refl H).
  Qed.
End TypeLists.

Lemma type_lists {T} (eqb : T -> T -> bool) : (forall a b, eqb a b = true <-> a = b) ->
  forall (t : T) (ts : list T),
  (is_one_of eqb t ts = true <-> In t ts) /\
  (are_all_same eqb ts = true <-> forall a b, In a ts -> In b ts -> a = b) /\
  (forall n, index_of eqb t ts = Some n <-> (nth_error ts n = Some t /\ forall m, m < n -> nth_error ts m <> Some t)) /\
  (index_of eqb t ts = None <-> ~ In t ts).
Proof.
  intros He t ts. split; [apply is_one_of_ok; exact He|]. split; [apply are_all_same_ok; exact He|].
  apply index_of_ok. exact He.
Qed.
