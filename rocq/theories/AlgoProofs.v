(** AlgoProofs.v -- lemmas about AlgoModel; the property theorems are in AlgoProps.v. *)
From Verif Require Import Base IterModel IterSpec AlgoModel AlgoSpec.

(** ** expressions *)
Lemma forward_complete e : In e (required Forward) -> compiles Forward true e = true.
Proof. simpl. intros H. repeat (destruct H as [<-|H]; [reflexivity|]). destruct H. Qed.
Lemma random_access_exact e : In e (required RandomAccess) ->
  (compiles RandomAccess true e = true <-> ~ In e missing).
Proof.
  simpl. intros H.
  repeat (destruct H as [<-|H];
    [solve [ split; [intros _ [Hm|[Hm|[Hm|[Hm|[]]]]]; discriminate Hm|reflexivity]
           | split; [discriminate|intros Hm; exfalso; apply Hm; tauto] ]|]).
  destruct H.
Qed.
Lemma missing_required e : In e missing -> In e (required RandomAccess) /\ forall b, compiles RandomAccess b e = false.
Proof. simpl. intros H. repeat (destruct H as [<-|H]; [split; [tauto|reflexivity]|]). destruct H. Qed.
Lemma arrow_of_value t : In (OpArrow, [It]) (required t) /\ compiles t false (OpArrow, [It]) = false.
Proof. destruct t; (split; [right; left; reflexivity|reflexivity]). Qed.

(** ** algorithms *)
Section AlgoProofs.
  Context {I Ref : Type} (c : core I Ref) (t : tag) (lo hi : Z) (pos : I -> Z) (HL : lawful c lo hi pos).
  Context (elem : Z -> Ref) (Helem : forall a, c_dereference c a = elem (pos a)).

  Lemma incr_pos a : (pos a < hi)%Z -> exists a', incr c t a = Ret tt a' /\ pos a' = (pos a + 1)%Z.
  Proof.
    intros Ha. destruct t; simpl.
    - eexists; split; [reflexivity|]. apply (law_advance _ _ _ _ HL). pose proof (law_in _ _ _ _ HL a). lia.
    - eexists; split; [reflexivity|]. apply (law_increment _ _ _ _ HL). exact Ha.
  Qed.
  Lemma incr_times_pos n : forall a, (pos a + Z.of_nat n <= hi)%Z ->
    exists a', incr_times c t n a = Ret tt a' /\ pos a' = (pos a + Z.of_nat n)%Z.
  Proof.
    induction n as [|n IH]; intros a Ha; simpl.
    - exists a. split; [reflexivity|lia].
    - destruct (incr_pos a) as (a1 & H1 & P1); [lia|]. unfold bind. rewrite H1.
      destruct (IH a1) as (a2 & H2 & P2); [lia|]. exists a2. split; [exact H2|lia].
  Qed.
  Lemma advance_pos n a : (0 <= n)%Z -> (pos a + n <= hi)%Z ->
    exists a', std_advance c t n a = Ret tt a' /\ pos a' = (pos a + n)%Z.
  Proof.
    intros Hn Ha. unfold std_advance. destruct t eqn:Et.
    - eexists; split; [reflexivity|]. apply (law_advance _ _ _ _ HL). pose proof (law_in _ _ _ _ HL a). lia.
    - destruct (Z.ltb_spec n 0); [lia|]. destruct (incr_times_pos (Z.to_nat n) a) as (a' & H1 & P1); [lia|].
      rewrite Et in H1. exists a'. split; [exact H1|lia].
  Qed.
  Lemma advance_back n a : t = RandomAccess -> (lo <= pos a + n <= hi)%Z ->
    exists a', std_advance c t n a = Ret tt a' /\ pos a' = (pos a + n)%Z.
  Proof.
    intros -> Ha. eexists; split; [reflexivity|]. apply (law_advance _ _ _ _ HL). exact Ha.
  Qed.

  Lemma elements_between_nil a : elements_between elem a a = [].
  Proof. unfold elements_between. rewrite Z.sub_diag. reflexivity. Qed.
  Lemma elements_between_cons a b : (a < b)%Z -> elements_between elem a b = elem a :: elements_between elem (a + 1) b.
  Proof.
    intros Hab. unfold elements_between. replace (Z.to_nat (b - a)) with (S (Z.to_nat (b - (a + 1)))) by lia.
    cbn [seq map]. rewrite Z.add_0_r. f_equal. rewrite <- seq_shift, map_map. apply map_ext. intros i. f_equal. lia.
  Qed.
  Lemma elements_between_length a b : (a <= b)%Z -> Z.of_nat (length (elements_between elem a b)) = (b - a)%Z.
  Proof. intros Hab. unfold elements_between. rewrite map_length, seq_length. lia. Qed.

  Lemma ne_pos a b : f_ne c a b = negb (pos a =? pos b)%Z.
  Proof.
    unfold f_ne. f_equal. apply eq_true_iff_eq. rewrite (law_equal _ _ _ _ HL), Z.eqb_eq. reflexivity.
  Qed.
  Lemma visit_all last n : forall a fuel, (pos last - pos a = Z.of_nat n)%Z -> n < fuel ->
    exists a', visit c t fuel last a = Ret (elements_between elem (pos a) (pos last)) a' /\ pos a' = pos last.
  Proof.
    induction n as [|n IH]; intros a fuel Hd Hf; (destruct fuel as [|f]; [lia|]); simpl; rewrite ne_pos.
    - destruct (Z.eqb_spec (pos a) (pos last)) as [E|E]; [|lia]. simpl. exists a. rewrite E, elements_between_nil. auto.
    - destruct (Z.eqb_spec (pos a) (pos last)) as [E|E]; [lia|]. simpl.
      pose proof (law_in _ _ _ _ HL last).
      destruct (incr_pos a) as (a1 & H1 & P1); [lia|]. unfold bind. rewrite H1.
      destruct (IH a1 f) as (a2 & H2 & P2); [lia|lia|]. rewrite H2. exists a2. split; [|exact P2].
      unfold ret. unfold f_star. rewrite Helem, (elements_between_cons (pos a)), P1 by lia. reflexivity.
  Qed.
  Lemma distance_pos first last fuel : (pos first <= pos last)%Z -> (pos last - pos first < Z.of_nat fuel)%Z ->
    std_distance c t fuel first last = Ret (pos last - pos first)%Z tt.
  Proof.
    intros Hle Hf. unfold std_distance. destruct t eqn:Et.
    - unfold f_diff, neg_diff. rewrite (law_distance _ _ _ _ HL).
      pose proof (law_in _ _ _ _ HL first). pose proof (law_in _ _ _ _ HL last). pose proof (law_fits _ _ _ _ HL).
      destruct (Z.eqb_spec (pos first - pos last) (- 2 ^ 63)); [lia|]. f_equal. lia.
    - destruct (visit_all last (Z.to_nat (pos last - pos first)) first fuel) as (a' & Hv & _); [lia|lia|].
      rewrite Et in Hv. rewrite Hv, elements_between_length by lia. reflexivity.
  Qed.

  (** the elements before position p satisfy [before], the others do not *)
  Definition bound (before : Ref -> bool) (a b p : Z) : Prop :=
    (a <= p <= b)%Z /\ forall i, (a <= i < b)%Z -> (before (elem i) = true <-> (i < p)%Z).
  Lemma lower_bound_loop_pos before b : (b <= hi)%Z -> forall fuel first len, (0 <= len)%Z -> (pos first + len <= b)%Z ->
    (exists p, bound before (pos first) (pos first + len) p) -> (len < Z.of_nat fuel)%Z ->
    exists r, lower_bound_loop c t before fuel len first = Ret tt r /\ bound before (pos first) (pos first + len) (pos r).
  Proof.
    intros Hb. induction fuel as [|f IH]; intros first len Hlen Hin (p & Hp & Hbound) Hf; [lia|]. simpl.
    destruct (Z.ltb_spec 0 len) as [Hpos|Hz].
    2:{ exists first. split; [reflexivity|]. split; [lia|]. intros i Hi. lia. }
    assert (Hhalf : (0 <= len / 2 < len)%Z) by (split; [apply Z.div_pos; lia|apply Z.div_lt; lia]).
    set (half := (len / 2)%Z) in *.
    destruct (advance_pos half first) as (mid & Hm & Pm); [lia|lia|]. rewrite Hm.
    unfold f_star. rewrite Helem, Pm.
    destruct (before (elem (pos first + half)%Z)) eqn:Hbef.
    - destruct (incr_pos mid) as (first1 & H1 & P1); [lia|]. unfold bind. rewrite H1.
      assert (Hlt : (pos first + half < p)%Z) by (apply Hbound; [lia|exact Hbef]).
      destruct (IH first1 (len - half - 1)%Z) as (r & Hr & Hr1 & Hr2); [lia|lia| |lia|].
      { exists p. split; [lia|]. intros i Hi. apply Hbound. lia. }
      exists r. split; [exact Hr|]. split; [lia|]. intros i Hi.
      destruct (Z_lt_dec i (pos first1)) as [Hi1|Hi1]; [|apply Hr2; lia].
      split; [lia|]. intros _. apply Hbound; lia.
    - assert (Hge : (p <= pos first + half)%Z).
      { destruct (Z_le_dec p (pos first + half)) as [H|H]; [exact H|]. exfalso.
        assert (before (elem (pos first + half)%Z) = true) by (apply Hbound; lia). congruence. }
      destruct (IH first half) as (r & Hr & Hr1 & Hr2); [lia|lia| |lia|].
      { exists p. split; [lia|]. intros i Hi. apply Hbound. lia. }
      exists r. split; [exact Hr|]. split; [lia|]. intros i Hi.
      destruct (Z_lt_dec i (pos first + half)) as [Hi1|Hi1]; [apply Hr2; lia|].
      split; [|lia]. intros Hbi. apply Hbound in Hbi; lia.
  Qed.
  Lemma sorted_bound before a n : 
    (forall i j, (a <= i < j)%Z -> (j < a + Z.of_nat n)%Z -> before (elem j) = true -> before (elem i) = true) ->
    exists p, bound before a (a + Z.of_nat n) p.
  Proof.
    induction n as [|n IH]; intros Hs.
    - exists a. split; [lia|]. intros i Hi. lia.
    - destruct IH as (p & Hp & Hb). { intros i j Hij Hj. apply Hs; lia. }
      destruct (before (elem (a + Z.of_nat n)%Z)) eqn:E.
      + exists (a + Z.of_nat (S n))%Z. split; [lia|]. intros i Hi. split; [lia|]. intros _.
        destruct (Z.eq_dec i (a + Z.of_nat n)) as [->|Hne]; [exact E|]. apply (Hs i (a + Z.of_nat n)%Z); [lia|lia|exact E].
      + exists p. split; [lia|]. intros i Hi. destruct (Z.eq_dec i (a + Z.of_nat n)) as [->|Hne].
        * rewrite E. split; [discriminate|lia].
        * apply Hb. lia.
  Qed.
  Lemma lower_bound_pos before fuel first last : (pos first <= pos last)%Z -> (pos last - pos first < Z.of_nat fuel)%Z ->
    (forall i j, (pos first <= i < j)%Z -> (j < pos last)%Z -> before (elem j) = true -> before (elem i) = true) ->
    exists r, lower_bound c t before fuel first last = Ret tt r /\ (pos first <= pos r <= pos last)%Z /\
      forall i, (pos first <= i < pos last)%Z -> (before (elem i) = true <-> (i < pos r)%Z).
  Proof.
    intros Hle Hf Hs. unfold lower_bound. rewrite distance_pos by assumption.
    destruct (lower_bound_loop_pos before (pos last) ltac:(pose proof (law_in _ _ _ _ HL last); lia) fuel first (pos last - pos first)%Z)
      as (r & Hr & Hb); [lia|lia| |exact Hf|].
    - destruct (sorted_bound before (pos first) (Z.to_nat (pos last - pos first))) as (p & Hp).
      + intros i j Hij Hj. apply Hs; lia.
      + exists p. rewrite Z2Nat.id in Hp by lia. exact Hp.
    - exists r. split; [exact Hr|]. destruct Hb as [Hb1 Hb2]. replace (pos first + (pos last - pos first))%Z with (pos last) in * by lia.
      split; [exact Hb1|exact Hb2].
  Qed.
  Lemma algorithms (first last : I) (fuel : nat) : (pos first <= pos last)%Z -> (pos last - pos first < Z.of_nat fuel)%Z ->
  std_distance c t fuel first last = Ret (pos last - pos first)%Z tt /\
  (exists a, visit c t fuel last first = Ret (elements_between elem (pos first) (pos last)) a /\ pos a = pos last) /\
  (forall n, (0 <= n <= pos last - pos first)%Z ->
     exists a, std_advance c t n first = Ret tt a /\ pos a = (pos first + n)%Z) /\
  (forall before,
     (forall i j, (pos first <= i < j)%Z -> (j < pos last)%Z -> before (elem j) = true -> before (elem i) = true) ->
     exists a, lower_bound c t before fuel first last = Ret tt a /\ (pos first <= pos a <= pos last)%Z /\
       forall i, (pos first <= i < pos last)%Z -> (before (elem i) = true <-> (i < pos a)%Z)).
  Proof.
    intros Hle Hf. split; [apply distance_pos; assumption|].
    split; [apply visit_all with (n := Z.to_nat (pos last - pos first)); lia|].
    split; [|intros before Hs; apply lower_bound_pos; assumption].
    intros n Hn. apply advance_pos; pose proof (law_in _ _ _ _ HL last); lia.
  Qed.
End AlgoProofs.
