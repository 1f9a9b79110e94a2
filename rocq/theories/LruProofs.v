(** LruProofs.v -- lemmas about LruModel; the property theorems are in LruProps.v. *)
From Verif Require Import Base StdOrd LruModel LruSpec.

Section LruProofs.
  Context {L V : Type} (ltb : L -> L -> bool) (HO : SWO ltb).
  Notation node := (node L V).
  Notation cache := (cache L V).
  Notation rlist := (rlist L V).

  (** ** the two loops of the class, in closed form *)
  Lemma get_loop_map (c : cache) e target :
    nth_error (c_elems c) e = Some target ->
    get_loop e (seq 0 (length (c_elems c))) c =
    Ret tt (set_elems c (map (fun n => if (n_age n <? n_age target)%Z then incr_age n else n) (c_elems c))).
  Proof.
    set (f := fun n : node => if (n_age n <? n_age target)%Z then incr_age n else n).
    intros He.
    assert (Hgen : forall rest done mx nx,
      (exists t, nth_error (done ++ rest) e = Some t /\ n_age t = n_age target) ->
      get_loop e (seq (length done) (length rest)) (mkCache mx (done ++ rest) nx) =
      Ret tt (mkCache mx (done ++ map f rest) nx)).
    { induction rest as [|x rest IH]; intros done mx nx (t & Ht & Hage); simpl.
      - rewrite app_nil_r. reflexivity.
      - rewrite nth_error_app_mid, Ht, Hage.
        assert (Hsplit : forall y, done ++ y :: rest = (done ++ [y]) ++ rest)
          by (intros y; rewrite <- app_assoc; reflexivity).
        assert (Hlen : forall y : node, S (length done) = length (done ++ [y]))
          by (intros y; rewrite app_length; simpl; lia).
        unfold f at 1. destruct (n_age x <? n_age target)%Z eqn:Hlt.
        + unfold set_elems; simpl. rewrite upd_app_mid.
          rewrite (Hsplit (incr_age x)), (Hlen (incr_age x)), IH.
          * rewrite <- app_assoc. reflexivity.
          * exists t. split; [|assumption]. rewrite <- Hsplit.
            rewrite <- (upd_app_mid done rest x (incr_age x)).
            rewrite nth_error_upd_neq; [assumption|].
            intros <-. rewrite nth_error_app_mid in Ht. injection Ht as <-.
            apply Z.ltb_lt in Hlt. lia.
        + rewrite (Hsplit x), (Hlen x), IH.
          * rewrite <- app_assoc. reflexivity.
          * exists t. rewrite <- Hsplit. auto. }
    destruct c as [mx es nx]. simpl in *.
    apply (Hgen es [] mx nx). exists target. auto.
  Qed.

  Lemma put_loop_map (c : cache) :
    exists r, put_loop (seq 0 (length (c_elems c))) None c =
              Ret r (set_elems c (map incr_age (c_elems c))) /\
              match r with
              | Some i => exists n, nth_error (c_elems c) i = Some n /\ n_age n = wrap64 (c_max c - 1)
              | None => forall n, In n (c_elems c) -> n_age n <> wrap64 (c_max c - 1)
              end.
  Proof.
    assert (Hgen : forall (rest done0 done : list node) mx nx r,
      length done0 = length done ->
      match r with
      | Some i => exists n, nth_error done0 i = Some n /\ n_age n = wrap64 (mx - 1)
      | None => forall n, In n done0 -> n_age n <> wrap64 (mx - 1)
      end ->
      exists r', put_loop (seq (length done) (length rest)) r (mkCache mx (done ++ rest) nx) =
                 Ret r' (mkCache mx (done ++ map incr_age rest) nx) /\
                 match r' with
                 | Some i => exists n, nth_error (done0 ++ rest) i = Some n /\ n_age n = wrap64 (mx - 1)
                 | None => forall n, In n (done0 ++ rest) -> n_age n <> wrap64 (mx - 1)
                 end).
    { induction rest as [|x rest IH]; intros done0 done mx nx r Hlen Hr; simpl.
      - exists r. rewrite !app_nil_r. split; [reflexivity|]. exact Hr.
      - rewrite nth_error_app_mid. unfold set_elems; simpl. rewrite upd_app_mid.
        replace (done ++ incr_age x :: rest) with ((done ++ [incr_age x]) ++ rest)
          by (rewrite <- app_assoc; reflexivity).
        replace (S (length done)) with (length (done ++ [incr_age x])) by (rewrite app_length; simpl; lia).
        destruct (IH (done0 ++ [x]) (done ++ [incr_age x]) mx nx
                    (if (n_age x =? wrap64 (mx - 1))%Z then Some (length done) else r)) as (r' & Hr' & Hp).
        + rewrite !app_length; simpl; lia.
        + destruct (n_age x =? wrap64 (mx - 1))%Z eqn:Heq.
          * exists x. rewrite <- Hlen, nth_error_app_mid. split; [reflexivity|]. apply Z.eqb_eq; exact Heq.
          * destruct r as [i|].
            -- destruct Hr as (n & Hn & Ha). exists n. split; [|exact Ha].
               rewrite nth_error_app1; [exact Hn|]. apply nth_error_Some. congruence.
            -- intros n Hn. apply in_app_or in Hn as [Hn|[<-|[]]]; [apply Hr; exact Hn|].
               apply Z.eqb_neq; exact Heq.
        + exists r'. split.
          * rewrite Hr'. rewrite <- app_assoc. reflexivity.
          * rewrite <- app_assoc in Hp. exact Hp. }
    destruct c as [mx es nx]; simpl.
    destruct (Hgen es [] [] mx nx None eq_refl) as (r & Hr & Hp).
    { intros n []. }
    exists r. split; [exact Hr|exact Hp].
  Qed.

  (** ** indexed lists *)
  Fixpoint index {A} (i : Z) (l : list A) : list (Z * A) :=
    match l with [] => [] | x :: t => (i, x) :: index (i + 1) t end.

  Lemma index_app {A} i (l1 l2 : list A) :
    index i (l1 ++ l2) = index i l1 ++ index (i + Z.of_nat (length l1)) l2.
  Proof.
    revert i; induction l1 as [|x t IH]; intros i; simpl.
    - f_equal; lia.
    - rewrite IH. do 3 f_equal. lia.
  Qed.
  Lemma index_In {A} i (l : list A) a x :
    In (a, x) (index i l) -> exists l1 l2, l = l1 ++ x :: l2 /\ a = (i + Z.of_nat (length l1))%Z.
  Proof.
    revert i; induction l as [|y t IH]; intros i; simpl; [tauto|].
    intros [[= -> ->]|Hin].
    - exists [], t. split; [reflexivity|simpl; lia].
    - destruct (IH _ Hin) as (l1 & l2 & -> & ->). exists (y :: l1), l2. split; [reflexivity|simpl; lia].
  Qed.
  Lemma index_length {A} i (l : list A) : length (index i l) = length l.
  Proof. revert i; induction l as [|y t IH]; intros i; simpl; auto. Qed.
  Lemma index_snd {A} i (l : list A) : map snd (index i l) = l.
  Proof. revert i; induction l as [|y t IH]; intros i; simpl; congruence. Qed.
  Lemma index_range {A} i (l : list A) a x :
    In (a, x) (index i l) -> (i <= a < i + Z.of_nat (length l))%Z.
  Proof.
    intros Hin. apply index_In in Hin as (l1 & l2 & -> & ->).
    rewrite app_length; simpl. lia.
  Qed.
  Lemma index_map_ages {A} (g : Z -> Z) i j (l : list A) :
    (forall k, (0 <= k < Z.of_nat (length l))%Z -> g (i + k)%Z = (j + k)%Z) ->
    map (fun p => (g (fst p), snd p)) (index i l) = index j l.
  Proof.
    revert i j; induction l as [|x t IH]; intros i j Hg; simpl; [reflexivity|].
    f_equal.
    - f_equal. rewrite <- (Z.add_0_r i). rewrite Hg; simpl; lia.
    - apply IH. intros k Hk. replace (i + 1 + k)%Z with (i + (k + 1))%Z by lia.
      rewrite Hg; simpl in *; lia.
  Qed.
  Lemma index_ages_seq {A} i (l : list A) :
    map fst (index i l) = map (fun k => (i + Z.of_nat k)%Z) (seq 0 (length l)).
  Proof.
    revert i; induction l as [|x t IH]; intros i; simpl; [reflexivity|].
    f_equal; [lia|]. rewrite IH, <- seq_shift, map_map. apply map_ext. intros k. lia.
  Qed.

  (** ** the refinement relation *)
  Definition view (n : node) : Z * (L * V) := (n_age n, (n_key n, n_val n)).

  Record R (c : cache) (s : rlist) : Prop := {
    R_cap : c_max c = r_cap s;
    R_range : (0 < r_cap s < 2 ^ 64)%Z;
    R_bound : (Z.of_nat (length (r_items s)) <= r_cap s)%Z;
    R_sorted : sorted n_key ltb (c_elems c);
    R_perm : Permutation (map view (c_elems c)) (index 0 (r_items s));
    R_addr : NoDup (map n_addr (c_elems c));
    R_fresh : forall n, In n (c_elems c) -> n_addr n < c_next c
  }.

  Lemma R_length c s : R c s -> length (c_elems c) = length (r_items s).
  Proof.
    intros HR. rewrite <- (map_length view). rewrite (Permutation_length (R_perm _ _ HR)).
    apply index_length.
  Qed.

  Lemma R_new m : (0 < m < 2 ^ 64)%Z -> R (mkCache m [] 0) (mkRlist m []).
  Proof. intros Hm. constructor; simpl; try lia; try constructor. Qed.

  Lemma R_item c s n : R c s -> In n (c_elems c) ->
    exists l1 l2, r_items s = l1 ++ (n_key n, n_val n) :: l2 /\ n_age n = Z.of_nat (length l1).
  Proof.
    intros HR Hin.
    assert (Hv : In (view n) (index 0 (r_items s))).
    { eapply Permutation_in; [exact (R_perm _ _ HR)|]. apply in_map. exact Hin. }
    apply index_In in Hv as (l1 & l2 & Hi & Ha). exists l1, l2. split; [exact Hi|]. lia.
  Qed.
  Lemma R_item_inv c s x : R c s -> In x (r_items s) ->
    exists n, In n (c_elems c) /\ n_key n = fst x /\ n_val n = snd x.
  Proof.
    intros HR Hin. rewrite <- (index_snd 0 (r_items s)) in Hin.
    apply in_map_iff in Hin as ([a y] & Hy & Hin). simpl in Hy; subst y.
    apply (Permutation_in _ (Permutation_sym (R_perm _ _ HR))) in Hin.
    apply in_map_iff in Hin as (n & Hn & Hin). injection Hn as _ Hx.
    exists n. subst x. auto.
  Qed.

  Lemma R_ages_inj c s n1 n2 : R c s -> In n1 (c_elems c) -> In n2 (c_elems c) ->
    n_age n1 = n_age n2 -> n1 = n2.
  Proof.
    intros HR H1 H2 Ha.
    destruct (R_item _ _ _ HR H1) as (a1 & b1 & E1 & L1).
    destruct (R_item _ _ _ HR H2) as (a2 & b2 & E2 & L2).
    assert (Hlen : length a1 = length a2) by lia.
    rewrite E1 in E2.
    assert (Hk : n_key n1 = n_key n2).
    { assert (X : nth_error (a1 ++ (n_key n1, n_val n1) :: b1) (length a1) =
                  nth_error (a2 ++ (n_key n2, n_val n2) :: b2) (length a2)) by (rewrite E2, Hlen; reflexivity).
      rewrite !nth_error_app_mid in X. congruence. }
    apply (sorted_inj n_key ltb (c_elems c)); auto; [apply (R_sorted _ _ HR)|].
    rewrite Hk. apply eqvb_refl; assumption.
  Qed.

  Lemma take_label_None l (items : list (L * V)) :
    take_label ltb l items = None <-> (forall x, In x items -> eqvb ltb (fst x) l = false).
  Proof.
    induction items as [|x t IH]; simpl.
    - split; auto. intros _ x [].
    - destruct (eqvb ltb (fst x) l) eqn:Hx.
      + split; [discriminate|]. intros Hn. specialize (Hn x (or_introl eq_refl)). congruence.
      + destruct (take_label ltb l t) as [[[i y] rest]|].
        * split; [discriminate|]. intros Hn.
          enough (Hd : Some (i, y, rest) = None) by discriminate. apply IH. auto.
        * split; auto. intros _ y [<-|Hy]; auto. apply IH; auto.
  Qed.
  Lemma take_label_Some l (items : list (L * V)) i x rest :
    take_label ltb l items = Some (i, x, rest) ->
    exists l1 l2, items = l1 ++ x :: l2 /\ rest = l1 ++ l2 /\ i = length l1 /\ eqvb ltb (fst x) l = true.
  Proof.
    revert i rest; induction items as [|y t IH]; simpl; intros i rest; [discriminate|].
    destruct (eqvb ltb (fst y) l) eqn:Hy.
    - intros [= <- <- <-]. exists [], t. auto.
    - destruct (take_label ltb l t) as [[[j z] r]|] eqn:Ht; [|discriminate].
      intros [= <- <- <-]. destruct (IH j r eq_refl) as (l1 & l2 & -> & -> & -> & Hz).
      exists (y :: l1), l2. auto.
  Qed.

  Lemma R_find_None c s l : R c s ->
    (find_elem n_key ltb l (c_elems c) = None <-> take_label ltb l (r_items s) = None).
  Proof.
    intros HR. rewrite find_elem_None, take_label_None. split.
    - intros Hf x Hx. destruct (R_item_inv _ _ _ HR Hx) as (n & Hn & <- & _). auto.
    - intros Ht n Hn. destruct (R_item _ _ _ HR Hn) as (l1 & l2 & Hi & _).
      apply (Ht (n_key n, n_val n)). rewrite Hi. apply in_or_app; simpl; auto.
  Qed.

  Lemma R_find_Some c s l n : R c s -> find_elem n_key ltb l (c_elems c) = Some n ->
    exists l1 l2, r_items s = l1 ++ (n_key n, n_val n) :: l2 /\
                  n_age n = Z.of_nat (length l1) /\
                  take_label ltb l (r_items s) = Some (length l1, (n_key n, n_val n), l1 ++ l2).
  Proof.
    intros HR Hf. pose proof (find_elem_In _ _ _ _ _ Hf) as [Hin Hk].
    destruct (take_label ltb l (r_items s)) as [[[i x] rest]|] eqn:Ht.
    - destruct (take_label_Some _ _ _ _ _ Ht) as (l1 & l2 & Hi & -> & -> & Hx).
      assert (Hv : In (Z.of_nat (length l1), x) (index 0 (r_items s))).
      { rewrite Hi, index_app. apply in_or_app. right. simpl. left. reflexivity. }
      apply (Permutation_in _ (Permutation_sym (R_perm _ _ HR))) in Hv.
      apply in_map_iff in Hv as (n' & Hn' & Hin'). unfold view in Hn'. injection Hn' as Ha Hx'.
      assert (n' = n).
      { apply (sorted_inj n_key ltb (c_elems c)); auto; [apply (R_sorted _ _ HR)|].
        apply eqvb_trans with (b := l); auto.
        - subst x. exact Hx.
        - rewrite eqvb_sym. exact Hk. }
      subst n' x. exists l1, l2. auto.
    - apply (R_find_None _ _ _ HR) in Ht. congruence.
  Qed.

  (** ** membership operations in closed form *)
  Lemma has_label_eq (c : cache) l :
    has_label ltb l c = Ret (match find_elem n_key ltb l (c_elems c) with Some _ => true | None => false end) c.
  Proof.
    unfold has_label. destruct (find_pos n_key ltb l (c_elems c)) as [i|] eqn:Hp.
    - destruct (find_pos_nth _ _ _ _ _ Hp) as (e & _ & He). rewrite He. reflexivity.
    - apply find_pos_None in Hp. rewrite Hp. reflexivity.
  Qed.

  Definition get_elems (t : node) (es : list node) : list node :=
    map (fun n => if Nat.eqb (n_addr n) (n_addr t) then set_age n 0%Z
                  else if (n_age n <? n_age t)%Z then incr_age n else n) es.

  Lemma NoDup_map_nth {A B} (f : A -> B) l i j a b :
    NoDup (map f l) -> nth_error l i = Some a -> nth_error l j = Some b -> f a = f b -> i = j.
  Proof.
    intros Hnd Ha Hb Hf.
    apply (map_nth_error f) in Ha. apply (map_nth_error f) in Hb.
    rewrite NoDup_nth_error in Hnd. apply Hnd.
    - apply nth_error_Some. congruence.
    - congruence.
  Qed.

  Lemma get_eq (c : cache) l n : NoDup (map n_addr (c_elems c)) ->
    find_elem n_key ltb l (c_elems c) = Some n ->
    get ltb l c = Ret (n_addr n) (set_elems c (get_elems n (c_elems c))).
  Proof.
    intros Hnd Hf. unfold get.
    destruct (find_pos n_key ltb l (c_elems c)) as [e|] eqn:Hp.
    2:{ apply find_pos_None in Hp. congruence. }
    destruct (find_pos_nth _ _ _ _ _ Hp) as (n' & Hn & Hf'). rewrite Hf in Hf'. injection Hf' as <-.
    unfold bind. rewrite (get_loop_map c e n Hn). simpl.
    rewrite nth_error_map, Hn. simpl.
    rewrite Z.ltb_irrefl. unfold set_elems; simpl. do 2 f_equal.
    apply nth_error_ext. intros i. unfold get_elems.
    rewrite nth_error_upd, map_length, !nth_error_map.
    destruct (Nat.eqb_spec e i) as [<-|Hne].
    - rewrite Hn. simpl. rewrite Nat.eqb_refl.
      destruct (Nat.ltb_spec e (length (c_elems c))) as [Hlt|Hge]; [reflexivity|].
      apply nth_error_None in Hge. congruence.
    - destruct (nth_error (c_elems c) i) as [m|] eqn:Hm; simpl; [|reflexivity].
      destruct (Nat.eqb_spec (n_addr m) (n_addr n)) as [Heq|]; [|reflexivity].
      exfalso. apply Hne. symmetry. eapply NoDup_map_nth; eassumption.
  Qed.

  Lemma get_none (c : cache) l : find_elem n_key ltb l (c_elems c) = None -> get ltb l c = Exc ERuntime c.
  Proof. intros Hf. unfold get. apply find_pos_None in Hf. rewrite Hf. reflexivity. Qed.

  Lemma sorted_map_key (f : node -> node) es :
    (forall n, n_key (f n) = n_key n) -> sorted n_key ltb es -> sorted n_key ltb (map f es).
  Proof.
    intros Hf Hs. induction Hs as [|h t Ht IH Hh]; simpl; constructor; auto.
    rewrite Forall_forall in *. intros x Hx. apply in_map_iff in Hx as (y & <- & Hy).
    rewrite !Hf. auto.
  Qed.
  Lemma map_addr_pres (f : node -> node) es :
    (forall n, n_addr (f n) = n_addr n) -> map n_addr (map f es) = map n_addr es.
  Proof. intros Hf. rewrite map_map. apply map_ext. exact Hf. Qed.

  (** ** each call preserves the relation and gives the specified answer *)
  Lemma R_get c s l n : R c s -> find_elem n_key ltb l (c_elems c) = Some n ->
    forall rest i x, take_label ltb l (r_items s) = Some (i, x, rest) ->
    R (set_elems c (get_elems n (c_elems c))) (mkRlist (r_cap s) (x :: rest)).
  Proof.
    intros HR Hf rest i x Ht.
    destruct (R_find_Some _ _ _ _ HR Hf) as (l1 & l2 & Hi & Ha & Ht').
    rewrite Ht in Ht'. injection Ht' as -> -> ->.
    pose proof (find_elem_In _ _ _ _ _ Hf) as [Hin Hk].
    assert (Hlen := R_length _ _ HR). destruct HR as [Hcap Hrange Hbound Hsort Hperm Haddr Hfresh].
    constructor; simpl; auto.
    - rewrite Hi in Hbound. rewrite app_length in *. simpl in *. lia.
    - apply sorted_map_key; auto. intros m.
      destruct (n_addr m =? n_addr n); [reflexivity|]. destruct (n_age m <? n_age n)%Z; reflexivity.
    - set (g := fun a => if (a =? n_age n)%Z then 0%Z else if (a <? n_age n)%Z then wrap64 (a + 1) else a).
      assert (HRagain : R c s) by (constructor; auto).
      assert (Hview : map view (get_elems n (c_elems c)) =
                      map (fun p => (g (fst p), snd p)) (map view (c_elems c))).
      { unfold get_elems. rewrite !map_map. apply map_ext_in. intros m Hm. unfold view, g. simpl.
        destruct (Nat.eqb_spec (n_addr m) (n_addr n)) as [Heq|Hne].
        - assert (m = n).
          { destruct (In_nth_error _ _ Hm) as (j1 & Hj1). destruct (In_nth_error _ _ Hin) as (j2 & Hj2).
            assert (j1 = j2) by (eapply NoDup_map_nth; eassumption). congruence. }
          subst m. rewrite Z.eqb_refl. reflexivity.
        - destruct (Z.eqb_spec (n_age m) (n_age n)) as [Heq|Hane].
          + exfalso. apply Hne. f_equal. eapply R_ages_inj; eassumption.
          + destruct (n_age m <? n_age n)%Z; reflexivity. }
      rewrite Hview.
      rewrite (Permutation_map (fun p => (g (fst p), snd p)) Hperm).
      rewrite Hi, index_app, map_app. cbn [index map]. rewrite index_app.
      cbn [fst snd]. change (0 + 1)%Z with 1%Z. rewrite Z.add_0_l.
      rewrite Hi, app_length in Hbound. simpl in Hbound.
      rewrite (index_map_ages g 0 1 l1).
      2:{ intros k Hkr. unfold g. rewrite Ha. destruct (Z.eqb_spec (0 + k) (Z.of_nat (length l1))); [lia|].
          destruct (Z.ltb_spec (0 + k) (Z.of_nat (length l1))); [|lia].
          rewrite wrap64_small; lia. }
      rewrite (index_map_ages g _ (Z.of_nat (length l1) + 1) l2).
      2:{ intros k Hkr. unfold g. rewrite Ha.
          destruct (Z.eqb_spec (Z.of_nat (length l1) + 1 + k) (Z.of_nat (length l1))); [lia|].
          destruct (Z.ltb_spec (Z.of_nat (length l1) + 1 + k) (Z.of_nat (length l1))); lia. }
      replace (g (Z.of_nat (length l1))) with 0%Z
        by (unfold g; rewrite Ha, Z.eqb_refl; reflexivity).
      replace (1 + Z.of_nat (length l1))%Z with (Z.of_nat (length l1) + 1)%Z by lia.
      symmetry. apply Permutation_middle.
    - unfold get_elems. rewrite map_addr_pres; auto. intros m.
      destruct (n_addr m =? n_addr n); [reflexivity|]. destruct (n_age m <? n_age n)%Z; reflexivity.
    - intros m Hm. unfold get_elems in Hm. apply in_map_iff in Hm as (m' & <- & Hm').
      specialize (Hfresh _ Hm').
      destruct (n_addr m' =? n_addr n); [exact Hfresh|]. destruct (n_age m' <? n_age n)%Z; exact Hfresh.
  Qed.

  (** after ageing, the elements are those of the recency list shifted by one *)
  Lemma aged_perm c s : R c s ->
    Permutation (map view (map incr_age (c_elems c))) (index 1 (r_items s)) \/
    (Z.of_nat (length (r_items s)) = 2 ^ 64)%Z.
  Proof.
    intros HR. left.
    assert (Hview : map view (map incr_age (c_elems c)) =
                    map (fun p => (wrap64 (fst p + 1), snd p)) (map view (c_elems c))).
    { rewrite !map_map. apply map_ext. intros m. reflexivity. }
    rewrite Hview, (Permutation_map _ (R_perm _ _ HR)).
    rewrite (index_map_ages (fun a => wrap64 (a + 1)) 0 1 (r_items s)); [reflexivity|].
    intros k Hk. pose proof (R_bound _ _ HR). pose proof (R_range _ _ HR).
    rewrite wrap64_small; lia.
  Qed.

  (** state after the first part of put (lines 82-91), on a not yet full cache *)
  Lemma put_prefix_room c s l v b : R c s ->
    find_elem n_key ltb l (c_elems c) = None ->
    (Z.of_nat (length (r_items s)) < r_cap s)%Z ->
    put ltb l v b c = put_insert ltb l v b (set_elems c (map incr_age (c_elems c))).
  Proof.
    intros HR Hf Hroom. unfold put. apply find_pos_None in Hf. rewrite Hf.
    rewrite (R_length _ _ HR), (R_cap _ _ HR).
    destruct (Z.ltb_spec (Z.of_nat (length (r_items s))) (r_cap s)); [|lia].
    reflexivity.
  Qed.

  Lemma incr_age_addr (es : list node) : map n_addr (map incr_age es) = map n_addr es.
  Proof. apply map_addr_pres. reflexivity. Qed.

  Lemma map_app_inv' {A B} (f : A -> B) l a b :
    map f l = a ++ b -> exists l1 l2, l = l1 ++ l2 /\ map f l1 = a /\ map f l2 = b.
  Proof. intros Hm. apply map_eq_app in Hm. exact Hm. Qed.

  Lemma put_prefix_full c s l v b : R c s ->
    find_elem n_key ltb l (c_elems c) = None ->
    Z.of_nat (length (r_items s)) = r_cap s ->
    exists e1 victim e2 items x,
      c_elems c = e1 ++ victim :: e2 /\ r_items s = items ++ [x] /\
      n_age victim = (r_cap s - 1)%Z /\ n_key victim = fst x /\ n_val victim = snd x /\
      put ltb l v b c = put_insert ltb l v b (set_elems c (map incr_age (e1 ++ e2))) /\
      Permutation (map view (e1 ++ e2)) (index 0 items).
  Proof.
    intros HR Hf Hfull.
    assert (Hrange := R_range _ _ HR).
    destruct (exists_last (l := r_items s)) as (items & x & Hx).
    { intros Hn. rewrite Hn in Hfull. simpl in Hfull. lia. }
    assert (Hlx : (Z.of_nat (length items) = r_cap s - 1)%Z).
    { rewrite <- Hfull, Hx, app_length. simpl. lia. }
    assert (Hv : In (r_cap s - 1, x)%Z (index 0 (r_items s))).
    { rewrite Hx, index_app. apply in_or_app; right. simpl. left. f_equal. lia. }
    apply (Permutation_in _ (Permutation_sym (R_perm _ _ HR))) in Hv.
    apply in_map_iff in Hv as (victim & Hvv & Hvin). unfold view in Hvv. injection Hvv as Hva Hvx.
    destruct (put_loop_map c) as (r & Hr & Hrp).
    assert (Hw : wrap64 (c_max c - 1) = (r_cap s - 1)%Z).
    { rewrite (R_cap _ _ HR). apply wrap64_small. lia. }
    rewrite Hw in Hrp.
    destruct r as [i|]; [|exfalso; apply (Hrp _ Hvin); exact Hva].
    destruct Hrp as (n & Hn & Hna).
    assert (n = victim).
    { eapply R_ages_inj; [exact HR| | exact Hvin | congruence]. eapply nth_error_In; eassumption. }
    subst n.
    destruct (nth_error_split _ _ Hn) as (e1 & e2 & He & Hi). subst i.
    exists e1, victim, e2, items, x.
    repeat split; auto.
    - subst x; reflexivity.
    - subst x; reflexivity.
    - unfold put. apply find_pos_None in Hf. rewrite Hf.
      rewrite (R_length _ _ HR), (R_cap _ _ HR).
      destruct (Z.ltb_spec (Z.of_nat (length (r_items s))) (r_cap s)); [lia|].
      rewrite <- (R_length _ _ HR).
      unfold bind at 1. unfold bind at 1. rewrite Hr. unfold put_erase.
      f_equal. unfold set_elems; simpl. f_equal.
      rewrite He, !map_app. simpl. rewrite <- (map_length incr_age e1).
      rewrite erase_at_app. reflexivity.
    - pose proof (R_perm _ _ HR) as Hp. rewrite He, Hx, index_app, map_app in Hp. simpl in Hp.
      rewrite map_app.
      replace (Z.of_nat (length items)) with (n_age victim) in Hp by lia.
      rewrite <- Hvx in Hp.
      change (n_age victim, (n_key victim, n_val victim)) with (view victim) in Hp.
      apply Permutation_sym in Hp. apply Permutation_app_inv in Hp.
      rewrite app_nil_r in Hp. symmetry. exact Hp.
  Qed.

  Lemma index_shift_perm (es : list node) (items : list (L * V)) :
    (Z.of_nat (length items) < 2 ^ 64)%Z ->
    Permutation (map view es) (index 0 items) ->
    Permutation (map view (map incr_age es)) (index 1 items).
  Proof.
    intros Hlen Hp.
    assert (Hview : map view (map incr_age es) =
                    map (fun p => (wrap64 (fst p + 1), snd p)) (map view es)).
    { rewrite !map_map. apply map_ext. intros m. reflexivity. }
    rewrite Hview, (Permutation_map _ Hp).
    destruct items as [|x0 items0]; [constructor|].
    rewrite (index_map_ages (fun a => wrap64 (a + 1)) 0 1 (x0 :: items0)); [reflexivity|].
    intros k Hk. rewrite wrap64_small; lia.
  Qed.

  (** inserting the new node into the aged survivors re-establishes the relation *)
  Lemma R_insert es items cap l v nx :
    (0 < cap < 2 ^ 64)%Z -> (Z.of_nat (length items) < cap)%Z ->
    sorted n_key ltb es -> Permutation (map view es) (index 0 items) ->
    NoDup (map n_addr es) -> (forall n, In n es -> n_addr n < nx) ->
    find_elem n_key ltb l es = None ->
    R (mkCache cap (insert_elem n_key ltb (mkNode nx l 0%Z v) (map incr_age es)) (S nx))
      (mkRlist cap ((l, v) :: items)).
  Proof.
    intros Hcap Hlen Hs Hp Hnd Hfr Hf.
    assert (Hs' : sorted n_key ltb (map incr_age es)) by (apply sorted_map_key; auto).
    assert (Hf' : find_elem n_key ltb l (map incr_age es) = None).
    { apply find_elem_None. intros n Hn. apply in_map_iff in Hn as (m & <- & Hm).
      rewrite find_elem_None in Hf. apply (Hf m Hm). }
    pose proof (insert_elem_perm n_key ltb (mkNode nx l 0%Z v) _ Hs' Hf') as Hip.
    constructor; simpl; auto.
    - lia.
    - apply insert_elem_sorted; assumption.
    - rewrite (Permutation_map view Hip). simpl. constructor.
      apply index_shift_perm; [lia|assumption].
    - apply (Permutation_NoDup (l := nx :: map n_addr es)).
      + symmetry. rewrite (Permutation_map n_addr Hip). simpl. rewrite incr_age_addr. reflexivity.
      + constructor; auto. intros Hin. apply in_map_iff in Hin as (m & Hm & Hin). specialize (Hfr m Hin). lia.
    - intros n Hn. apply insert_elem_In in Hn as [->|Hn]; [simpl; lia|].
      apply in_map_iff in Hn as (m & <- & Hm). specialize (Hfr m Hm). simpl. lia.
  Qed.

  Lemma NoDup_app_remove {A} (l1 : list A) x l2 : NoDup (l1 ++ x :: l2) -> NoDup (l1 ++ l2).
  Proof. apply NoDup_remove_1. Qed.

  Lemma put_insert_val l v b (c : cache) :
    put_insert ltb l (VVal v) b c =
    if b then Exc (EUser 0) c
    else Ret tt (mkCache (c_max c) (insert_elem n_key ltb (mkNode (c_next c) l 0%Z v) (c_elems c)) (S (c_next c))).
  Proof. unfold put_insert, bind, read_vref. destruct b; reflexivity. Qed.

  Lemma put_none_throws (c : cache) l v b : find_elem n_key ltb l (c_elems c) <> None -> put ltb l v b c = Exc ERuntime c.
  Proof.
    intros Hf. unfold put. destruct (find_pos n_key ltb l (c_elems c)) eqn:Hp; [reflexivity|].
    apply find_pos_None in Hp. contradiction.
  Qed.

  (** full description of a successful put *)
  Lemma R_put c s l v : R c s -> take_label ltb l (r_items s) = None ->
    exists c', put ltb l (VVal v) false c = Ret tt c' /\
      R c' (mkRlist (r_cap s) ((l, v) :: (if (Z.of_nat (length (r_items s)) <? r_cap s)%Z
                                          then r_items s else removelast (r_items s)))) /\
      c_next c' = S (c_next c).
  Proof.
    intros HR Ht. assert (Hf := proj2 (R_find_None c s l HR) Ht).
    destruct (Z.ltb_spec (Z.of_nat (length (r_items s))) (r_cap s)) as [Hlt|Hge].
    - rewrite (put_prefix_room c s l (VVal v) false HR Hf Hlt), put_insert_val. simpl.
      eexists; split; [reflexivity|]. split; [|reflexivity].
      rewrite (R_cap _ _ HR). apply R_insert; try apply HR; assumption.
    - assert (Hfull : Z.of_nat (length (r_items s)) = r_cap s) by (pose proof (R_bound _ _ HR); lia).
      destruct (put_prefix_full c s l (VVal v) false HR Hf Hfull)
        as (e1 & victim & e2 & items & x & He & Hx & _ & _ & _ & Hput & Hp).
      rewrite Hput, put_insert_val. simpl.
      eexists; split; [reflexivity|]. split; [|reflexivity].
      rewrite (R_cap _ _ HR). rewrite Hx, removelast_last.
      pose proof (R_sorted _ _ HR) as Hs. pose proof (R_addr _ _ HR) as Hnd. pose proof (R_fresh _ _ HR) as Hfr.
      rewrite He in Hs, Hnd, Hfr, Hf.
      apply R_insert; try apply HR.
      + rewrite Hx, app_length in Hfull. simpl in Hfull. lia.
      + eapply sorted_app_remove; eassumption.
      + assumption.
      + rewrite map_app in *. simpl in Hnd. eapply NoDup_app_remove; eassumption.
      + intros n Hn. apply Hfr. apply in_app_or in Hn. apply in_or_app. simpl. tauto.
      + apply find_elem_None. rewrite find_elem_None in Hf. intros n Hn. apply Hf.
        apply in_app_or in Hn. apply in_or_app. simpl. tauto.
  Qed.

  Lemma read_node_get (c : cache) (t : node) : NoDup (map n_addr (c_elems c)) -> In t (c_elems c) ->
    read_node (n_addr t) c = Some (n_val t).
  Proof.
    intros Hnd Hin. unfold read_node.
    destruct (find (fun n => n_addr n =? n_addr t) (c_elems c)) as [m|] eqn:Hfd.
    - apply find_some in Hfd as [Hm Heq]. apply Nat.eqb_eq in Heq.
      destruct (In_nth_error _ _ Hm) as (j1 & Hj1). destruct (In_nth_error _ _ Hin) as (j2 & Hj2).
      assert (j1 = j2) by (eapply NoDup_map_nth; eassumption). simpl. congruence.
    - eapply find_none in Hfd; [|exact Hin]. rewrite Nat.eqb_refl in Hfd. discriminate.
  Qed.

  Lemma get_elems_In (t : node) es : In t es -> In (set_age t 0%Z) (get_elems t es).
  Proof.
    intros Hin. unfold get_elems. apply in_map_iff. exists t. rewrite Nat.eqb_refl. auto.
  Qed.

  Lemma get_elems_addr (t : node) es : map n_addr (get_elems t es) = map n_addr es.
  Proof.
    unfold get_elems. apply map_addr_pres. intros m.
    destruct (n_addr m =? n_addr t); [reflexivity|]. destruct (n_age m <? n_age t)%Z; reflexivity.
  Qed.

  Lemma step_refines c s o : R c s ->
    exists c', step ltb c o = (Some c', snd (spec_step ltb s o)) /\ R c' (fst (spec_step ltb s o)).
  Proof.
    intros HR. destruct o as [l|l|l|l v| |]; simpl.
    - rewrite has_label_eq. exists c. split; [|assumption].
      destruct (find_elem n_key ltb l (c_elems c)) as [n|] eqn:Hf.
      + destruct (R_find_Some _ _ _ _ HR Hf) as (l1 & l2 & _ & _ & ->). reflexivity.
      + apply (R_find_None _ _ _ HR) in Hf. rewrite Hf. reflexivity.
    - destruct (find_elem n_key ltb l (c_elems c)) as [n|] eqn:Hf.
      + rewrite (get_eq c l n (R_addr _ _ HR) Hf).
        destruct (R_find_Some _ _ _ _ HR Hf) as (l1 & l2 & Hi & Ha & Ht). rewrite Ht. simpl.
        pose proof (R_get c s l n HR Hf _ _ _ Ht) as HR'.
        pose proof (find_elem_In _ _ _ _ _ Hf) as [Hin _].
        change (n_addr n) with (n_addr (set_age n 0%Z)).
        rewrite (read_node_get _ (set_age n 0%Z) (R_addr _ _ HR')).
        * simpl. eexists; split; [reflexivity|exact HR'].
        * simpl. apply get_elems_In; assumption.
      + rewrite (get_none c l Hf). apply (R_find_None _ _ _ HR) in Hf. rewrite Hf.
        exists c; auto.
    - unfold age. destruct (find_elem n_key ltb l (c_elems c)) as [n|] eqn:Hf.
      + destruct (R_find_Some _ _ _ _ HR Hf) as (l1 & l2 & Hi & Ha & Ht). rewrite Ht, Ha. exists c; auto.
      + apply (R_find_None _ _ _ HR) in Hf. rewrite Hf. exists c; auto.
    - destruct (take_label ltb l (r_items s)) as [[[i x] rest]|] eqn:Ht.
      + rewrite put_none_throws; [exists c; auto|].
        intros Hf. apply (R_find_None _ _ _ HR) in Hf. congruence.
      + destruct (R_put c s l v HR Ht) as (c' & -> & HR' & _). exists c'. auto.
    - exists c. unfold current_size. rewrite (R_length _ _ HR). auto.
    - exists c. unfold maximum_size. rewrite (R_cap _ _ HR). auto.
  Qed.

  Lemma run_refines_gen ops : forall c s, R c s ->
    exists c', run ltb c ops = (Some c', snd (spec_run ltb s ops)) /\ R c' (fst (spec_run ltb s ops)).
  Proof.
    induction ops as [|o t IH]; intros c s HR; simpl.
    - exists c; auto.
    - destruct (step_refines c s o HR) as (c1 & H1 & HR1). rewrite H1.
      destruct (spec_step ltb s o) as [s1 r1] eqn:Hs1. simpl in *.
      destruct (IH c1 s1 HR1) as (c2 & H2 & HR2). rewrite H2.
      destruct (spec_run ltb s1 t) as [s2 rs]. simpl in *. exists c2; auto.
  Qed.

  Lemma run_refines m ops : (0 < m < 2 ^ 64)%Z ->
    exists c0 c', lru_new (L:=L) (V:=V) m = Ret c0 tt /\
      run ltb c0 ops = (Some c', snd (spec_run ltb (mkRlist m []) ops)).
  Proof.
    intros Hm. exists (mkCache m [] 0). unfold lru_new.
    destruct (Z.ltb_spec 0 m); [|lia].
    destruct (run_refines_gen ops _ _ (R_new m Hm)) as (c' & Hc & _). exists c'. auto.
  Qed.

  Lemma reachable_R c : reachable ltb c -> exists s, R c s.
  Proof.
    intros (m & c0 & ops & outs & Hm & Hnew & Hrun).
    unfold lru_new in Hnew. destruct (0 <? m)%Z; [injection Hnew as <-|discriminate].
    destruct (run_refines_gen ops _ _ (R_new m Hm)) as (c' & Hc & HR).
    rewrite Hrun in Hc. injection Hc as -> _. eauto.
  Qed.

  Lemma ages_permutation (c : cache) : reachable ltb c ->
    Permutation (map n_age (c_elems c)) (map Z.of_nat (seq 0 (length (c_elems c)))) /\
    (Z.of_nat (length (c_elems c)) <= c_max c)%Z.
  Proof.
    intros Hr. destruct (reachable_R c Hr) as (s & HR). split.
    - pose proof (Permutation_map fst (R_perm _ _ HR)) as Hp. rewrite map_map in Hp. simpl in Hp.
      rewrite index_ages_seq in Hp. rewrite (R_length _ _ HR). exact Hp.
    - rewrite (R_length _ _ HR), (R_cap _ _ HR). apply (R_bound _ _ HR).
  Qed.

  Lemma ages_observed (c : cache) : reachable ltb c ->
    (current_size c <= maximum_size c)%Z /\
    (forall l, contains ltb c l -> exists a, age ltb l c = Ret a c /\ (0 <= a < current_size c)%Z) /\
    (forall l1 l2 a, age ltb l1 c = Ret a c -> age ltb l2 c = Ret a c -> eqvb ltb l1 l2 = true) /\
    (forall a, (0 <= a < current_size c)%Z -> exists l, contains ltb c l /\ age ltb l c = Ret a c).
  Proof.
    intros Hr. destruct (reachable_R c Hr) as (s & HR).
    destruct (ages_permutation c Hr) as (Hp & Hb). unfold contains, age, current_size, maximum_size.
    split; [exact Hb|]. split; [|split].
    - intros l Hc. rewrite has_label_eq in Hc.
      destruct (find_elem n_key ltb l (c_elems c)) as [n|] eqn:Hf; [|discriminate].
      exists (n_age n). split; [reflexivity|].
      apply find_elem_In in Hf as [Hin _]. apply (in_map n_age) in Hin.
      apply (Permutation_in _ Hp) in Hin. apply in_map_iff in Hin as (k & Hk & Hin).
      apply in_seq in Hin. lia.
    - intros l1 l2 a H1 H2.
      destruct (find_elem n_key ltb l1 (c_elems c)) as [n1|] eqn:Hf1; [|discriminate].
      destruct (find_elem n_key ltb l2 (c_elems c)) as [n2|] eqn:Hf2; [|discriminate].
      injection H1 as H1. injection H2 as H2.
      apply find_elem_In in Hf1 as [Hin1 Hk1]. apply find_elem_In in Hf2 as [Hin2 Hk2].
      assert (n1 = n2) by (eapply R_ages_inj; [exact HR|assumption|assumption|congruence]). subst n2.
      apply eqvb_trans with (b := n_key n1); auto. rewrite eqvb_sym. exact Hk1.
    - intros a Ha.
      assert (Hin : In a (map n_age (c_elems c))).
      { apply (Permutation_in _ (Permutation_sym Hp)). apply in_map_iff. exists (Z.to_nat a).
        split; [lia|]. apply in_seq. lia. }
      apply in_map_iff in Hin as (n & Hn & Hin). exists (n_key n).
      rewrite has_label_eq.
      rewrite (find_elem_sorted n_key ltb HO (n_key n) (c_elems c) n (R_sorted _ _ HR) Hin
                 (eqvb_refl ltb HO _)).
      rewrite Hn. auto.
  Qed.

  (** ** recency and histories *)
  Fixpoint spec_hist (s : rlist) (ops : list (op L V)) : list (op L V * out V) :=
    match ops with
    | [] => []
    | o :: t => (o, snd (spec_step ltb s o)) :: spec_hist (fst (spec_step ltb s o)) t
    end.

  Lemma spec_hist_combine ops : forall s, spec_hist s ops = combine ops (snd (spec_run ltb s ops)).
  Proof.
    induction ops as [|o t IH]; intros s; simpl; [reflexivity|].
    destruct (spec_step ltb s o) as [s1 r1] eqn:Hs. simpl. rewrite IH.
    destruct (spec_run ltb s1 t) as [s2 rs]. reflexivity.
  Qed.

  (** last_use of a history extended at its end *)
  Lemma last_use_app l (h : list (op L V * out V)) c :
    last_use ltb l (h ++ [c]) = if touches ltb l c then Some (length h) else last_use ltb l h.
  Proof.
    induction h as [|d t IH]; simpl.
    - reflexivity.
    - rewrite IH. destruct (touches ltb l c); [reflexivity|]. reflexivity.
  Qed.
  Lemma last_use_lt l (h : list (op L V * out V)) i : last_use ltb l h = Some i -> i < length h.
  Proof.
    revert i; induction h as [|d t IH]; simpl; intros i; [discriminate|].
    destruct (last_use ltb l t) as [j|]; [intros [= <-]; specialize (IH j eq_refl); lia|].
    destruct (touches ltb l d); [intros [= <-]; lia|discriminate].
  Qed.

  (** items are in decreasing order of last use; [h] is the complete history *)
  Definition older (h : list (op L V * out V)) (a b : L * V) : Prop :=
    exists i j, last_use ltb (fst a) h = Some i /\ last_use ltb (fst b) h = Some j /\ j < i.

  Lemma older_untouched h c a b :
    touches ltb (fst a) c = false -> touches ltb (fst b) c = false -> older h a b -> older (h ++ [c]) a b.
  Proof.
    intros Ha Hb (i & j & Hi & Hj & Hlt). exists i, j.
    rewrite !last_use_app, Ha, Hb. auto.
  Qed.

  Lemma StronglySorted_sub {A} (Rl : A -> A -> Prop) l1 x l2 :
    StronglySorted Rl (l1 ++ x :: l2) -> StronglySorted Rl (l1 ++ l2).
  Proof.
    induction l1 as [|h t IH]; simpl; intros Hs; inversion Hs as [|a b Hs' Hf]; subst; auto.
    constructor; [apply IH; exact Hs'|]. rewrite Forall_forall in *. intros y Hy. apply Hf.
    apply in_app_or in Hy. apply in_or_app. simpl. tauto.
  Qed.
  Lemma StronglySorted_app_l {A} (Rl : A -> A -> Prop) l1 l2 :
    StronglySorted Rl (l1 ++ l2) -> StronglySorted Rl l1.
  Proof.
    induction l1 as [|h t IH]; simpl; intros Hs; inversion Hs as [|a b Hs' Hf]; subst; constructor; auto.
    rewrite Forall_forall in *. intros y Hy. apply Hf. apply in_or_app; auto.
  Qed.
  Lemma StronglySorted_impl_in {A} (R1 R2 : A -> A -> Prop) l :
    (forall a b, In a l -> In b l -> R1 a b -> R2 a b) -> StronglySorted R1 l -> StronglySorted R2 l.
  Proof.
    intros Hi Hs. induction Hs as [|h t Ht IH Hh]; constructor.
    - apply IH. intros a b Ha Hb. apply Hi; simpl; auto.
    - rewrite Forall_forall in *. intros x Hx. apply Hi; simpl; auto.
  Qed.

  (** pairwise inequivalent labels, in a form that is easy to preserve *)
  Definition distinct (items : list (L * V)) : Prop :=
    ForallOrdPairs (fun a b => eqvb ltb (fst a) (fst b) = false) items.
  Lemma distinct_of_R c s : R c s -> distinct (r_items s).
  Proof.
    intros HR. unfold distinct.
    assert (Hp : forall l1 x l2 y l3, r_items s = l1 ++ x :: l2 ++ y :: l3 -> eqvb ltb (fst x) (fst y) = false).
    { intros l1 x l2 y l3 Hi. destruct (eqvb ltb (fst x) (fst y)) eqn:He; [|reflexivity]. exfalso.
      assert (Hx : In (Z.of_nat (length l1), x) (index 0 (r_items s))).
      { rewrite Hi, index_app. apply in_or_app; right. simpl; auto. }
      assert (Hy : In (Z.of_nat (length l1 + S (length l2)), y) (index 0 (r_items s))).
      { rewrite Hi.
        replace (l1 ++ x :: l2 ++ y :: l3) with ((l1 ++ x :: l2) ++ y :: l3) by (rewrite <- app_assoc; reflexivity).
        rewrite index_app. apply in_or_app; right. simpl. left. f_equal. rewrite app_length. simpl. lia. }
      apply (Permutation_in _ (Permutation_sym (R_perm _ _ HR))) in Hx, Hy.
      apply in_map_iff in Hx as (nx & Hnx & Hinx). apply in_map_iff in Hy as (ny & Hny & Hiny).
      injection Hnx as Hax Hkx. injection Hny as Hay Hky.
      assert (nx = ny).
      { apply (sorted_inj n_key ltb (c_elems c)); auto; [apply (R_sorted _ _ HR)|].
        replace (n_key nx) with (fst x) by (subst x; reflexivity).
        replace (n_key ny) with (fst y) by (subst y; reflexivity). exact He. }
      subst ny. lia. }
    clear HR. induction (r_items s) as [|x t IH] in Hp |- *; constructor.
    - apply Forall_forall. intros y Hy. apply in_split in Hy as (l2 & l3 & ->).
      apply (Hp [] x l2 y l3). reflexivity.
    - apply IH. intros l1 a l2 b l3 ->. apply (Hp (x :: l1) a l2 b l3). reflexivity.
  Qed.
  Lemma distinct_mid l1 x l2 : distinct (l1 ++ x :: l2) ->
    forall y, In y (l1 ++ l2) -> eqvb ltb (fst x) (fst y) = false.
  Proof.
    unfold distinct. induction l1 as [|h t IH]; simpl; intros Hd y Hy; inversion Hd as [|a b Hf Hd']; subst.
    - rewrite Forall_forall in Hf. auto.
    - destruct Hy as [<-|Hy]; [|apply IH; auto].
      rewrite Forall_forall in Hf. rewrite eqvb_sym. apply Hf. apply in_or_app; simpl; auto.
  Qed.

  Definition HistOK (h : list (op L V * out V)) (items : list (L * V)) : Prop :=
    StronglySorted (older h) items /\ (forall x, In x items -> last_use ltb (fst x) h <> None).

  Lemma hist_step c s h o : R c s -> HistOK h (r_items s) ->
    HistOK (h ++ [(o, snd (spec_step ltb s o))]) (r_items (fst (spec_step ltb s o))).
  Proof.
    intros HR (Hs & Hu). pose proof (distinct_of_R _ _ HR) as Hd.
    assert (Hsame : (forall l, In l (map fst (r_items s)) ->
                     touches ltb l (o, snd (spec_step ltb s o)) = false) ->
                    HistOK (h ++ [(o, snd (spec_step ltb s o))]) (r_items s)).
    { intros Hnt. split.
      - eapply StronglySorted_impl_in; [|exact Hs]. intros a b Ha Hb. apply older_untouched.
        + apply Hnt. apply in_map; assumption.
        + apply Hnt. apply in_map; assumption.
      - intros x Hx. rewrite last_use_app, Hnt; [auto|]. apply in_map; assumption. }
    destruct o as [l|l|l|l v| |]; try (apply Hsame; intros; reflexivity).
    - (* get *)
      simpl in *. destruct (take_label ltb l (r_items s)) as [[[i x] rest]|] eqn:Ht; simpl in *.
      2:{ apply Hsame; intros; reflexivity. }
      destruct (take_label_Some _ _ _ _ _ Ht) as (l1 & l2 & Hi & -> & -> & Hx).
      assert (Hnt : forall y, In y (l1 ++ l2) -> eqvb ltb l (fst y) = false).
      { intros y Hy. rewrite Hi in Hd. rewrite <- (distinct_mid _ _ _ Hd y Hy).
        apply eqvb_cong_l; [assumption|]. rewrite eqvb_sym. exact Hx. }
      rewrite Hi in Hs, Hu.
      assert (Hin : forall y, In y (l1 ++ l2) -> In y (l1 ++ x :: l2)).
      { intros y Hy. apply in_app_or in Hy. apply in_or_app; simpl; tauto. }
      split.
      + constructor.
        * apply StronglySorted_sub in Hs. eapply StronglySorted_impl_in; [|exact Hs].
          intros a b Ha Hb. apply older_untouched; simpl; auto.
        * apply Forall_forall. intros y Hy. specialize (Hu y (Hin y Hy)).
          destruct (last_use ltb (fst y) h) as [j|] eqn:Hj; [|contradiction].
          exists (length h), j. rewrite !last_use_app. simpl. rewrite (Hnt y Hy).
          rewrite eqvb_sym, Hx. split; [reflexivity|]. split; [exact Hj|]. eapply last_use_lt; eassumption.
      + intros y [<-|Hy]; rewrite last_use_app; simpl.
        * rewrite eqvb_sym, Hx. discriminate.
        * rewrite (Hnt y Hy). auto.
    - (* age *)
      simpl in *. destruct (take_label ltb l (r_items s)) as [[[i x] rest]|]; simpl in *;
        apply Hsame; intros; reflexivity.
    - (* put *)
      simpl in *. destruct (take_label ltb l (r_items s)) as [[[i x] rest]|] eqn:Ht; simpl in *.
      { apply Hsame; intros; reflexivity. }
      rewrite take_label_None in Ht.
      set (kept := if (Z.of_nat (length (r_items s)) <? r_cap s)%Z then r_items s else removelast (r_items s)).
      assert (Hkept : exists rest, r_items s = kept ++ rest).
      { unfold kept. destruct (Z.of_nat (length (r_items s)) <? r_cap s)%Z.
        - exists []. rewrite app_nil_r; reflexivity.
        - destruct (r_items s) as [|y t] eqn:Hi.
          + exists []. reflexivity.
          + exists [last (y :: t) y]. apply app_removelast_last. discriminate. }
      destruct Hkept as (rest & Hk).
      assert (Hkin : forall y, In y kept -> In y (r_items s)) by (intros y Hy; rewrite Hk; apply in_or_app; auto).
      assert (Hnt : forall y, In y kept -> eqvb ltb l (fst y) = false).
      { intros y Hy. rewrite eqvb_sym. apply Ht. auto. }
      split.
      + constructor.
        * rewrite Hk in Hs. apply StronglySorted_app_l in Hs. eapply StronglySorted_impl_in; [|exact Hs].
          intros a b Ha Hb. apply older_untouched; simpl; auto.
        * apply Forall_forall. intros y Hy. specialize (Hu y (Hkin y Hy)).
          destruct (last_use ltb (fst y) h) as [j|] eqn:Hj; [|contradiction].
          exists (length h), j. rewrite !last_use_app. simpl. rewrite (Hnt y Hy).
          rewrite (eqvb_refl ltb HO l). split; [reflexivity|]. split; [exact Hj|]. eapply last_use_lt; eassumption.
      + intros y [<-|Hy]; rewrite last_use_app; simpl.
        * rewrite (eqvb_refl ltb HO l). discriminate.
        * rewrite (Hnt y Hy). auto.
  Qed.

  Lemma hist_run ops : forall c s h, R c s -> HistOK h (r_items s) ->
    HistOK (h ++ spec_hist s ops) (r_items (fst (spec_run ltb s ops))).
  Proof.
    induction ops as [|o t IH]; intros c s h HR Hh; simpl.
    - rewrite app_nil_r. exact Hh.
    - destruct (step_refines c s o HR) as (c1 & _ & HR1).
      pose proof (hist_step c s h o HR Hh) as Hh1.
      destruct (spec_step ltb s o) as [s1 r1] eqn:Hs1. simpl in *.
      specialize (IH c1 s1 (h ++ [(o, r1)]) HR1 Hh1).
      rewrite <- app_assoc in IH. simpl in IH.
      destruct (spec_run ltb s1 t) as [s2 rs]. exact IH.
  Qed.

  (** eviction: stated on the observable calls only *)
  Lemma eviction m ops outs (c : cache) l v c' :
    (0 < m < 2 ^ 64)%Z ->
    run ltb (mkCache m [] 0) ops = (Some c, outs) ->
    step ltb c (OPut l v) = (Some c', RUnit) ->
    let h := combine ops outs in
    (forall x, contains ltb c x -> contains ltb c' x ->
       snd (step ltb c' (OGet x)) = snd (step ltb c (OGet x))) /\
    snd (step ltb c' (OGet l)) = RVal v /\
    ((current_size c < maximum_size c)%Z ->
       forall x, contains ltb c' x <-> contains ltb c x \/ eqvb ltb l x = true) /\
    (current_size c = maximum_size c ->
       exists victim, contains ltb c victim /\ ~ contains ltb c' victim /\
         (forall x, contains ltb c x -> eqvb ltb x victim = false ->
            exists i j, last_use ltb x h = Some i /\ last_use ltb victim h = Some j /\ j < i) /\
         (forall x, contains ltb c' x <-> (contains ltb c x /\ eqvb ltb x victim = false) \/ eqvb ltb l x = true)).
  Proof.
    intros Hm Hrun Hput h.
    destruct (run_refines_gen ops _ _ (R_new m Hm)) as (c0 & Hc & HR).
    rewrite Hrun in Hc. injection Hc as <- ->.
    set (s := fst (spec_run ltb (mkRlist m []) ops)) in *.
    assert (Hh : HistOK h (r_items s)).
    { unfold h. rewrite <- spec_hist_combine.
      apply (hist_run ops (mkCache m [] 0) (mkRlist m []) [] (R_new m Hm)).
      split; [constructor|]. intros x []. }
    clearbody h. clear Hrun.
    assert (Hpres : forall cc ss x, R cc ss ->
              (contains ltb cc x <-> exists y, In y (r_items ss) /\ eqvb ltb (fst y) x = true)).
    { intros cc ss x HRc. unfold contains. rewrite has_label_eq. split.
      - intros Hy. destruct (find_elem n_key ltb x (c_elems cc)) as [n|] eqn:Hf; [|discriminate].
        destruct (R_find_Some _ _ _ _ HRc Hf) as (l1 & l2 & Hi & _ & _).
        exists (n_key n, n_val n). split; [rewrite Hi; apply in_or_app; simpl; auto|].
        simpl. apply find_elem_In in Hf. tauto.
      - intros (y & Hy & He). destruct (find_elem n_key ltb x (c_elems cc)) as [n|] eqn:Hf; [reflexivity|].
        apply (R_find_None _ _ _ HRc) in Hf. rewrite take_label_None in Hf.
        rewrite (Hf y Hy) in He. discriminate. }
    destruct (step_refines c s (OPut l v) HR) as (c'' & Hstep & HR').
    rewrite Hput in Hstep. injection Hstep as <- Hout.
    simpl in HR', Hout.
    destruct (take_label ltb l (r_items s)) as [[[i0 x0] rest0]|] eqn:Ht; [discriminate|].
    simpl in HR'. clear Hout.
    set (kept := if (Z.of_nat (length (r_items s)) <? r_cap s)%Z then r_items s else removelast (r_items s)) in *.
    assert (Hval : forall x, contains ltb c x -> contains ltb c' x ->
              snd (step ltb c' (OGet x)) = snd (step ltb c (OGet x))).
    { intros x Hx Hx'.
      destruct (step_refines c s (OGet x) HR) as (d & Hd & _). rewrite Hd.
      destruct (step_refines c' _ (OGet x) HR') as (d' & Hd' & _). rewrite Hd'. simpl.
      unfold contains in Hx, Hx'. rewrite has_label_eq in Hx, Hx'.
      destruct (find_elem n_key ltb x (c_elems c)) as [n|] eqn:Hf; [|discriminate].
      destruct (find_elem n_key ltb x (c_elems c')) as [n'|] eqn:Hf'; [|discriminate].
      destruct (R_find_Some _ _ _ _ HR Hf) as (l1 & l2 & Hi & _ & Htk).
      destruct (R_find_Some _ _ _ _ HR' Hf') as (l1' & l2' & Hi' & _ & Htk').
      rewrite Htk. simpl in Htk'. rewrite Htk'. simpl. f_equal.
      apply find_elem_In in Hf as [_ Hkn]. apply find_elem_In in Hf' as [_ Hkn'].
      rewrite take_label_None in Ht.
      assert (Hnl : eqvb ltb l (n_key n) = false).
      { rewrite eqvb_sym. apply (Ht (n_key n, n_val n)). rewrite Hi. apply in_or_app; simpl; auto. }
      simpl in Hi'. destruct l1' as [|z l1']; simpl in Hi'; injection Hi'.
      - intros _ _ Hl. subst l. rewrite (eqvb_cong_l ltb HO _ _ (n_key n) Hkn') in Hnl.
        rewrite eqvb_sym, Hkn in Hnl. discriminate.
      - intros Hk' _. pose proof (distinct_of_R _ _ HR) as Hdist.
        assert (Hin' : In (n_key n', n_val n') (r_items s)).
        { assert (Hkk : In (n_key n', n_val n') kept) by (rewrite Hk'; apply in_or_app; simpl; auto).
          unfold kept in Hkk. destruct (Z.of_nat (length (r_items s)) <? r_cap s)%Z; [exact Hkk|].
          destruct (r_items s) as [|y0 t0] eqn:Hit; [destruct Hkk|].
          rewrite (app_removelast_last y0 (l := y0 :: t0)) by discriminate. apply in_or_app; auto. }
        rewrite Hi in Hin', Hdist. apply in_app_or in Hin' as [Hin'|[Heq|Hin']].
        + exfalso. assert (Hz := distinct_mid _ _ _ Hdist (n_key n', n_val n') (in_or_app _ _ _ (or_introl Hin'))).
          simpl in Hz. rewrite (eqvb_cong_l ltb HO _ _ _ Hkn), eqvb_sym, Hkn' in Hz. discriminate.
        + congruence.
        + exfalso. assert (Hz := distinct_mid _ _ _ Hdist (n_key n', n_val n') (in_or_app _ _ _ (or_intror Hin'))).
          simpl in Hz. rewrite (eqvb_cong_l ltb HO _ _ _ Hkn), eqvb_sym, Hkn' in Hz. discriminate. }
    assert (Hvl : snd (step ltb c' (OGet l)) = RVal v).
    { destruct (step_refines c' _ (OGet l) HR') as (d' & Hd' & _). rewrite Hd'. simpl.
      rewrite (eqvb_refl ltb HO l). reflexivity. }
    split; [exact Hval|]. split; [exact Hvl|]. clear Hval Hvl. unfold kept in *. clear kept.
    unfold current_size, maximum_size. rewrite (R_length _ _ HR), (R_cap _ _ HR).
    split.
    - intros Hlt x. destruct (Z.ltb_spec (Z.of_nat (length (r_items s))) (r_cap s)); [|lia].
      rewrite (Hpres _ _ x HR), (Hpres _ _ x HR'). simpl. split.
      + intros (y & [<-|Hy] & He); simpl in *; eauto.
      + intros [(y & Hy & He)|He]; [exists y; auto|]. exists (l, v). auto.
    - intros Heq. destruct (Z.ltb_spec (Z.of_nat (length (r_items s))) (r_cap s)); [lia|].
      pose proof (R_range _ _ HR) as Hrg.
      destruct (exists_last (l := r_items s)) as (items & x & Hx).
      { intros Hn. rewrite Hn in Heq. simpl in Heq. lia. }
      rewrite Hx, removelast_last in HR'.
      pose proof (distinct_of_R _ _ HR) as Hd. rewrite Hx in Hd.
      assert (Hdx : forall y, In y items -> eqvb ltb (fst y) (fst x) = false).
      { intros y Hy. rewrite eqvb_sym. eapply distinct_mid; [exact Hd|]. rewrite app_nil_r. exact Hy. }
      rewrite take_label_None in Ht.
      exists (fst x). split; [|split; [|split]].
      + rewrite (Hpres _ _ _ HR). exists x. rewrite Hx. split; [apply in_or_app; simpl; auto|].
        apply eqvb_refl; assumption.
      + rewrite (Hpres _ _ _ HR'). simpl. intros (y & [<-|Hy] & He); simpl in *.
        * rewrite eqvb_sym, Ht in He; [discriminate|]. rewrite Hx. apply in_or_app; simpl; auto.
        * rewrite (Hdx y Hy) in He. discriminate.
      + intros z Hz Hne. rewrite (Hpres _ _ _ HR) in Hz. destruct Hz as (y & Hy & He).
        rewrite Hx in Hy. apply in_app_or in Hy as [Hy|[<-|[]]].
        2:{ rewrite eqvb_sym, He in Hne. discriminate. }
        destruct Hh as (Hs & _). rewrite Hx in Hs.
        assert (Hold : older h y x).
        { clear -Hs Hy. induction items as [|a t IH]; simpl in *; [tauto|].
          inversion Hs as [|a' b' Hs' Hf]; subst. destruct Hy as [<-|Hy]; [|auto].
          rewrite Forall_forall in Hf. apply Hf. apply in_or_app; simpl; auto. }
        destruct Hold as (i & j & Hi & Hj & Hlt). exists i, j. split; [|auto].
        rewrite <- Hi. clear -He HO.
        induction h as [|d t IH]; simpl; [reflexivity|]. rewrite IH.
        destruct (last_use ltb (fst y) t); [reflexivity|].
        replace (touches ltb z d) with (touches ltb (fst y) d); [reflexivity|].
        destruct d as [o r]. destruct o; simpl; try reflexivity; destruct r; try reflexivity.
        * apply eqvb_cong_r; assumption.
        * apply eqvb_cong_r; assumption.
      + intros z. rewrite (Hpres _ _ _ HR), (Hpres _ _ _ HR'). simpl. split.
        * intros (y & [<-|Hy] & He); simpl in *; [auto|]. left. split.
          -- exists y. rewrite Hx. split; [apply in_or_app; auto|exact He].
          -- rewrite <- (eqvb_cong_l ltb HO _ _ (fst x) He). auto.
        * intros [((y & Hy & He) & Hne)|He]; [|exists (l, v); auto].
          rewrite Hx in Hy. apply in_app_or in Hy as [Hy|[<-|[]]]; [exists y; auto|].
          rewrite eqvb_sym, He in Hne. discriminate.
  Qed.

  (** ** references *)
  Definition holds (c : cache) (a : nat) (l : L) (v : V) : Prop :=
    exists n, In n (c_elems c) /\ n_addr n = a /\ eqvb ltb (n_key n) l = true /\ n_val n = v.

  Lemma holds_read c s a l v : R c s -> holds c a l v -> read_node a c = Some v.
  Proof. intros HR (n & Hin & <- & _ & <-). apply read_node_get; [apply (R_addr _ _ HR)|assumption]. Qed.

  Definition present (c : cache) (l : L) : Prop := find_elem n_key ltb l (c_elems c) <> None.

  Lemma holds_map c a l v (f : node -> node) :
    (forall n, n_addr (f n) = n_addr n /\ n_key (f n) = n_key n /\ n_val (f n) = n_val n) ->
    holds c a l v -> holds (set_elems c (map f (c_elems c))) a l v.
  Proof.
    intros Hf (n & Hin & Ha & Hk & Hv). destruct (Hf n) as (F1 & F2 & F3).
    exists (f n). simpl. rewrite F1, F2, F3. split; [apply in_map; exact Hin|auto].
  Qed.

  Lemma step_holds c s o c' r a l v : R c s -> holds c a l v ->
    step ltb c o = (Some c', r) -> present c' l -> holds c' a l v.
  Proof.
    intros HR Hh Hstep Hp.
    destruct o as [x|x|x|x w| |]; simpl in Hstep.
    - rewrite has_label_eq in Hstep. injection Hstep as <- _. exact Hh.
    - destruct (find_elem n_key ltb x (c_elems c)) as [n|] eqn:Hf.
      + rewrite (get_eq c x n (R_addr _ _ HR) Hf) in Hstep.
        destruct (read_node _ _) in Hstep; [|discriminate]. injection Hstep as <- _.
        apply holds_map; [|exact Hh]. intros m.
        destruct (n_addr m =? n_addr n); [auto|]. destruct (n_age m <? n_age n)%Z; auto.
      + rewrite (get_none c x Hf) in Hstep. injection Hstep as <- _. exact Hh.
    - unfold age in Hstep. destruct (find_elem n_key ltb x (c_elems c)) as [n|]; injection Hstep as <- _; exact Hh.
    - destruct (find_elem n_key ltb x (c_elems c)) as [n|] eqn:Hf.
      + rewrite put_none_throws in Hstep by congruence. injection Hstep as <- _. exact Hh.
      + destruct Hh as (n & Hin & Ha & Hk & Hv).
        destruct (Z.ltb_spec (Z.of_nat (length (r_items s))) (r_cap s)) as [Hlt|Hge].
        * rewrite (put_prefix_room c s x (VVal w) false HR Hf Hlt), put_insert_val in Hstep.
          injection Hstep as <- _. exists (incr_age n). simpl. split; [|auto].
          apply insert_elem_keeps. apply in_map. exact Hin.
        * assert (Hfull : Z.of_nat (length (r_items s)) = r_cap s) by (pose proof (R_bound _ _ HR); lia).
          destruct (put_prefix_full c s x (VVal w) false HR Hf Hfull)
            as (e1 & victim & e2 & items & y & He & Hx & _ & _ & _ & Hput & _).
          rewrite Hput, put_insert_val in Hstep. injection Hstep as <- _.
          rewrite He in Hin.
          assert (Hin' : In n (e1 ++ e2)).
          { apply in_app_or in Hin as [Hin|[<-|Hin]]; [apply in_or_app; auto| |apply in_or_app; auto].
            exfalso. apply Hp. apply find_elem_None. intros m Hm. simpl in Hm.
            apply insert_elem_In in Hm as [->|Hm].
            - simpl. rewrite find_elem_None in Hf. rewrite eqvb_sym.
              rewrite <- (eqvb_cong_l ltb HO _ _ x Hk). apply Hf. rewrite He. apply in_or_app; simpl; auto.
            - apply in_map_iff in Hm as (m' & <- & Hm'). simpl.
              rewrite <- (eqvb_cong_r ltb HO _ _ (n_key m') Hk).
              destruct (eqvb ltb (n_key m') (n_key victim)) eqn:Hmv; [|reflexivity]. exfalso.
              pose proof (R_sorted _ _ HR) as Hs. pose proof (R_addr _ _ HR) as Hnd. rewrite He in Hs, Hnd.
              assert (m' = victim).
              { apply (sorted_inj n_key ltb (e1 ++ victim :: e2)); auto.
                - apply in_app_or in Hm'. apply in_or_app; simpl; tauto.
                - apply in_or_app; simpl; auto. }
              subst m'. rewrite map_app in Hnd. simpl in Hnd. apply NoDup_remove_2 in Hnd. apply Hnd.
              rewrite <- map_app. apply in_map. exact Hm'. }
          exists (incr_age n). simpl. split; [|auto].
          apply insert_elem_keeps. apply in_map. exact Hin'.
    - injection Hstep as <- _. exact Hh.
    - injection Hstep as <- _. exact Hh.
  Qed.

  Lemma stays_holds ops : forall c s a l v c' outs, R c s -> holds c a l v ->
    stays ltb l c ops -> run ltb c ops = (Some c', outs) -> read_node a c' = Some v.
  Proof.
    induction ops as [|o t IH]; intros c s a l v c' outs HR Hh Hst Hrun; simpl in *.
    - injection Hrun as <- _. eapply holds_read; eassumption.
    - destruct (step_refines c s o HR) as (c1 & Hc1 & HR1).
      rewrite Hc1 in Hst, Hrun. destruct Hst as (Hp & Hst).
      destruct (run ltb c1 t) as [c2 rs] eqn:Hr. injection Hrun as -> _.
      eapply IH; [exact HR1| |exact Hst|exact Hr].
      eapply step_holds; [exact HR|exact Hh|exact Hc1|].
      unfold contains in Hp. rewrite has_label_eq in Hp. unfold present. intros Hn. rewrite Hn in Hp. discriminate.
  Qed.

  Lemma reference_stable (c : cache) l a c1 v ops c' outs :
    reachable ltb c -> get ltb l c = Ret a c1 -> read_node a c1 = Some v ->
    stays ltb l c1 ops -> run ltb c1 ops = (Some c', outs) -> read_node a c' = Some v.
  Proof.
    intros Hr Hget Hv Hst Hrun. destruct (reachable_R c Hr) as (s & HR).
    destruct (find_elem n_key ltb l (c_elems c)) as [n|] eqn:Hf.
    2:{ rewrite (get_none c l Hf) in Hget. discriminate. }
    destruct (R_find_Some _ _ _ _ HR Hf) as (l1 & l2 & Hi & Ha & Ht).
    pose proof (R_get c s l n HR Hf _ _ _ Ht) as HR'.
    rewrite (get_eq c l n (R_addr _ _ HR) Hf) in Hget. injection Hget as <- <-.
    pose proof (find_elem_In _ _ _ _ _ Hf) as [Hin Hk].
    assert (Hh : holds (set_elems c (get_elems n (c_elems c))) (n_addr n) l (n_val n)).
    { exists (set_age n 0%Z). simpl. split; [apply get_elems_In; exact Hin|auto]. }
    rewrite (holds_read _ _ _ _ _ HR' Hh) in Hv. injection Hv as <-.
    eapply stays_holds; [exact HR'|exact Hh|exact Hst|exact Hrun].
  Qed.

  (** ** put with a reference into the cache *)
  Lemma put_ref_live c s l a v : R c s -> find_elem n_key ltb l (c_elems c) = None ->
    read_node a c = Some v ->
    ((current_size c < maximum_size c)%Z \/
     exists n, In n (c_elems c) /\ n_addr n = a /\ n_age n <> (maximum_size c - 1)%Z) ->
    put ltb l (VNode a) false c = put ltb l (VVal v) false c.
  Proof.
    intros HR Hf Hv Hcase. unfold current_size, maximum_size in *.
    rewrite (R_length _ _ HR), (R_cap _ _ HR) in Hcase.
    assert (Hn : exists n, In n (c_elems c) /\ n_addr n = a /\ n_val n = v).
    { unfold read_node in Hv. destruct (find _ _) as [n|] eqn:Hfd; [|discriminate].
      apply find_some in Hfd as [Hin He]. apply Nat.eqb_eq in He. injection Hv as <-. eauto. }
    destruct Hn as (n & Hin & Ha & Hval).
    assert (Hread : forall es mx nx, In n es -> NoDup (map n_addr es) ->
              read_vref (VNode a) (mkCache mx (map incr_age es) nx) = Ret v (mkCache mx (map incr_age es) nx)).
    { intros es mx nx Hi Hnd. simpl. subst a.
      change (n_addr n) with (n_addr (incr_age n)).
      rewrite (read_node_get (mkCache mx (map incr_age es) nx) (incr_age n)); simpl.
      - rewrite Hval; reflexivity.
      - rewrite incr_age_addr; exact Hnd.
      - apply in_map; exact Hi. }
    destruct (Z.ltb_spec (Z.of_nat (length (r_items s))) (r_cap s)) as [Hlt|Hge].
    - rewrite !(put_prefix_room c s l _ false HR Hf Hlt).
      unfold put_insert, bind. unfold set_elems. rewrite Hread; [reflexivity|assumption|apply HR].
    - assert (Hfull : Z.of_nat (length (r_items s)) = r_cap s) by (pose proof (R_bound _ _ HR); lia).
      destruct Hcase as [Hlt|(n2 & Hin2 & Ha2 & Hage)]; [lia|].
      assert (n2 = n).
      { destruct (In_nth_error _ _ Hin) as (j1 & Hj1). destruct (In_nth_error _ _ Hin2) as (j2 & Hj2).
        assert (j1 = j2).
        { eapply NoDup_map_nth; [apply (R_addr _ _ HR)|exact Hj1|exact Hj2|congruence]. }
        congruence. }
      subst n2.
      destruct (put_prefix_full c s l (VNode a) false HR Hf Hfull)
        as (e1 & w & e2 & items & y & He & _ & Hwa & _ & _ & Hput & Hp1).
      destruct (put_prefix_full c s l (VVal v) false HR Hf Hfull)
        as (f1 & w' & f2 & items' & y' & He' & _ & Hwa' & _ & _ & Hput' & _).
      assert (w = w').
      { eapply R_ages_inj; [exact HR| | |congruence].
        - rewrite He; apply in_or_app; simpl; auto.
        - rewrite He'; apply in_or_app; simpl; auto. }
      subst w'.
      assert (Hsplit : e1 = f1 /\ e2 = f2).
      { pose proof (R_addr _ _ HR) as Hnd. apply NoDup_map_inv in Hnd.
        rewrite He in Hnd, He'. clear -Hnd He'.
        revert f1 He'. induction e1 as [|h t IH]; intros [|g f1] He'; simpl in *.
        - injection He' as ->. auto.
        - injection He' as -> ->. inversion Hnd as [|? ? Hni _]; subst.
          exfalso; apply Hni; apply in_or_app; simpl; auto.
        - injection He' as -> <-. inversion Hnd as [|? ? Hni _]; subst.
          exfalso; apply Hni; apply in_or_app; simpl; auto.
        - injection He' as -> He'. inversion Hnd; subst. destruct (IH H2 f1 He') as [-> ->]. auto. }
      destruct Hsplit as [-> ->].
      rewrite Hput, Hput'. unfold put_insert, bind, set_elems.
      pose proof (R_addr _ _ HR) as Hnd. rewrite He in Hin, Hnd.
      rewrite Hread; [reflexivity| |].
      + apply in_app_or in Hin as [Hin|[<-|Hin]]; [apply in_or_app; auto| |apply in_or_app; auto].
        contradiction.
      + rewrite map_app in *. simpl in Hnd. eapply NoDup_remove_1; eassumption.
  Qed.

  Lemma put_ref_victim c s l a : R c s -> find_elem n_key ltb l (c_elems c) = None ->
    current_size c = maximum_size c ->
    (exists n, In n (c_elems c) /\ n_addr n = a /\ n_age n = (maximum_size c - 1)%Z) ->
    put ltb l (VNode a) false c = Ub UbDangling.
  Proof.
    intros HR Hf Hfull (n & Hin & Ha & Hage). unfold current_size, maximum_size in *.
    rewrite (R_length _ _ HR), (R_cap _ _ HR) in Hfull. rewrite (R_cap _ _ HR) in Hage.
    destruct (put_prefix_full c s l (VNode a) false HR Hf Hfull)
        as (e1 & w & e2 & items & y & He & _ & Hwa & _ & _ & Hput & _).
    assert (w = n).
    { eapply R_ages_inj; [exact HR| |exact Hin|congruence]. rewrite He; apply in_or_app; simpl; auto. }
    subst w. rewrite Hput. unfold put_insert, bind, read_vref.
    assert (Hno : read_node a (set_elems c (map incr_age (e1 ++ e2))) = None).
    { unfold read_node. destruct (find _ _) as [m|] eqn:Hfd; [|reflexivity]. exfalso.
      apply find_some in Hfd as [Hm Heq]. apply Nat.eqb_eq in Heq. simpl in Hm.
      apply in_map_iff in Hm as (m' & <- & Hm').
      pose proof (R_addr _ _ HR) as Hnd. rewrite He, map_app in Hnd. simpl in Hnd.
      apply NoDup_remove_2 in Hnd. apply Hnd. rewrite <- map_app.
      simpl in Heq. subst a. rewrite <- Heq. apply in_map. exact Hm'. }
    rewrite Hno. reflexivity.
  Qed.

  (** ** rejected calls *)
  Lemma rejected (c : cache) : reachable ltb c ->
    (forall l, ~ contains ltb c l -> get ltb l c = Exc ERuntime c /\ age ltb l c = Exc ERuntime c) /\
    (forall l v b, contains ltb c l -> put ltb l v b c = Exc ERuntime c) /\
    (forall l, contains ltb c l -> (exists a c', get ltb l c = Ret a c') /\ (exists n, age ltb l c = Ret n c)) /\
    (forall l v, ~ contains ltb c l -> exists c', put ltb l (VVal v) false c = Ret tt c').
  Proof.
    intros Hr. destruct (reachable_R c Hr) as (s & HR). unfold contains.
    assert (Hc : forall l, has_label ltb l c = Ret true c <-> find_elem n_key ltb l (c_elems c) <> None).
    { intros l. rewrite has_label_eq. destruct (find_elem n_key ltb l (c_elems c)); split; congruence. }
    split; [|split; [|split]].
    - intros l Hn. rewrite Hc in Hn.
      destruct (find_elem n_key ltb l (c_elems c)) as [n|] eqn:Hf; [exfalso; apply Hn; discriminate|].
      split; [apply get_none; exact Hf|]. unfold age. rewrite Hf. reflexivity.
    - intros l v b Hp. rewrite Hc in Hp. apply put_none_throws. exact Hp.
    - intros l Hp. rewrite Hc in Hp.
      destruct (find_elem n_key ltb l (c_elems c)) as [n|] eqn:Hf; [|contradiction].
      split; [|unfold age; rewrite Hf; eauto].
      rewrite (get_eq c l n (R_addr _ _ HR) Hf). eauto.
    - intros l v Hn. rewrite Hc in Hn.
      destruct (find_elem n_key ltb l (c_elems c)) as [n|] eqn:Hf; [exfalso; apply Hn; discriminate|].
      destruct (R_put c s l v HR) as (c' & Hp & _); [|eauto].
      apply (R_find_None _ _ _ HR). exact Hf.
  Qed.

  (** ** a put whose insertion throws *)
  Lemma put_fail_state (c : cache) l v : reachable ltb c -> ~ contains ltb c l ->
    exists c', put ltb l (VVal v) true c = Exc (EUser 0) c' /\
      (forall n, In n (c_elems c') -> (0 < n_age n)%Z) /\
      (forall x w, snd (step ltb c' (OGet x)) = RVal w -> snd (step ltb c (OGet x)) = RVal w) /\
      current_size c' = (if (current_size c <? maximum_size c)%Z then current_size c else current_size c - 1)%Z /\
      (c_elems c' = [] -> forall ops, snd (run ltb c' ops) = snd (spec_run ltb (mkRlist (maximum_size c) []) ops)).
  Proof.
    intros Hr Hn. destruct (reachable_R c Hr) as (s & HR).
    assert (Hf : find_elem n_key ltb l (c_elems c) = None).
    { unfold contains in Hn. rewrite has_label_eq in Hn.
      destruct (find_elem n_key ltb l (c_elems c)); [exfalso; apply Hn; reflexivity|reflexivity]. }
    assert (Hposall : forall n, In n (c_elems c) -> (0 <= n_age n < r_cap s)%Z).
    { intros n Hin. destruct (R_item _ _ _ HR Hin) as (l1 & l2 & Hi & Ha).
      pose proof (R_bound _ _ HR) as Hb. rewrite Hi, app_length in Hb. simpl in Hb. lia. }
    assert (Hpos : forall n, In n (c_elems c) -> (0 < wrap64 (n_age n + 1))%Z).
    { intros n Hin. specialize (Hposall n Hin). pose proof (R_range _ _ HR).
      rewrite wrap64_small; lia. }
    assert (Hkeep : forall es nx, (forall n, In n es -> In n (c_elems c)) -> NoDup (map n_addr es) ->
              forall x w, snd (step ltb (mkCache (c_max c) (map incr_age es) nx) (OGet x)) = RVal w ->
              snd (step ltb c (OGet x)) = RVal w).
    { intros es nx Hsub Hnd x w. cbn [step].
      set (d := mkCache (c_max c) (map incr_age es) nx).
      assert (Hndd : NoDup (map n_addr (c_elems d))) by (simpl; rewrite incr_age_addr; exact Hnd).
      destruct (find_elem n_key ltb x (c_elems d)) as [n|] eqn:Hfd.
      2:{ rewrite (get_none d x Hfd). discriminate. }
      rewrite (get_eq d x n Hndd Hfd). pose proof (find_elem_In _ _ _ _ _ Hfd) as [Hin Hk].
      change (n_addr n) with (n_addr (set_age n 0%Z)) at 1.
      rewrite (read_node_get (set_elems d (get_elems n (c_elems d))) (set_age n 0%Z)).
      2:{ simpl. rewrite get_elems_addr. exact Hndd. }
      2:{ apply get_elems_In. exact Hin. }
      simpl. intros [= <-].
      simpl in Hin. apply in_map_iff in Hin as (m & <- & Hm).
      assert (Hfm : find_elem n_key ltb x (c_elems c) = Some m).
      { apply find_elem_sorted; auto. apply (R_sorted _ _ HR). }
      rewrite (get_eq c x m (R_addr _ _ HR) Hfm).
      change (n_addr m) with (n_addr (set_age m 0%Z)) at 1.
      rewrite (read_node_get (set_elems c (get_elems m (c_elems c))) (set_age m 0%Z)).
      - reflexivity.
      - simpl. rewrite get_elems_addr. apply (R_addr _ _ HR).
      - apply get_elems_In. auto. }
    assert (Hempty : forall nx (ops : list (op L V)), snd (run ltb (mkCache (c_max c) [] nx) ops) =
                                    snd (spec_run ltb (mkRlist (maximum_size c) []) ops)).
    { intros nx ops. unfold maximum_size.
      destruct (run_refines_gen ops (mkCache (c_max c) [] nx) (mkRlist (c_max c) [])) as (c2 & -> & _); [|reflexivity].
      pose proof (R_range _ _ HR). rewrite (R_cap _ _ HR). constructor; simpl; try lia; try constructor. }
    unfold current_size, maximum_size in *. rewrite (R_length _ _ HR), (R_cap _ _ HR) in *.
    destruct (Z.ltb_spec (Z.of_nat (length (r_items s))) (r_cap s)) as [Hlt|Hge].
    - rewrite (put_prefix_room c s l _ true HR Hf Hlt), put_insert_val.
      eexists; split; [reflexivity|]. split; [|split; [|split]].
      + simpl. intros n Hin. apply in_map_iff in Hin as (m & <- & Hm). simpl. auto.
      + rewrite <- (R_cap _ _ HR) in Hkeep. unfold set_elems. rewrite (R_cap _ _ HR) in *.
        apply Hkeep; [auto|apply (R_addr _ _ HR)].
      + simpl. rewrite map_length, (R_length _ _ HR). reflexivity.
      + simpl. intros He ops. unfold set_elems. rewrite He, (R_cap _ _ HR). apply Hempty.
    - assert (Hfull : Z.of_nat (length (r_items s)) = r_cap s) by (pose proof (R_bound _ _ HR); lia).
      destruct (put_prefix_full c s l (VVal v) true HR Hf Hfull)
        as (e1 & w & e2 & items & y & He & Hx & _ & _ & _ & Hput & _).
      rewrite Hput, put_insert_val.
      assert (Hsub : forall n, In n (e1 ++ e2) -> In n (c_elems c)).
      { intros n Hin. rewrite He. apply in_app_or in Hin. apply in_or_app; simpl; tauto. }
      eexists; split; [reflexivity|]. split; [|split; [|split]].
      + simpl. intros n Hin. apply in_map_iff in Hin as (m & <- & Hm). simpl. auto.
      + unfold set_elems. rewrite (R_cap _ _ HR). apply Hkeep; [exact Hsub|].
        pose proof (R_addr _ _ HR) as Hnd. rewrite He, map_app in Hnd. simpl in Hnd.
        rewrite map_app. eapply NoDup_remove_1; eassumption.
      + simpl. pose proof (R_length _ _ HR) as Hlen. rewrite He in Hlen.
        rewrite map_length. rewrite app_length in *. simpl in Hlen. lia.
      + simpl. intros Hemp ops. unfold set_elems. rewrite Hemp, (R_cap _ _ HR). apply Hempty.
  Qed.

  Lemma put_ref (c : cache) l a v : reachable ltb c -> ~ contains ltb c l -> read_node a c = Some v ->
    (exists n, In n (c_elems c) /\ n_addr n = a /\
       ((current_size c < maximum_size c)%Z \/ n_age n <> (maximum_size c - 1)%Z) /\
       put ltb l (VNode a) false c = put ltb l (VVal v) false c) \/
    (exists n, In n (c_elems c) /\ n_addr n = a /\
       current_size c = maximum_size c /\ n_age n = (maximum_size c - 1)%Z /\
       put ltb l (VNode a) false c = Ub UbDangling).
  Proof.
    intros Hr Hn Hv. destruct (reachable_R c Hr) as (s & HR).
    assert (Hf : find_elem n_key ltb l (c_elems c) = None).
    { unfold contains in Hn. rewrite has_label_eq in Hn.
      destruct (find_elem n_key ltb l (c_elems c)); [exfalso; apply Hn; reflexivity|reflexivity]. }
    assert (Hnode : exists n, In n (c_elems c) /\ n_addr n = a).
    { unfold read_node in Hv. destruct (find _ _) as [n|] eqn:Hfd; [|discriminate].
      apply find_some in Hfd as [Hin He]. apply Nat.eqb_eq in He. eauto. }
    destruct Hnode as (n & Hin & Ha).
    assert (Hb : (current_size c <= maximum_size c)%Z).
    { unfold current_size, maximum_size. rewrite (R_length _ _ HR), (R_cap _ _ HR). apply (R_bound _ _ HR). }
    destruct (Z.eq_dec (current_size c) (maximum_size c)) as [Hfull|Hroom].
    - destruct (Z.eq_dec (n_age n) (maximum_size c - 1)) as [Hage|Hage].
      + right. exists n. repeat split; auto. eapply put_ref_victim; eauto.
      + left. exists n. repeat split; auto. eapply put_ref_live; eauto.
    - left. exists n. repeat split; auto; [left; lia|]. eapply put_ref_live; eauto. left; lia.
  Qed.

  (** ** Variables *)
  Definition Rv (s : nat -> option cache) (r : nat -> option rlist) : Prop :=
    forall k, match s k, r k with Some c, Some l => R c l | None, None => True | _, _ => False end.
  Lemma Rv_set s r k c l : Rv s r -> R c l -> Rv (set_var s k (Some c)) (set_var r k (Some l)).
  Proof. intros H HR i. unfold set_var. destruct (Nat.eqb i k); [exact HR|apply H]. Qed.
  Lemma R_moved c l : R c l -> R (moved_from c) (mkRlist (r_cap l) []).
  Proof. intros H. constructor; simpl; try constructor; try apply H; pose proof (R_range _ _ H); try lia; intros; contradiction. Qed.
  Lemma vstep_refines s r o : Rv s r -> sizes_ok o ->
    match vstep ltb s o, spec_vstep ltb r o with
    | Some (s', x), Some (r', y) => x = y /\ Rv s' r'
    | None, None => True
    | _, _ => False
    end.
  Proof.
    intros H Ho. destruct o as [k m|d k|d k|d k|d k|k|d k|d k|k o]; simpl.
    - pose proof (H k) as Hk. destruct (s k), (r k); try contradiction; auto. unfold lru_new. simpl in Ho.
      destruct (Z.ltb_spec 0 m), (Z.eqb_spec m 0); try lia.
      + split; [reflexivity|]. apply Rv_set; [exact H|]. apply R_new. lia.
      + split; [reflexivity|exact H].
    - pose proof (H d) as Hd. pose proof (H k) as Hk. destruct (s d), (r d); try contradiction; auto.
      destruct (s k), (r k); try contradiction; auto. split; [reflexivity|]. apply Rv_set; assumption.
    - pose proof (H d) as Hd. pose proof (H k) as Hk. destruct (s d), (r d); try contradiction; auto.
      destruct (s k), (r k); try contradiction; auto. split; [reflexivity|]. apply Rv_set; [apply Rv_set; assumption|].
      apply R_moved. exact Hk.
    - pose proof (H d) as Hd. pose proof (H k) as Hk. destruct (s d), (r d); try contradiction; auto;
      destruct (s k), (r k); try contradiction; auto. split; [reflexivity|]. apply Rv_set; assumption.
    - pose proof (H d) as Hd. pose proof (H k) as Hk. destruct (s d) as [c1|] eqn:Ed, (r d) as [l1|] eqn:Fd; try contradiction; auto.
      destruct (s k) as [c2|] eqn:Ek, (r k) as [l2|] eqn:Fk; try contradiction; auto.
      unfold set_var at 1. destruct (Nat.eqb_spec k d) as [->|Hne].
      + split; [reflexivity|]. intros i. unfold set_var. destruct (Nat.eqb_spec i d) as [->|Hni].
        * apply (R_moved c2 l2). rewrite Ed in Ek. rewrite Fd in Fk. injection Ek as ->. injection Fk as ->. exact Hk.
        * apply H.
      + rewrite Ek. split; [reflexivity|]. intros i. unfold set_var. destruct (Nat.eqb_spec i k) as [->|Hni]; [apply R_moved; exact Hk|].
        destruct (Nat.eqb_spec i d) as [->|Hnd]; [|apply H]. destruct c2; exact Hk.
    - pose proof (H k) as Hk. destruct (s k), (r k); try contradiction; auto. split; [reflexivity|].
      intros i. unfold set_var. destruct (Nat.eqb i k); [exact I|apply H].
    - pose proof (H d) as Hd. pose proof (H k) as Hk. destruct (s d), (r d); try contradiction; auto.
      destruct (s k) as [c|], (r k) as [l|]; try contradiction; auto. pose proof (R_length _ _ Hk) as Hlen.
      destruct c as [mx [|n es] nx], l as [cap [|x items]]; simpl in *; try discriminate; split; try reflexivity; [apply Rv_set|]; assumption.
    - pose proof (H d) as Hd. pose proof (H k) as Hk. destruct (s d), (r d); try contradiction; auto;
      destruct (s k) as [c2|], (r k) as [l|]; try contradiction; auto. destruct (Nat.eqb d k); [auto|]. pose proof (R_length _ _ Hk) as Hlen.
      destruct c2 as [mx [|n es] nx], l as [cap [|x items]]; simpl in *; try discriminate; split; try reflexivity; apply Rv_set; try assumption.
      apply (R_moved _ _ Hk).
    - pose proof (H k) as Hk. destruct (s k) as [c|], (r k) as [l|]; try contradiction; auto.
      destruct (step_refines c l o Hk) as (c' & -> & HR). split; [reflexivity|]. apply Rv_set; assumption.
  Qed.
  Lemma vrun_refines p : forall s r, Rv s r -> Forall sizes_ok p ->
    option_map snd (vrun ltb s p) = option_map snd (spec_vrun ltb r p).
  Proof.
    induction p as [|o p IH]; intros s r H Hf; simpl; [reflexivity|]. inversion Hf as [|? ? Ho Hf']; subst.
    pose proof (vstep_refines s r o H Ho) as Hs.
    destruct (vstep ltb s o) as [[s' x]|], (spec_vstep ltb r o) as [[r' y]|]; try contradiction; auto.
    destruct Hs as [-> HR]. specialize (IH _ _ HR Hf').
    destruct (vrun ltb s' p) as [[s'' l]|], (spec_vrun ltb r' p) as [[r'' l']|]; simpl in *; congruence.
  Qed.
  Lemma values (p : list (vop L V)) : Forall sizes_ok p ->
    option_map snd (vrun ltb (fun _ => None) p) = option_map snd (spec_vrun ltb (fun _ => None) p).
  Proof. apply vrun_refines. intros k. exact I. Qed.
End LruProofs.
