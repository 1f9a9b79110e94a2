(** OwnProofs.v -- proofs about OwnModel. *)
From Verif Require Import Base RandomModel OwnModel OwnSpec.
From Coq Require Import Lia.

Lemma by_base : forall (P : cls -> Prop), (forall c, (forall b, base_of c = Some b -> P b) -> P c) -> forall c, P c.
Proof.
  intros P H. assert (HI : P RandomiserInterface) by (apply H; intros b E; discriminate).
  assert (HB : P RandomiserBase) by (apply H; intros b E; injection E as <-; exact HI).
  induction c.
  - exact HI.
  - exact HB.
  - apply H; intros b E; injection E as <-; exact HB.
  - apply H; intros b E; discriminate.
  - apply H; intros b E; discriminate.
  - apply H; intros b E; injection E as <-; assumption.
Qed.
Lemma chain_eq : forall c, chain c = c :: match base_of c with Some b => chain b | None => [] end.
Proof. destruct c; reflexivity. Qed.
Lemma cls_eqb_eq : forall a b, cls_eqb a b = true <-> a = b.
Proof.
  induction a; destruct b; cbn; split; intros H; try discriminate; try reflexivity.
  - apply andb_prop in H. destruct H as [H H3]. apply andb_prop in H. destruct H as [H1 H2].
    apply Nat.eqb_eq in H1. apply Bool.eqb_prop in H2. apply IHa in H3. subst. reflexivity.
  - injection H as -> -> H. rewrite Nat.eqb_refl, Bool.eqb_reflx. apply IHa in H. rewrite H. reflexivity.
Qed.
Lemma in_chain : forall c a, In a (chain c) <-> a = c \/ derived c a.
Proof.
  intros c. induction c as [c IH] using by_base. intros a. rewrite chain_eq. cbn [In].
  destruct (base_of c) as [b|] eqn:E.
  - rewrite (IH b eq_refl a). split.
    + intros [H|[H|H]]; [left; auto | right; subst; constructor; exact E | right; eapply der_step; eassumption].
    + intros [H|H]; [left; auto|]. right. inversion H as [c' b' E'|c' b' a' E' D]; subst; rewrite E in E'; injection E' as <-; auto.
  - split.
    + intros [H|[]]. left; auto.
    + intros [H|H]; [left; auto|]. inversion H as [c' b' E'|c' b' a' E' D]; subst; rewrite E in E'; discriminate.
Qed.
Lemma chain_shorter : forall c a, derived c a -> length (chain a) < length (chain c).
Proof.
  induction 1 as [c b E|c b a E D IH]; rewrite (chain_eq c), E; cbn [length]; lia.
Qed.
Lemma chain_nth : forall c i a, nth_error (chain c) i = Some a -> length (chain a) + i = length (chain c).
Proof.
  intros c. induction c as [c IH] using by_base. intros i a. rewrite chain_eq. destruct i as [|i]; cbn [nth_error].
  - intros H. injection H as ->. rewrite chain_eq. lia.
  - destruct (base_of c) as [b|] eqn:E; [|destruct i; discriminate]. intros H. apply (IH b eq_refl) in H. cbn [length]. lia.
Qed.
Lemma chain_proper : forall c, properly_destroyed c (chain c).
Proof.
  intros c. split; [|split].
  - apply NoDup_nth_error. intros i j Hi H. destruct (nth_error (chain c) i) as [a|] eqn:E.
    + symmetry in H. apply chain_nth in E. apply chain_nth in H. lia.
    + apply nth_error_None in E. lia.
  - intros a. apply in_chain.
  - intros i j x y Hx Hy D. apply chain_nth in Hx. apply chain_nth in Hy. apply chain_shorter in D. lia.
Qed.
Lemma virtual_eq : forall c,
  virtual_destructor c = declares_virtual c || match base_of c with Some b => virtual_destructor b | None => false end.
Proof. destruct c; reflexivity. Qed.
Lemma virtual_made : forall c, virtual_destructor c = true <-> made_virtual c.
Proof.
  intros c. induction c as [c IH] using by_base. rewrite virtual_eq. split.
  - intros H. apply Bool.orb_prop in H. destruct H as [H|H].
    + exists c. auto.
    + destruct (base_of c) as [b|] eqn:E; [|discriminate]. apply (IH b eq_refl) in H. destruct H as (a & [->|D] & V).
      * exists b. split; [right; constructor; exact E | exact V].
      * exists a. split; [right; eapply der_step; eassumption | exact V].
  - intros (a & [->|D] & V); [rewrite V; reflexivity|]. apply Bool.orb_true_intro. right.
    inversion D as [c' b' E'|c' b' a' E' D']; subst; rewrite E'; apply (IH _ E'); [exists a | exists a]; auto.
Qed.
Lemma not_derived_self : forall c, ~ derived c c.
Proof. intros c H. apply chain_shorter in H. lia. Qed.

Lemma delete_ok : forall stat dyn, may_delete stat dyn -> delete_through stat dyn = Some (chain dyn).
Proof.
  intros stat dyn H. unfold delete_through. destruct (cls_eqb stat dyn) eqn:E; [reflexivity|].
  destruct H as [->|[D V]].
  - assert (cls_eqb dyn dyn = true) by (apply cls_eqb_eq; reflexivity). congruence.
  - apply virtual_made in V. rewrite V.
    replace (existsb (cls_eqb stat) (chain dyn)) with true; [reflexivity|]. symmetry. apply existsb_exists. exists stat.
    split; [apply in_chain; auto | apply cls_eqb_eq; reflexivity].
Qed.
Lemma delete_only : forall stat dyn l, delete_through stat dyn = Some l -> may_delete stat dyn.
Proof.
  intros stat dyn l. unfold delete_through. destruct (cls_eqb stat dyn) eqn:E.
  - intros _. left. apply cls_eqb_eq. exact E.
  - destruct (existsb (cls_eqb stat) (chain dyn)) eqn:X; cbn [andb]; [|discriminate].
    destruct (virtual_destructor stat) eqn:V; [|discriminate]. intros _. right. split.
    + apply existsb_exists in X. destruct X as (x & Hx & Ex). apply cls_eqb_eq in Ex. subst x. apply in_chain in Hx.
      destruct Hx as [->|D]; [|exact D].
      assert (cls_eqb dyn dyn = true) by (apply cls_eqb_eq; reflexivity). congruence.
    + apply virtual_made. exact V.
Qed.
Lemma interface_deletes : forall i dyn, i = WritableInterface \/ i = WriterInterface -> derived dyn i ->
  exists l, delete_through i dyn = Some l /\ properly_destroyed dyn l.
Proof.
  intros i dyn Hi D. exists (chain dyn). split; [|apply chain_proper]. apply delete_ok. right. split; [exact D|].
  exists i. split; [left; reflexivity|]. destruct Hi; subst; reflexivity.
Qed.
(** no randomiser class of the library has a virtual destructor *)
Lemma randomiser_not_virtual : forall c, c = RandomiserInterface \/ c = RandomiserBase \/ c = UniformRandomiser ->
  virtual_destructor c = false.
Proof. intros c [->|[->| ->]]; reflexivity. Qed.
Lemma randomiser_undeletable : forall c dyn, c = RandomiserInterface \/ c = RandomiserBase \/ c = UniformRandomiser ->
  derived dyn c -> delete_through c dyn = None.
Proof.
  intros c dyn Hc D. destruct (delete_through c dyn) as [l|] eqn:E; [|reflexivity]. exfalso.
  apply delete_only in E. destruct E as [->|[_ V]]; [exact (not_derived_self _ D)|].
  apply virtual_made in V. rewrite (randomiser_not_virtual _ Hc) in V. discriminate.
Qed.

Section Programs.
  Context {T G Ds : Type} (next : G -> Z * G) (dmake : T -> T -> Ds) (ddraw : Ds -> draw (T * Ds)).
  Notation step := (ostep (T:=T) next dmake ddraw).
  Notation run := (orun (T:=T) next dmake ddraw).
  Notation rruns := (rrun next dmake ddraw).

  Lemma orun_app : forall p q s l s', run p s = Ret l s' ->
    run (p ++ q) s = match run q s' with
                     | Ret l' s'' => Ret (l ++ l') s''
                     | Exc e s'' => Exc e s'' | Ub r => Ub r | Abort => Abort | Fuel => Fuel
                     end.
  Proof.
    induction p as [|o p IH]; intros q s l s' H.
    - cbn in H. injection H as <- <-. cbn [app]. destruct (run q s); reflexivity.
    - cbn [orun app] in *. unfold bind, ret in *. destruct (step o s) as [x s1| | | |]; try discriminate.
      destruct (run p s1) as [l1 s2| | | |] eqn:E; try discriminate. injection H as <- <-.
      rewrite (IH q _ _ _ E). destruct (run q s2); reflexivity.
  Qed.
  Lemma own_frame : forall o k s x s', ~ mentions k o -> step o s = Ret x s' -> o_own s' k = o_own s k.
  Proof.
    intros o k s x s' N. destruct o as [j d w a b|j|j]; cbn [ostep mentions] in *.
    - unfold bind, on_rand, construct. cbn. intros H. injection H as _ <-. cbn. unfold set_var.
      destruct (Nat.eqb k j) eqn:E; [apply Nat.eqb_eq in E; congruence | reflexivity].
    - destruct (o_own s j) as [[d w]|]; [|discriminate]. unfold bind, on_rand, ret.
      destruct (get next ddraw j (o_rand s)); try discriminate. intros H. injection H as _ <-. reflexivity.
    - destruct (o_own s j) as [[d w]|]; [|discriminate]. destruct (delete_through _ d); [|discriminate].
      intros H. injection H as _ <-. cbn. unfold set_var.
      destruct (Nat.eqb k j) eqn:E; [apply Nat.eqb_eq in E; congruence | reflexivity].
  Qed.
  Lemma own_frame_run : forall p k s l s', (forall o, In o p -> ~ mentions k o) -> run p s = Ret l s' ->
    o_own s' k = o_own s k.
  Proof.
    induction p as [|o p IH]; intros k s l s' N H.
    - cbn in H. injection H as _ <-. reflexivity.
    - cbn [orun] in H. unfold bind, ret in H. destruct (step o s) as [x s1| | | |] eqn:E; try discriminate.
      destruct (run p s1) as [l1 s2| | | |] eqn:E2; try discriminate. injection H as _ <-.
      rewrite (IH k s1 l1 s2); [|intros o' Ho'; apply N; right; exact Ho' | exact E2].
      apply (own_frame o k s x s1); [apply N; left; reflexivity | exact E].
  Qed.
  Lemma new_owner : forall k d w a b s x s', step (ONew k d w a b) s = Ret x s' -> o_own s' k = Some (d, w).
  Proof.
    intros k d w a b s x s'. cbn [ostep]. unfold bind, on_rand, construct. cbn. intros H. injection H as _ <-. cbn.
    unfold set_var. rewrite Nat.eqb_refl. reflexivity.
  Qed.

  Lemma through_interface : forall c dyn g k a b p q l s',
    c = RandomiserInterface \/ c = RandomiserBase \/ c = UniformRandomiser -> derived dyn c ->
    (forall o, In o q -> ~ mentions k o) ->
    run (p ++ ONew k dyn (OwnUnique c) a b :: q) (oinit g) = Ret l s' ->
    run ((p ++ ONew k dyn (OwnUnique c) a b :: q) ++ [ORelease k]) (oinit g) = Ub UbDangling.
  Proof.
    intros c dyn g k a b p q l s' Hc D N H.
    rewrite (orun_app _ [ORelease k] _ _ _ H). cbn [orun].
    assert (O : o_own s' k = Some (dyn, OwnUnique c)).
    { assert (exists l0 s0, run p (oinit g) = Ret l0 s0) as (l0 & s0 & E0).
      { revert H. generalize (oinit (Ds:=Ds) g) as s. generalize l.
        induction p as [|o p IH]; intros l2 s H; [cbn; eauto|]. cbn [orun app] in *. unfold bind, ret in *.
        destruct (step o s) as [x s1| | | |]; try discriminate.
        destruct (run (p ++ _) s1) as [l1 s2| | | |] eqn:E; try discriminate. injection H as _ <-.
        destruct (IH _ _ E) as (l3 & s3 & E3). rewrite E3. eauto. }
      rewrite (orun_app _ _ _ _ _ E0) in H.
      destruct (run (ONew k dyn (OwnUnique c) a b :: q) s0) as [l1 s1| | | |] eqn:E1; try discriminate.
      injection H as _ <-. cbn [orun] in E1. unfold bind, ret in E1.
      destruct (step (ONew k dyn (OwnUnique c) a b) s0) as [x s2| | | |] eqn:E2; try discriminate.
      destruct (run q s2) as [l2 s3| | | |] eqn:E3; try discriminate. injection E1 as _ <-.
      rewrite (own_frame_run q k _ _ _ N E3). exact (new_owner _ _ _ _ _ _ _ _ E2). }
    unfold bind at 1. cbn [ostep]. rewrite O. cbn [released_through].
    rewrite (randomiser_undeletable c dyn Hc D). reflexivity.
  Qed.

  (** ** Careful programs *)
  Record own_inv (p : list (oop T)) (s : ost G Ds) : Prop := mkOwnInv {
    inv_held : forall k, option_map fst (o_own s k) = held k p None;
    inv_sound : forall k d w, o_own s k = Some (d, w) -> sound_owner d w;
    inv_there : forall k, o_own s k <> None -> randomisers (o_rand s) k <> None }.
  Lemma held_snoc : forall k p o now, held k (p ++ [o]) now = held (T:=T) k [o] (held k p now).
  Proof. induction p as [|[j d w a b|j|j] p IH]; intros o now; cbn [app held]; [reflexivity| | |]; apply IH. Qed.

  Definition step_as (o : oop T) (s : rst G Ds) : list T -> rst G Ds -> Prop :=
    fun vs s' => match rruns (as_variables [o]) s with
                 | Ret l s1 => drawn_by_variables l = vs /\ s1 = s'
                 | _ => False end.
  Lemma careful_step : forall pre o s, own_inv pre s ->
    (forall k d w a b, o = ONew k d w a b -> sound_owner d w) ->
    (forall k, o = OGet k \/ o = ORelease k -> held k pre None <> None) ->
    exists x s', step o s = Ret x s' /\ own_inv (pre ++ [o]) s' /\ step_as o (o_rand s) (drawn [x]) (o_rand s') /\
      (forall k, o = ORelease k -> exists d c, held k pre None = Some d /\ x = OGone c /\ properly_destroyed d c).
  Proof.
    intros pre o s [HH HS HT] N U. destruct o as [j d w a b|j|j].
    - eexists _, _. cbn [ostep]. unfold bind, on_rand, construct. cbn. split; [reflexivity|]. split; [|split].
      + split; cbn.
        * intros k. rewrite held_snoc. cbn [held]. unfold set_var. rewrite (Nat.eqb_sym j k).
          destruct (Nat.eqb k j); [reflexivity | apply HH].
        * intros k d0 w0. unfold set_var. destruct (Nat.eqb k j); [|apply HS]. intros H. injection H as <- <-.
          eapply N. reflexivity.
        * intros k. unfold set_var. destruct (Nat.eqb k j); [discriminate|apply HT].
      + unfold step_as. cbn. split; reflexivity.
      + intros k H. discriminate.
    - assert (Hj : o_own s j <> None). { intros E. apply (U j); [auto|]. rewrite <- HH, E. reflexivity. }
      pose proof (HT j Hj) as Hr. destruct (o_own s j) as [[d w]|] eqn:E; [|congruence].
      destruct (randomisers (o_rand s) j) as [ds|] eqn:R; [|congruence].
      destruct (feed next (ddraw ds) (generator (o_rand s))) as [[v ds'] g'] eqn:F.
      exists (OVal v), (mkOst (mkRst (set_var (randomisers (o_rand s)) j (Some ds')) g') (o_own s)).
      cbn [ostep]. unfold bind, on_rand, get, ret. rewrite E, R, F. split; [reflexivity|]. split; [|split].
      + split; cbn.
        * intros k. rewrite held_snoc. apply HH.
        * apply HS.
        * intros k Hk. unfold set_var. destruct (Nat.eqb k j); [discriminate | exact (HT k Hk)].
      + unfold step_as. cbn. unfold bind, get, ret. rewrite R, F. split; reflexivity.
      + intros k H. discriminate.
    - assert (Hj : o_own s j <> None). { intros E. apply (U j); [auto|]. rewrite <- HH, E. reflexivity. }
      destruct (o_own s j) as [[d w]|] eqn:E; [|congruence].
      assert (Hd : delete_through (released_through w d) d = Some (chain d)).
      { apply delete_ok. pose proof (HS _ _ _ E) as W. destruct w; cbn in *; [exact W|exact W|left; reflexivity]. }
      eexists _, _. cbn [ostep]. rewrite E, Hd. split; [reflexivity|]. split; [|split].
      + split; cbn.
        * intros k. rewrite held_snoc. cbn [held]. unfold set_var. rewrite (Nat.eqb_sym j k).
          destruct (Nat.eqb k j); [reflexivity | apply HH].
        * intros k d0 w0. unfold set_var. destruct (Nat.eqb k j); [discriminate|apply HS].
        * intros k. unfold set_var. destruct (Nat.eqb k j); [congruence|apply HT].
      + unfold step_as. cbn. split; reflexivity.
      + intros k H. injection H as <-. exists d, (chain d). rewrite <- HH, E. split; [reflexivity|]. split; [reflexivity|].
        apply chain_proper.
  Qed.
  Lemma careful_run : forall p pre s, own_inv pre s ->
    (forall i k dyn o a b, nth_error p i = Some (ONew k dyn o a b) -> sound_owner dyn o) ->
    (forall i k, nth_error p i = Some (OGet k) \/ nth_error p i = Some (ORelease k) ->
                 held k (pre ++ firstn i p) None <> None) ->
    exists l s' l2 s2, run p s = Ret l s' /\ rruns (as_variables p) (o_rand s) = Ret l2 s2 /\
      drawn l = drawn_by_variables l2 /\ o_rand s' = s2 /\
      (forall i k, nth_error p i = Some (ORelease k) ->
         exists d c, held k (pre ++ firstn i p) None = Some d /\ nth_error l i = Some (OGone c) /\ properly_destroyed d c).
  Proof.
    induction p as [|o p IH]; intros pre s I N U.
    - exists [], s, [], (o_rand s). repeat split; try reflexivity. intros i k H. destruct i; discriminate.
    - destruct (careful_step pre o s I) as (x & s1 & E & I1 & SA & RL).
      { intros k d w a b ->. apply (N 0 k d w a b). reflexivity. }
      { intros k Hk. specialize (U 0 k). cbn [nth_error firstn] in U. rewrite app_nil_r in U. apply U.
        destruct Hk as [->| ->]; auto. }
      destruct (IH (pre ++ [o]) s1 I1) as (l & s' & l2 & s2 & E2 & R2 & V & ST & RLS).
      { intros i k d w a b H. exact (N (S i) k d w a b H). }
      { intros i k H. rewrite <- app_assoc. cbn [app]. exact (U (S i) k H). }
      unfold step_as in SA.
      assert (exists l3, rruns (as_variables (o :: p)) (o_rand s) = Ret l3 s2 /\ drawn (x :: l) = drawn_by_variables l3)
        as (l3 & R3 & V3).
      { destruct o as [j d w a b|j|j]; cbn [as_variables rrun] in *; unfold bind, ret in *.
        - destruct (rstep next dmake ddraw (RNew j a b) (o_rand s)) as [y s3| | | |]; try contradiction.
          destruct SA as [SA1 SA2]. subst s3. rewrite R2. eexists. split; [reflexivity|].
          change (x :: l) with ([x] ++ l). cbn in SA1. destruct x, y; cbn in *; try discriminate; congruence.
        - destruct (rstep next dmake ddraw (RGet j) (o_rand s)) as [y s3| | | |]; try contradiction.
          destruct SA as [SA1 SA2]. subst s3. rewrite R2. eexists. split; [reflexivity|].
          cbn in SA1. destruct x, y; cbn in *; try discriminate; congruence.
        - destruct SA as [SA1 SA2]. rewrite <- SA2 in R2. exists l2. split; [exact R2|].
          destruct x; cbn in *; try discriminate; congruence. }
      exists (x :: l), s', l3, s2. cbn [orun]. unfold bind, ret. rewrite E, E2.
      split; [reflexivity|]. split; [exact R3|]. split; [exact V3|]. split; [exact ST|].
      intros [|i] k H; cbn [nth_error firstn] in *.
      + injection H as ->. destruct (RL k eq_refl) as (d & c & A & B & C). rewrite app_nil_r. exists d, c. subst x. auto.
      + destruct (RLS i k H) as (d & c & A & B & C). exists d, c. rewrite <- app_assoc in A. cbn [app] in A. auto.
  Qed.
  Lemma careful_ok : forall g p, careful p ->
    exists l s' l2 s2, run p (oinit g) = Ret l s' /\ rruns (as_variables p) (rinit g) = Ret l2 s2 /\
      drawn l = drawn_by_variables l2 /\ generator (o_rand s') = generator s2 /\
      (forall i k, nth_error p i = Some (ORelease k) ->
         exists d c, held k (firstn i p) None = Some d /\ nth_error l i = Some (OGone c) /\ properly_destroyed d c).
  Proof.
    intros g p [N U]. destruct (careful_run p [] (oinit g)) as (l & s' & l2 & s2 & A & B & C & D & F).
    - split; cbn; [reflexivity | discriminate | congruence].
    - exact N.
    - exact U.
    - exists l, s', l2, s2. subst s2. split; [exact A|]. split; [exact B|]. split; [exact C|]. split; [reflexivity|exact F].
  Qed.
End Programs.
