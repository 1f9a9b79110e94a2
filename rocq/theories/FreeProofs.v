(** FreeProofs.v -- lemmas about FreeModel.v *)
From Verif Require Import Base StdOrd SetModel SetSpec SetProofs OverModel ConvModel ConvSpec ConvProofs FreeModel.

Lemma as_set_bound X T : bound X (StdSet T) = match as_set X with Some (u, r) => if ctype_eqb u T then Some r else None | None => None end.
Proof. unfold bound. destruct X; cbn; try reflexivity; destruct (ctype_eqb X T); reflexivity. Qed.
Lemma as_vector_bound X T : bound X (StdVector T) = match as_vector X with Some (u, r) => if ctype_eqb u T then Some r else None | None => None end.
Proof. unfold bound. destruct X; cbn; try reflexivity; destruct (ctype_eqb X T); reflexivity. Qed.
Lemma ctype_eqb_sym a b : ctype_eqb a b = ctype_eqb b a.
Proof.
  destruct (ctype_eqb a b) eqn:E; symmetry.
  - apply ctype_eqb_eq in E. subst. apply ctype_eqb_refl.
  - destruct (ctype_eqb b a) eqn:F; [|reflexivity]. apply ctype_eqb_eq in F. subst. rewrite ctype_eqb_refl in E. discriminate.
Qed.
Lemma ctype_eqb_neq a b : a <> b -> ctype_eqb a b = false.
Proof. intros H. destruct (ctype_eqb a b) eqn:E; [|reflexivity]. apply ctype_eqb_eq in E. contradiction. Qed.
Lemma deduced_sets {C} (c : C) T X : deduced c PStdSet PStdSet (HSet T) X =
  match bound X (StdSet T) with Some s => [mkCand c true [Conversion; s]] | None => [] end.
Proof.
  unfold deduced. cbn [deduce as_set]. rewrite as_set_bound. destruct (as_set X) as [[u s]|]; [|reflexivity].
  rewrite ctype_eqb_sym. destruct (ctype_eqb u T); reflexivity.
Qed.
Lemma deduced_vectors {C} (c : C) T X : deduced c PStdSet PStdVector (HSet T) X =
  match bound X (StdVector T) with Some s => [mkCand c true [Conversion; s]] | None => [] end.
Proof.
  unfold deduced. cbn [deduce as_set]. rewrite as_vector_bound. destruct (as_vector X) as [[u s]|]; [|reflexivity].
  rewrite ctype_eqb_sym. destruct (ctype_eqb u T); reflexivity.
Qed.
Lemma not_both X T : bound X (StdSet T) = None \/ bound X (StdVector T) = None.
Proof. rewrite as_set_bound, as_vector_bound. destruct X; auto. Qed.

(** ** alike *)
Lemma disjoint_same l m : disjoint val_ltb l m = member_disjoint val_ltb l m /\ disjoint_list val_ltb l m = member_disjoint val_ltb l m.
Proof. destruct (disjoint_all val_ltb val_swo l m) as (H1 & H2 & H3). split; apply eq_true_iff_eq; tauto. Qed.
Lemma disjoint_alike T X l x : free_disjoint (HSet T) X l x = member_disjoint_call T X l x.
Proof.
  unfold free_disjoint, member_disjoint_call. rewrite deduced_sets, deduced_vectors, !viable_one. destruct (disjoint_same l (items x)) as [E1 E2].
  destruct (not_both X T) as [-> | ->].
  - destruct (bound X (StdVector T)); cbn; [now rewrite E2|reflexivity].
  - destruct (bound X (StdSet T)); cbn; [now rewrite E1|reflexivity].
Qed.
Lemma subset_alike T X l x : free_subset (HSet T) X l x = None <-> member_subset_call T X l x = None.
Proof.
  unfold free_subset, member_subset_call. rewrite deduced_sets. destruct (bound X (StdSet T)); cbn; split; intros; congruence.
Qed.
(** ** the functions that take less *)
Lemma contains_same T l x : free_contains (HSet T) T l x = contains_arg T T x l.
Proof.
  unfold free_contains, deduced. cbn [deduce as_set]. rewrite ctype_eqb_refl. cbn. unfold contains_arg, convert.
  rewrite (conv_bound T T Identity) by (unfold bound; now rewrite ctype_eqb_refl). reflexivity.
Qed.
Lemma contains_none T X l x : X <> T -> free_contains (HSet T) X l x = None.
Proof. intros H. unfold free_contains, deduced. cbn [deduce as_set]. rewrite ctype_eqb_neq by congruence. reflexivity. Qed.
Lemma contains_less T X l x : X <> T -> conv T X <> None -> contains_arg T X x l <> None /\ free_contains (HSet T) X l x = None.
Proof.
  intros N C. split; [|now apply contains_none]. unfold contains_arg, convert. destruct (conv T X) as [[r f]|]; [discriminate|congruence].
Qed.
Lemma join_same T l x : free_join (HSet T) (HSet T) l x = member_adjoin_call T (HSet T) l x.
Proof.
  unfold free_join, deduced, member_adjoin_call. cbn [deduce]. rewrite ctype_eqb_refl. cbn. unfold bound. cbn. rewrite ctype_eqb_refl. reflexivity.
Qed.
Lemma join_none T X l x : X <> HSet T -> free_join (HSet T) X l x = None.
Proof.
  intros H. unfold free_join, deduced. cbn [deduce]. destruct X; try reflexivity. rewrite ctype_eqb_neq by congruence. reflexivity.
Qed.
Lemma join_less T l x : member_adjoin_call T (StdSet T) l x <> None /\ free_join (HSet T) (StdSet T) l x = None.
Proof. split; [|now apply join_none]. unfold member_adjoin_call, bound. rewrite ctype_eqb_refl. discriminate. Qed.
Lemma remove_same T X l x : increasing val_ltb l -> bound X (StdSet T) <> None ->
  exists l', free_remove_call (HSet T) X l x = Some (Some l') /\ remove_arg T X x l = Left l'.
Proof.
  intros Hl B. destruct (set_removed T X x l Hl B) as (l' & E & _). exists l'. split; [|exact E].
  unfold free_remove_call. rewrite deduced_sets. unfold remove_arg in E. rewrite !viable_one in E. destruct (bound X (StdSet T)) as [r|] eqn:F; [|congruence].
  cbn [resolve resolve_from forallb app c_ctor]. rewrite (set_not_one T X r F) in E. cbn [option_map] in E.
  assert (V : as_vector X = None) by (rewrite as_set_bound in F; destruct X; cbn in *; congruence). rewrite V in E. cbn [option_map app resolve resolve_from forallb c_ctor] in E.
  change (free_remove val_ltb (other_arg (items x)) l) with (member_remove val_ltb (other_arg (items x)) l).
  destruct (member_remove val_ltb (other_arg (items x)) l); congruence.
Qed.
Lemma remove_none T X l x : bound X (StdSet T) = None -> free_remove_call (HSet T) X l x = None.
Proof. intros H. unfold free_remove_call. rewrite deduced_sets, H. reflexivity. Qed.
Lemma remove_less T X l x : (as_vector X = None \/ bound X T <> None) -> conv T X <> None ->
  remove_arg T X x l <> DoesNotCompile /\ free_remove_call (HSet T) X l x = None.
Proof.
  intros V C. split.
  - rewrite (one_chosen T X x l V C). unfold convert. destruct (conv T X) as [[r f]|]; [discriminate|congruence].
  - apply remove_none. destruct (bound X (StdSet T)) eqn:E; [|reflexivity]. apply set_not_one in E. contradiction.
Qed.
(** ** lists *)
Lemma catenate_item T l x : free_catenate (HList T) T l x = member_append_call T T l x.
Proof.
  destruct (not_inside T) as (N1 & N2 & N3 & N4). unfold free_catenate, deduced, member_append_call. cbn [deduce]. rewrite ctype_eqb_refl, !viable_one.
  rewrite (conv_bound T T Identity) by (unfold bound; now rewrite ctype_eqb_refl). cbn [option_map fst].
  unfold convert. rewrite (conv_bound T T Identity) by (unfold bound; now rewrite ctype_eqb_refl).
  assert (B : bound T (StdVector T) = None).
  { rewrite as_vector_bound. destruct (as_vector T) as [[u r]|] eqn:E; [|reflexivity]. rewrite ctype_eqb_neq; [reflexivity|].
    destruct T; cbn in E; try discriminate E; injection E as <- _; congruence. }
  rewrite B. destruct T; try reflexivity. rewrite (ctype_eqb_neq (HList T) T) by congruence. reflexivity.
Qed.
Lemma catenate_list T l x : free_catenate (HList T) (HList T) l x = member_append_call T (HList T) l x.
Proof.
  destruct (not_inside T) as (N1 & N2 & N3 & N4). unfold free_catenate, deduced, member_append_call. cbn [deduce]. rewrite ctype_eqb_refl, !viable_one.
  rewrite (ctype_eqb_neq T (HList T)) by exact N2. rewrite as_vector_bound. cbn [as_vector]. rewrite ctype_eqb_refl. cbn.
  destruct (conv T (HList T)) as [[r f]|] eqn:E; [|reflexivity]. cbn [option_map fst].
  destruct (bound (HList T) T) as [q|] eqn:B; [|apply conv_user in E; [subst; reflexivity|exact B]].
  exfalso. apply bound_cases in B as [B|B]; [congruence|]. destruct T; cbn [derived] in B; try discriminate B. apply ctype_eqb_eq in B.
  exact (proj1 (not_inside T) (eq_sym B)).
Qed.
Lemma catenate_none T X l x : X <> T -> X <> HList T -> free_catenate (HList T) X l x = None.
Proof.
  intros N1 N2. unfold free_catenate, deduced. cbn [deduce]. rewrite (ctype_eqb_neq T X) by congruence. destruct X; try reflexivity.
  rewrite ctype_eqb_neq by congruence. reflexivity.
Qed.
Lemma append_item T X l x : bound X (StdVector T) = None -> member_append_call T X l x = match convert T X x with Some t => Some (l ++ [t]) | None => None end.
Proof.
  intros B. unfold member_append_call. rewrite !viable_one, B. unfold convert. destruct (conv T X) as [[r f]|]; reflexivity.
Qed.
Lemma catenate_less T X l x : X <> T -> X <> HList T -> conv T X <> None \/ bound X (StdVector T) <> None ->
  member_append_call T X l x <> None /\ free_catenate (HList T) X l x = None.
Proof.
  intros N1 N2 C. split; [|now apply catenate_none].
  destruct (bound X (StdVector T)) as [q|] eqn:B.
  - assert (E : X = StdVector T).
    { apply bound_cases in B as [B|B]; [exact B|]. destruct X; cbn in B; try discriminate B. apply ctype_eqb_eq in B. congruence. }
    subst X. unfold member_append_call. rewrite !viable_one. unfold bound at 1. rewrite ctype_eqb_refl.
    destruct (conv T (StdVector T)) as [[r f]|] eqn:E; [|discriminate]. cbn [option_map fst].
    assert (B' : bound (StdVector T) T = None) by apply bound_vector.
    apply conv_user in E; [subst|exact B']. discriminate.
  - rewrite append_item by exact B. destruct C as [C|C]; [|congruence]. unfold convert. destruct (conv T X) as [[r f]|]; [discriminate|congruence].
Qed.

(** ** exactly which arguments the functions take *)
Lemma takes T X l x :
  (free_contains (HSet T) X l x <> None <-> X = T) /\ (free_join (HSet T) X l x <> None <-> X = HSet T) /\
  (free_remove_call (HSet T) X l x <> None <-> bound X (StdSet T) <> None) /\
  (free_catenate (HList T) X l x <> None <-> X = T \/ X = HList T).
Proof.
  assert (D : forall A B : ctype, A = B \/ A <> B).
  { intros A B. destruct (ctype_eqb A B) eqn:E; [left; now apply ctype_eqb_eq|right; intros ->; rewrite ctype_eqb_refl in E; discriminate]. }
  split; [|split; [|split]].
  - split; [intros H; destruct (D X T) as [|N]; [assumption|]; exfalso; apply H; now apply contains_none|]. intros ->. rewrite contains_same.
    unfold contains_arg, convert. rewrite (conv_bound T T Identity) by (unfold bound; now rewrite ctype_eqb_refl). discriminate.
  - split; [intros H; destruct (D X (HSet T)) as [|N]; [assumption|]; exfalso; apply H; now apply join_none|]. intros ->. rewrite join_same.
    unfold member_adjoin_call. rewrite as_set_bound. cbn [as_set]. rewrite ctype_eqb_refl. discriminate.
  - split; [intros H B; apply H; now apply remove_none|]. intros B. unfold free_remove_call. rewrite deduced_sets.
    destruct (bound X (StdSet T)); [discriminate|congruence].
  - split.
    + intros H. destruct (D X T) as [|N]; [now left|]. destruct (D X (HList T)) as [|M]; [now right|]. exfalso. apply H. now apply catenate_none.
    + destruct (not_inside T) as (_ & N & _). intros [-> | ->]; unfold free_catenate, deduced; cbn [deduce]; rewrite ?ctype_eqb_refl, ?(ctype_eqb_neq T (HList T) N); [|discriminate].
      destruct T; try discriminate. rewrite ctype_eqb_neq by congruence. discriminate.
Qed.
