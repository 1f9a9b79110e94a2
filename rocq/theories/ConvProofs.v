(** ConvProofs.v -- lemmas for ConvProps.v *)
From Verif Require Import Base StdOrd SetModel SetSpec SetProofs OverModel ConvModel ConvSpec.

(** ** the order *)
Section Ind.
  Context (P : val -> Prop) (Hn : forall z, P (VNum z)) (Hs : forall l, Forall P l -> P (VSeq l)).
  Fixpoint val_rec2 (v : val) : P v :=
    match v with
    | VNum z => Hn z
    | VSeq l => Hs l ((fix go l := match l return Forall P l with [] => Forall_nil P | x :: l' => Forall_cons x (val_rec2 x) (go l') end) l)
    end.
End Ind.
Fixpoint list_cmp (l m : list val) : comparison :=
  match l, m with
  | [], [] => Eq
  | [], _ => Lt
  | _, [] => Gt
  | x :: l', y :: m' => match val_cmp x y with Eq => list_cmp l' m' | c => c end
  end.
Lemma cmp_seq l m : val_cmp (VSeq l) (VSeq m) = list_cmp l m.
Proof.
  reflexivity.
Qed.
Lemma cmp_eq a : forall b, val_cmp a b = Eq <-> a = b.
Proof.
  induction a as [z|l IH] using val_rec2; intros [y|m]; try (cbn; split; discriminate).
  - cbn. rewrite Z.compare_eq_iff. split; congruence.
  - rewrite cmp_seq. enough (H : list_cmp l m = Eq <-> l = m) by (rewrite H; split; congruence).
    revert m. induction IH as [|x l Hx _ IHl]; intros [|y m]; cbn; try (split; discriminate); [split; reflexivity|].
    destruct (val_cmp x y) eqn:E.
    + apply Hx in E. subst. rewrite IHl. split; congruence.
    + split; [discriminate|]. intros [= -> _]. rewrite (proj2 (Hx y) eq_refl) in E. discriminate.
    + split; [discriminate|]. intros [= -> _]. rewrite (proj2 (Hx y) eq_refl) in E. discriminate.
Qed.
Lemma cmp_opp a : forall b, val_cmp b a = CompOpp (val_cmp a b).
Proof.
  induction a as [z|l IH] using val_rec2; intros [y|m]; try reflexivity.
  - cbn. now rewrite Z.compare_antisym.
  - rewrite !cmp_seq. revert m. induction IH as [|x l Hx _ IHl]; intros [|y m]; try reflexivity. cbn. rewrite Hx.
    destruct (val_cmp x y); try reflexivity. apply IHl.
Qed.
Lemma cmp_trans a : forall b c, val_cmp a b = Lt -> val_cmp b c = Lt -> val_cmp a c = Lt.
Proof.
  induction a as [z|l IH] using val_rec2; intros [y|m] [x|k]; try (cbn; congruence).
  - cbn. rewrite !Z.compare_lt_iff. lia.
  - rewrite !cmp_seq. revert m k. induction IH as [|a l Ha _ IHl]; intros [|b m] [|c k]; cbn; try congruence.
    destruct (val_cmp a b) eqn:E1; try discriminate.
    + apply cmp_eq in E1. subst. destruct (val_cmp b c); try discriminate; auto. apply IHl.
    + intros _. destruct (val_cmp b c) eqn:E2; try discriminate.
      * apply cmp_eq in E2. subst. now rewrite E1.
      * now rewrite (Ha b c E1 E2).
Qed.
Lemma eqv_eq a b : eqvb val_ltb a b = true <-> a = b.
Proof.
  unfold eqvb, val_ltb. rewrite (cmp_opp a b). split.
  - destruct (val_cmp a b) eqn:E; cbn; try discriminate. intros _. now apply cmp_eq.
  - intros ->. now rewrite (proj2 (cmp_eq b b) eq_refl).
Qed.
Lemma val_swo : SWO val_ltb.
Proof.
  split.
  - intros a. unfold val_ltb. now rewrite (proj2 (cmp_eq a a) eq_refl).
  - intros a b c. unfold val_ltb. destruct (val_cmp a b) eqn:E1; try discriminate. destruct (val_cmp b c) eqn:E2; try discriminate.
    now rewrite (cmp_trans a b c E1 E2).
  - intros a b c H1 H2. apply eqv_eq in H1, H2. subst. now apply eqv_eq.
Qed.
Lemma contains_In l x : contains val_ltb l x = true <-> In x l.
Proof.
  rewrite contains_true. split.
  - intros (e & H & E). apply eqv_eq in E. now subst.
  - intros H. exists x. split; [exact H|now apply eqv_eq].
Qed.

(** ** types *)
Lemma ctype_eqb_eq a : forall b, ctype_eqb a b = true <-> a = b.
Proof. induction a; intros []; cbn; try (split; [discriminate|congruence]); try tauto; rewrite IHa; split; congruence. Qed.
Lemma ctype_eqb_refl a : ctype_eqb a a = true.
Proof. now apply ctype_eqb_eq. Qed.
Fixpoint sdepth (t : ctype) : nat :=
  match t with Num | StdString | HString => 0 | StdVector t | HList t => sdepth t | StdSet t | HSet t => S (sdepth t) end.
Lemma bound_cases X T r : bound X T = Some r -> X = T \/ derived X T = true.
Proof.
  unfold bound. destruct (ctype_eqb X T) eqn:E; [left; now apply ctype_eqb_eq|]. destruct (derived X T); [auto|discriminate].
Qed.
Lemma derived_cases D B : derived D B = true ->
  (D = HString /\ B = StdString) \/ (exists t, D = HList t /\ B = StdVector t) \/ (exists t, D = HSet t /\ B = StdSet t).
Proof.
  destruct D, B; cbn; try discriminate; intros H; try apply ctype_eqb_eq in H; subst; eauto.
Qed.
Lemma bound_depth X T r : bound X T = Some r -> sdepth X = sdepth T.
Proof.
  intros H. apply bound_cases in H as [->|H]; [reflexivity|].
  apply derived_cases in H as [[-> ->]|[(t & -> & ->)|(t & -> & ->)]]; reflexivity.
Qed.
Lemma viable_one {C} (c : C) t o : viable c t [o] = match o with Some r => [mkCand c t [r]] | None => [] end.
Proof. now destruct o. Qed.
Lemma conv_depth T : forall X r f, conv T X = Some (r, f) -> sdepth X <= sdepth T.
Proof.
  induction T as [| | |t IH|t IH|t IH|t IH]; intros X r f; cbn [conv]; destruct (bound X _) as [r0|] eqn:B;
    try (intros _; rewrite (bound_depth _ _ _ B); lia); try discriminate.
  - destruct X; try discriminate. intros _. cbn. lia.
  - cbv zeta. rewrite !viable_one.
    destruct (bound X (StdVector t)) as [r1|] eqn:B1; [apply bound_depth in B1; cbn in *; lia|].
    destruct (bound X t) as [r2|] eqn:B2; [apply bound_depth in B2; cbn in *; lia|].
    destruct (as_vector X) as [[u r3]|] eqn:V; [|discriminate].
    destruct (conv t u) as [[r4 g]|] eqn:E; [|discriminate]. intros _. apply IH in E.
    destruct X; try discriminate V; injection V as <- _; cbn in *; lia.
  - destruct (as_vector X) as [[u r1]|] eqn:V.
    + destruct (conv t u) as [[r2 g]|] eqn:E; [|discriminate]. intros _. apply IH in E.
      destruct X; try discriminate V; injection V as <- _; cbn in *; lia.
    + destruct (as_set X) as [[u r1]|] eqn:V'; [|discriminate]. destruct (conv t u) as [[r2 g]|] eqn:E; [|discriminate]. intros _. apply IH in E.
      destruct X; try discriminate V'; injection V' as <- _; cbn in *; lia.
Qed.
Lemma set_not_one T X r : bound X (StdSet T) = Some r -> conv T X = None.
Proof.
  intros H. apply bound_depth in H. destruct (conv T X) as [[r1 f]|] eqn:E; [|reflexivity]. apply conv_depth in E. cbn in H. lia.
Qed.
Lemma conv_bound T X r : bound X T = Some r -> conv T X = Some (r, fun v => v).
Proof. intros H. destruct T; cbn [conv]; now rewrite H. Qed.
Lemma conv_user T X r f : bound X T = None -> conv T X = Some (r, f) -> r = UserDefined.
Proof.
  intros H. destruct T as [| | |t|t|t|t]; cbn [conv]; rewrite H; try discriminate.
  - destruct X; congruence.
  - cbv zeta. match goal with |- match ?a with _ => _ end = _ -> _ => destruct a as [[]| |] end; try discriminate; try congruence.
    destruct (as_vector X) as [[u r1]|]; [|discriminate]. destruct (conv t u) as [[r2 g]|]; congruence.
  - destruct (match as_vector X with Some _ => _ | None => _ end) as [[u r1]|]; [|discriminate]. destruct (conv t u) as [[r2 g]|]; congruence.
Qed.

(** ** remove *)
Lemma one_without T X x l t : increasing val_ltb l -> convert T X x = Some t -> without T X [x] l (remove_elem val_ltb t l).
Proof.
  intros Hl Ht. destruct (remove_elem_spec val_ltb val_swo t l Hl) as [Hs Hc]. split; [exact Hs|]. intros y.
  rewrite <- !contains_In, Hc, andb_true_iff, negb_true_iff. split; intros [H1 H2]; (split; [exact H1|]).
  - intros x' [<-|[]] E. rewrite Ht in E. injection E as ->. rewrite (proj2 (eqv_eq y y) eq_refl) in H2. discriminate.
  - destruct (eqvb val_ltb t y) eqn:E; [|reflexivity]. apply eqv_eq in E. subst. exfalso. exact (H2 x (or_introl eq_refl) Ht).
Qed.
Lemma one_chosen T X x l : (as_vector X = None \/ bound X T <> None) -> conv T X <> None ->
  remove_arg T X x l = match convert T X x with Some t => Left (remove_elem val_ltb t l) | None => DoesNotCompile end.
Proof.
  intros H Hc. unfold remove_arg. rewrite !viable_one. destruct (conv T X) as [[r f]|] eqn:E; [|congruence].
  destruct (bound X (StdSet T)) eqn:B; [apply set_not_one in B; congruence|]. cbn [option_map fst].
  destruct (as_vector X) as [[u r1]|] eqn:V; [|reflexivity]. destruct H as [H|H]; [discriminate H|].
  destruct (bound X T) as [rb|] eqn:B1; [|congruence]. rewrite (conv_bound _ _ _ B1) in E. injection E as <- _.
  enough (W : r1 = rb \/ (rb = Identity /\ r1 = Conversion)) by (destruct W as [->|[-> ->]]; [destruct rb|]; reflexivity).
  unfold bound in B1. destruct X; try discriminate V; injection V as <- <-.
  - destruct (ctype_eqb (StdVector X) T) eqn:Q; [left; congruence|]. cbn in B1. discriminate.
  - destruct (ctype_eqb (HList X) T) eqn:Q; [right; split; congruence|]. destruct (derived (HList X) T); [left; congruence|discriminate].
Qed.
Lemma value_removed T X x l : increasing val_ltb l -> compiles (contains_arg T X x l) -> as_vector X = None \/ bound X T <> None ->
  exists l', remove_arg T X x l = Left l' /\ without T X [x] l l' /\ contains_arg T X x l' = Some false.
Proof.
  intros Hl Hc H. unfold compiles, contains_arg in *. destruct (convert T X x) as [t|] eqn:E; [|congruence].
  assert (N : conv T X <> None) by (unfold convert in E; destruct (conv T X); congruence).
  rewrite (one_chosen T X x l H N), E. eexists. split; [reflexivity|]. pose proof (one_without T X x l t Hl E) as W. split; [exact W|]. f_equal.
  destruct (contains val_ltb (remove_elem val_ltb t l) t) eqn:C; [|reflexivity]. apply contains_In in C. apply (proj2 W) in C as [_ C].
  exfalso. exact (C x (or_introl eq_refl) E).
Qed.
Lemma items_chosen T X u r x l : as_vector X = Some (u, r) -> bound X T = None -> remove_arg T X x l = remove_items T u (items x) l.
Proof.
  intros V B. unfold remove_arg. rewrite !viable_one, V. cbn [option_map snd].
  assert (S : bound X (StdSet T) = None).
  { destruct (bound X (StdSet T)) eqn:E; [|reflexivity]. apply bound_cases in E as [->|E]; [discriminate V|].
    apply derived_cases in E as [[-> _]|[(t & _ & E)|(t & -> & _)]]; discriminate. }
  rewrite S. destruct (conv T X) as [[r1 f]|] eqn:E; cbn [option_map fst].
  - apply conv_user in E; [|exact B]. subst. destruct X; try discriminate V; injection V as <- <-; reflexivity.
  - destruct X; try discriminate V; injection V as <- <-; reflexivity.
Qed.
Lemma in_list_In l x : in_list val_ltb l x = true <-> In x l.
Proof. rewrite <- contains_in_list. apply contains_In. Qed.
Lemma items_without T u f xs l : increasing val_ltb l -> conv T u = Some (f) -> without T u xs l (remove_list val_ltb (map (snd f) xs) l).
Proof.
  intros Hl E. destruct f as [r f]. split; [apply fold_erase_sorted; exact Hl|]. intros y. unfold remove_list.
  rewrite <- !contains_In, fold_erase_contains; [|exact val_swo]. rewrite andb_true_iff, negb_true_iff. cbn [snd].
  split; intros [H1 H2]; (split; [exact H1|]).
  - intros x Hx Ex. unfold convert in Ex. rewrite E in Ex. injection Ex as <-.
    rewrite (proj2 (in_list_In _ _) (in_map f _ _ Hx)) in H2. discriminate.
  - destruct (in_list _ _ y) eqn:C; [|reflexivity]. apply in_list_In, in_map_iff in C as (x & <- & Hx). exfalso. apply (H2 x Hx).
    unfold convert. now rewrite E.
Qed.
Lemma items_removed T X u r x l : increasing val_ltb l -> as_vector X = Some (u, r) -> bound X T = None -> derived T u = false ->
  compiles (contains_arg T u x l) -> exists l', remove_arg T X x l = Left l' /\ without T u (items x) l l'.
Proof.
  intros Hl V B D C. rewrite (items_chosen T X u r x l V B). unfold remove_items. rewrite D.
  unfold compiles, contains_arg, convert in C. destruct (conv T u) as [[r1 f]|] eqn:E; [|congruence].
  eexists. split; [reflexivity|]. exact (items_without T u (r1, f) (items x) l Hl E).
Qed.
Lemma set_removed T X x l : increasing val_ltb l -> bound X (StdSet T) <> None ->
  exists l', remove_arg T X x l = Left l' /\ increasing val_ltb l' /\ forall y, In y l' <-> In y l /\ ~ In y (items x).
Proof.
  intros Hl B. unfold remove_arg. rewrite !viable_one. destruct (bound X (StdSet T)) as [r|] eqn:E; [|congruence].
  rewrite (set_not_one T X r E). cbn [option_map].
  assert (V : as_vector X = None).
  { apply bound_cases in E as [->|E]; [reflexivity|]. apply derived_cases in E as [[-> _]|[(t & _ & E)|(t & -> & _)]]; [reflexivity|discriminate|reflexivity]. }
  rewrite V. cbn [option_map app resolve resolve_from forallb c_ctor].
  destruct (erase_other val_ltb val_swo true (items x) l Hl) as (l' & E' & Hs & Hc). unfold member_remove. rewrite E'. exists l'. split; [reflexivity|]. split; [exact Hs|]. intros y.
  rewrite <- !contains_In, Hc. destruct (contains val_ltb l y), (contains val_ltb (items x) y); cbn; intuition congruence.
Qed.
(** ** where it fails *)
Lemma item_list t v : convert (HList t) t v = Some (VSeq [v]).
Proof.
  unfold convert.
  assert (N : forall a, ctype_eqb a (HList a) = false /\ ctype_eqb a (StdVector a) = false).
  { induction a; cbn; try tauto; destruct IHa; auto. }
  assert (B1 : bound t (HList t) = None).
  { unfold bound. rewrite (proj1 (N t)). destruct (derived t (HList t)) eqn:D; [|reflexivity].
    apply derived_cases in D as [[_ D]|[(a & _ & D)|(a & _ & D)]]; discriminate D. }
  assert (B2 : bound t (StdVector t) = None).
  { unfold bound. rewrite (proj2 (N t)). destruct (derived t (StdVector t)) eqn:D; [|reflexivity].
    destruct t; cbn in D; try discriminate D. apply ctype_eqb_eq in D. exfalso.
    assert (S : forall a, a <> HList a) by (induction a; congruence). exact (S t D). }
  cbn [conv]. rewrite B1. cbv zeta. rewrite !viable_one, B2. unfold bound at 1. rewrite ctype_eqb_refl.
  destruct (match as_vector t with Some _ => _ | None => None end) as [[r f]|]; [|reflexivity].
  cbn [option_map fst app]. destruct r; reflexivity.
Qed.
Lemma not_inside a : a <> StdVector a /\ a <> HList a /\ a <> HSet a /\ a <> StdSet a.
Proof. induction a; repeat split; try discriminate; intros H; injection H as H; destruct IHa as (? & ? & ? & ?); congruence. Qed.
Lemma conv_list t X : bound X (HList t) = None -> conv (HList t) X =
  let each := match as_vector X with Some (u, r) => match conv t u with Some (_, f) => Some (r, f) | None => None end | None => None end in
  match resolve (viable FromVector false [bound X (StdVector t)] ++ viable FromVectorOf true [option_map fst each] ++ viable FromItem false [bound X t]), each with
  | Chosen FromVector, _ => Some (UserDefined, fun v => v)
  | Chosen FromVectorOf, Some (_, f) => Some (UserDefined, fun v => VSeq (map f (items v)))
  | Chosen FromItem, _ => Some (UserDefined, fun v => VSeq [v])
  | _, _ => None
  end.
Proof. intros B. cbn [conv]. rewrite B. reflexivity. Qed.
Lemma bound_same t : bound t t = Some Identity.
Proof. unfold bound. now rewrite ctype_eqb_refl. Qed.
Lemma bound_vector t : bound (StdVector t) t = None.
Proof.
  unfold bound. destruct (ctype_eqb (StdVector t) t) eqn:E; [apply ctype_eqb_eq in E; destruct (not_inside t); congruence|].
  replace (derived (StdVector t) t) with false by (destruct t; reflexivity). reflexivity.
Qed.
Lemma vector_list t : conv (HList t) (StdVector t) = Some (UserDefined, fun v => v).
Proof.
  rewrite conv_list; [|reflexivity]. cbv zeta. rewrite !viable_one, bound_same, bound_vector. cbn [as_vector].
  rewrite (conv_bound t t Identity (bound_same t)). reflexivity.
Qed.
Lemma list_stays t x l : increasing val_ltb l -> length (items x) <> 1 ->
  contains_arg (HList t) (StdVector t) x l = Some true ->
  exists l', remove_arg (HList t) (StdVector t) x l = Left l' /\ contains_arg (HList t) (StdVector t) x l' = Some true /\
    forall a, In a (items x) -> ~ In (VSeq [a]) l'.
Proof.
  intros Hl Hn. unfold contains_arg, convert. rewrite vector_list. intros H. injection H as H. apply contains_In in H.
  destruct (items_removed (HList t) (StdVector t) t Identity x l Hl eq_refl) as (l' & E & W).
  - unfold bound. cbn. reflexivity.
  - destruct (derived (HList t) t) eqn:D; [|reflexivity]. apply derived_cases in D as [[D _]|[(a & D & D')|(a & D & _)]]; try discriminate D.
    injection D as ->. destruct (not_inside a). congruence.
  - unfold compiles, contains_arg. rewrite item_list. discriminate.
  - exists l'. split; [exact E|]. split.
    + f_equal. apply contains_In, (proj2 W). split; [exact H|]. intros y _. rewrite item_list. intros Q. injection Q as <-. cbn in Hn. congruence.
    + intros a Ha H'. apply (proj2 W) in H' as [_ H']. exact (H' a Ha (item_list t a)).
Qed.
Lemma set_refused t x l : conv (HSet t) t = None -> derived (HSet t) t = false ->
  compiles (contains_arg (HSet t) (StdVector t) x l) /\ remove_arg (HSet t) (StdVector t) x l = DoesNotCompile.
Proof.
  intros E D. split.
  - unfold compiles, contains_arg, convert. cbn [conv]. unfold bound at 1. cbn. rewrite (conv_bound t t Identity); [discriminate|].
    unfold bound. now rewrite ctype_eqb_refl.
  - rewrite (items_chosen (HSet t) (StdVector t) t Identity x l eq_refl eq_refl). unfold remove_items. now rewrite D, E.
Qed.
Lemma downcast T u X r x l a : derived T u = true -> as_vector X = Some (u, r) -> items x <> [] -> compiles (contains_arg T u a l) /\
  remove_arg T X x l = Undefined.
Proof.
  intros D V Hx. split.
  - apply derived_cases in D as [[-> ->]|[(t & -> & ->)|(t & -> & ->)]]; unfold compiles, contains_arg, convert.
    + cbn. discriminate.
    + rewrite vector_list. discriminate.
    + cbn [conv]. unfold bound at 1. cbn. rewrite (conv_bound t t Identity); [discriminate|]. unfold bound. now rewrite ctype_eqb_refl.
  - assert (B : bound X T = None).
    { destruct (bound X T) eqn:E; [|reflexivity]. exfalso. apply bound_cases in E as [->|E].
      - apply derived_cases in D as [[-> ->]|[(t & -> & ->)|(t & -> & ->)]]; try discriminate V.
        cbn in V. injection V as V _. destruct (not_inside t). congruence.
      - apply derived_cases in E as [[-> _]|[(t & -> & ->)|(t & -> & ->)]]; try discriminate V. cbn in V. injection V as <- _.
        cbn in D. discriminate D. }
    rewrite (items_chosen T X u r x l V B). unfold remove_items. rewrite D. destruct (items x); [congruence|reflexivity].
Qed.
(** ** vectors and lists *)
Lemma same_conv T t v : T <> HList (HList t) -> convert T (StdVector t) v = convert T (HList t) v.
Proof.
  intros H. destruct T as [| | |s|s|s|s]; try reflexivity.
  - unfold convert. cbn [conv]. unfold bound. cbn. destruct (ctype_eqb t s); reflexivity.
  - destruct (ctype_eqb t s) eqn:E.
    + apply ctype_eqb_eq in E. subst. unfold convert. rewrite vector_list, (conv_bound (HList s) (HList s) Identity); [reflexivity|].
      unfold bound. now rewrite ctype_eqb_refl.
    + assert (B1 : bound (StdVector t) (HList s) = None) by reflexivity.
      assert (B2 : bound (HList t) (HList s) = None) by (unfold bound; cbn; now rewrite E).
      unfold convert. rewrite (conv_list s _ B1), (conv_list s _ B2). cbv zeta. rewrite !viable_one. cbn [as_vector].
      replace (bound (StdVector t) (StdVector s)) with (@None rank) by (unfold bound; cbn; now rewrite E).
      replace (bound (HList t) (StdVector s)) with (@None rank) by (unfold bound; cbn; now rewrite E).
      destruct (ctype_eqb s (StdVector t)) eqn:Q.
      * apply ctype_eqb_eq in Q. subst s. assert (N : conv (StdVector t) t = None).
        { cbn [conv]. unfold bound. destruct (not_inside t) as (N1 & _). destruct (ctype_eqb t (StdVector t)) eqn:Q; [apply ctype_eqb_eq in Q; congruence|].
          destruct (derived t (StdVector t)) eqn:Q1; [|reflexivity]. apply derived_cases in Q1 as [[_ Q1]|[(a & -> & Q1)|(a & -> & Q1)]]; try discriminate.
          injection Q1 as Q1. destruct (not_inside a) as (_ & N2 & _). congruence. }
        rewrite N, bound_same. unfold bound. cbn. rewrite ctype_eqb_refl. reflexivity.
      * assert (C1 : bound (StdVector t) s = None).
        { destruct (bound (StdVector t) s) eqn:C; [|reflexivity]. apply bound_cases in C as [<-|C]; [now rewrite ctype_eqb_refl in Q|].
          apply derived_cases in C as [[C _]|[(a & C & _)|(a & C & _)]]; discriminate C. }
        assert (C2 : bound (HList t) s = None).
        { destruct (bound (HList t) s) eqn:C; [|reflexivity]. apply bound_cases in C as [<-|C]; [congruence|].
          apply derived_cases in C as [[C _]|[(a & C & ->)|(a & C & _)]]; try discriminate C. injection C as ->. now rewrite ctype_eqb_refl in Q. }
        rewrite C1, C2. destruct (conv s t) as [[r f]|]; reflexivity.
Qed.
Lemma differ_conv t v : convert (HList (HList t)) (StdVector t) v = Some (VSeq (map (fun a => VSeq [a]) (items v))) /\
  convert (HList (HList t)) (HList t) v = Some (VSeq [v]).
Proof.
  split; [|apply item_list]. unfold convert. rewrite conv_list; [|reflexivity]. cbv zeta. rewrite !viable_one. cbn [as_vector].
  pose proof (item_list t) as I. unfold convert in I. destruct (conv (HList t) t) as [[r f]|] eqn:E; [|discriminate (I v)].
  unfold bound. cbn [ctype_eqb derived option_map fst].
  replace (ctype_eqb t (HList t)) with false.
  2:{ symmetry. destruct (ctype_eqb t (HList t)) eqn:Q; [|reflexivity]. apply ctype_eqb_eq in Q. destruct (not_inside t) as (_ & N & _). congruence. }
  cbn. f_equal. f_equal. apply map_ext. intros a. specialize (I a). congruence.
Qed.

(** ** sets made from vectors, lists and sets *)
Lemma to_set t X u f x : bound X (HSet t) = None -> elements_of X = Some u -> conv t u = Some f ->
  exists l, convert (HSet t) X x = Some (VSeq l) /\ increasing val_ltb l /\
    forall y, In y l <-> exists a, In a (items x) /\ convert t u a = Some y.
Proof.
  intros B E C. destruct f as [r f]. exists (set_of_list val_ltb (map f (items x))). split; [|split].
  - unfold convert. cbn [conv]. rewrite B. destruct X; cbn in E; try discriminate E; injection E as ->; cbn [as_vector as_set]; now rewrite C.
  - apply set_of_list_sorted. exact val_swo.
  - intros y. rewrite <- contains_In, set_of_list_contains, in_list_In, in_map_iff by exact val_swo. unfold convert. rewrite C.
    split; intros (a & H1 & H2); exists a; split; congruence.
Qed.
