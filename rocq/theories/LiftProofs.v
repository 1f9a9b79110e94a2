(** LiftProofs.v -- lemmas for C150. *)
From Verif Require Import Base StdOrd SetModel SetSpec SetProofs MapModel MapSpec MapProofs LiftModel LiftSpec.

Lemma lists {A B : Type} (k : kind A B) (direct : bool) : choose direct (list_ctors (plain k)) = expected (same_kind (fun f l => map f l) k) direct.
Proof. destruct k, direct; reflexivity. Qed.
Lemma arrays {A B : Type} (k : kind A B) (direct : bool) : (direct = true -> somehow k <> None) ->
  choose direct (array_ctors (plain k)) = expected (same_kind (fun f l => map f l) k) direct.
Proof. destruct k, direct; intros H; try reflexivity. exfalso. now apply H. Qed.
Lemma linked {A B : Type} (k : kind A B) (direct : bool) : (direct = false -> match k with Explicit _ => False | _ => True end) -> somehow k <> None ->
  choose direct (linked_ctors (plain k)) = expected (same_kind (fun f l => map f l) k) direct.
Proof. destruct k, direct; intros H H'; try reflexivity; exfalso; auto. Qed.

Lemma fold_map {A B : Type} (ltB : B -> B -> bool) (f : A -> B) l : forall acc,
  fold_left (fun s x => sinsert ltB s (f x)) l acc = fold_left (sinsert ltB) (map f l) acc.
Proof. induction l as [|a l IH]; intros acc; [reflexivity|]. exact (IH _). Qed.


Lemma sinsert_in {B : Type} (ltB : B -> B -> bool) (t y : B) l : In y (sinsert ltB l t) -> y = t \/ In y l.
Proof.
  unfold sinsert. induction l as [|h l IH]; cbn [insert_elem].
  - intros [H|[]]. left. symmetry. exact H.
  - destruct (ltB h t); [|destruct (ltB t h)]; intros H.
    + destruct H as [H|H]; [right; left; exact H|]. destruct (IH H) as [H'|H']; [left; exact H'|right; right; exact H'].
    + destruct H as [H|H]; [left; symmetry; exact H|right; exact H].
    + right. exact H.
Qed.
Lemma set_of_list_in {B : Type} (ltB : B -> B -> bool) (y : B) l : In y (set_of_list ltB l) -> In y l.
Proof.
  unfold set_of_list. assert (H : forall acc, In y (fold_left (sinsert ltB) l acc) -> In y acc \/ In y l).
  { induction l as [|h l IH]; intros acc H; [left; exact H|]. cbn [fold_left] in H. destruct (IH _ H) as [H'|H'].
    - apply sinsert_in in H' as [->|H']; [right; left; reflexivity|left; exact H'].
    - right. right. exact H'. }
  intros H'. destruct (H [] H') as [[]|H'']. exact H''.
Qed.
Lemma set_of_list_image {A B : Type} (ltB : B -> B -> bool) (HO : SWO ltB) (f : A -> B) l : set_image ltB f l (set_of_list ltB (map f l)).
Proof.
  split; [apply set_of_list_sorted; exact HO|]. split.
  - intros y Hy. apply set_of_list_in in Hy. apply in_map_iff in Hy as (a & E & Ha). exists a. split; [exact Ha|symmetry; exact E].
  - intros a Ha. assert (Hc : contains ltB (set_of_list ltB (map f l)) (f a) = true).
    { rewrite set_of_list_contains by exact HO. unfold in_list. apply existsb_exists. exists (f a). split; [apply in_map; exact Ha|apply eqvb_refl; exact HO]. }
    apply contains_true in Hc as (y & Hy & Hq). exists y. split; assumption.
Qed.

Lemma sets {A B : Type} (ltB : B -> B -> bool) (HO : SWO ltB) (k : kind A B) (direct : bool) :
  match (if direct then somehow k else implicitly k) with
  | Some f => exists g, choose direct (set_ctors ltB (plain k)) = Made g /\ forall l, set_image ltB f l (g l)
  | None => choose direct (set_ctors ltB (plain k)) = Absent
  end.
Proof.
  destruct k as [f|f|], direct; cbn [implicitly somehow]; try reflexivity; eexists; (split; [reflexivity|]); intros l;
  try (apply set_of_list_image; exact HO).
  cbn beta. rewrite fold_map. apply set_of_list_image. exact HO.
Qed.
Lemma set_vectors {A B : Type} (ltB : B -> B -> bool) (HO : SWO ltB) (k : kind A B) (direct : bool) :
  match implicitly k with
  | Some f => exists g, choose direct (set_vector_ctors ltB (plain k)) = Made g /\ forall l, set_image ltB f l (g l)
  | None => choose direct (set_vector_ctors ltB (plain k)) = Absent
  end.
Proof.
  destruct k as [f|f|], direct; cbn [implicitly]; try reflexivity; eexists; (split; [reflexivity|]); intros l; apply set_of_list_image; exact HO.
Qed.

(** a map with increasing keys is copied in order *)
Lemma minsert_last {K B : Type} (ltK : K -> K -> bool) (HO : SWO ltK) (p : K * B) m :
  Forall (fun q => ltK (fst q) (fst p) = true) m -> minsert ltK m p = m ++ [p].
Proof.
  unfold minsert, sinsert. induction 1 as [|q m Hq Hm IH]; [reflexivity|]. cbn [insert_elem app]. unfold pltb at 1. rewrite Hq. f_equal. exact IH.
Qed.
Lemma fold_minsert {A B K : Type} (ltK : K -> K -> bool) (HO : SWO ltK) (f : A -> B) (m : list (K * A)) : forall acc,
  StronglySorted (fun p q => ltK (fst p) (fst q) = true) m -> Forall (fun q => Forall (fun p => ltK (fst q) (fst p) = true) m) acc ->
  fold_left (fun m p => minsert ltK m (fst p, f (snd p))) m acc = acc ++ map (fun p => (fst p, f (snd p))) m.
Proof.
  induction m as [|p m IH]; intros acc Hs Ha; cbn [fold_left map]; [now rewrite app_nil_r|].
  inversion Hs as [|a b Hs' Hf]; subst. rewrite minsert_last; [|exact HO|].
  - rewrite IH; [now rewrite <- app_assoc|exact Hs'|]. apply Forall_app. split.
    + eapply Forall_impl; [|exact Ha]. intros q Hq. inversion Hq; assumption.
    + constructor; [exact Hf|constructor].
  - eapply Forall_impl; [|exact Ha]. intros q Hq. inversion Hq; assumption.
Qed.
Lemma maps {A B K : Type} (ltK : K -> K -> bool) (HO : SWO ltK) (k : kind A B) (direct : bool) :
  match implicitly k with
  | Some f => exists g, choose direct (map_ctors ltK (plain k)) = Made g /\
                forall m, StronglySorted (fun p q => ltK (fst p) (fst q) = true) m -> g m = map (fun p => (fst p, f (snd p))) m
  | None => choose direct (map_ctors ltK (plain k)) = Absent
  end.
Proof.
  destruct k as [f|f|], direct; cbn [implicitly]; try reflexivity; eexists; (split; [reflexivity|]); intros m Hm;
  apply (fold_minsert ltK HO f m [] Hm); constructor.
Qed.

Lemma nested_lists {A B : Type} (k : kind A B) n : nested n (plain k) = plain (same_kind (deep_map n) k).
Proof.
  induction n as [|n IH]; [destruct k; reflexivity|]. cbn [nested]. rewrite IH. destruct k; reflexivity.
Qed.

Lemma array_trait {A B : Type} (k : kind A B) : somehow k = None ->
  choose true (array_ctors (plain k)) = Broken /\ trait (choose true (array_ctors (plain k))) = true /\
  forall direct, choose direct (linked_ctors (plain k)) = Broken /\ trait (choose direct (linked_ctors (plain k))) = true.
Proof. destruct k; try discriminate. intros _. repeat split; destruct direct; reflexivity. Qed.
Lemma linked_implicit {A B : Type} (f : A -> B) : implicitly (Explicit f) = None /\ choose false (linked_ctors (plain (Explicit f))) = Made (map f).
Proof. split; reflexivity. Qed.
Lemma explicit_missing {A B K : Type} (ltB : B -> B -> bool) (ltK : K -> K -> bool) (f : A -> B) :
  somehow (Explicit f) = Some f /\
  forall direct, choose direct (set_vector_ctors ltB (plain (Explicit f))) = Absent /\ choose direct (map_ctors ltK (plain (Explicit f))) = Absent.
Proof. split; [reflexivity|]. intros []; split; reflexivity. Qed.

Lemma lvalue_only (A B K : Type) (ltB : B -> B -> bool) (ltK : K -> K -> bool) (e : element A B) (f : A -> B) :
  copy_rvalue e = false -> direct_rvalue e = false -> direct_const e = Some f ->
  choose true (list_ctors e) = Absent /\ choose true (set_vector_ctors ltB e) = Absent /\ choose true (set_ctors ltB e) = Absent /\
  choose true (map_ctors ltK e) = Absent /\
  choose true (array_ctors e) = Broken /\ trait (choose true (array_ctors e)) = true /\ choose true (linked_ctors e) = Made (map f).
Proof.
  intros H1 H2 H3. unfold choose, list_ctors, set_vector_ctors, set_ctors, map_ctors, array_ctors, linked_ctors, usable, convertible, explicitly_convertible.
  cbn. rewrite H1, H2, H3. cbn. repeat split.
Qed.
Lemma rvalue_only {A B K : Type} (ltB : B -> B -> bool) (ltK : K -> K -> bool) (e : element A B) (direct : bool) :
  copy_rvalue e = true -> direct_const e = None ->
  choose direct (list_ctors e) = Broken /\ choose direct (array_ctors e) = Broken /\ choose direct (set_vector_ctors ltB e) = Broken /\
  choose direct (set_ctors ltB e) = Broken /\ choose direct (map_ctors ltK e) = Broken.
Proof.
  intros Hc Hd. unfold list_ctors, array_ctors, set_vector_ctors, set_ctors, map_ctors, explicitly_convertible, convertible.
  rewrite Hc, Hd, andb_false_r. destruct direct; repeat split; destruct (copyable e); reflexivity.
Qed.
Lemma by_direct {A B : Type} (e : element A B) (f g : A -> B) : copy_rvalue e = true -> copy_const e = Some f -> direct_const e = Some g ->
  choose false (list_ctors e) = Made (map g) /\ choose false (array_ctors e) = Made (map g) /\ choose false (linked_ctors e) = Made (map g).
Proof.
  intros Hc _ Hd. unfold list_ctors, array_ctors, linked_ctors, explicitly_convertible, convertible.
  rewrite Hc, Hd, andb_false_r. repeat split.
Qed.

Lemma implicit_only {A B K : Type} (ltB : B -> B -> bool) (ltK : K -> K -> bool) (HB : SWO ltB) (HK : SWO ltK) (k : kind A B) (direct : bool) :
  match implicitly k with
  | Some f => (exists g, choose direct (set_vector_ctors ltB (plain k)) = Made g /\ forall l, set_image ltB f l (g l)) /\
              exists g, choose direct (map_ctors ltK (plain k)) = Made g /\
                forall m, StronglySorted (fun p q => ltK (fst p) (fst q) = true) m -> g m = map (fun p => (fst p, f (snd p))) m
  | None => choose direct (set_vector_ctors ltB (plain k)) = Absent /\ choose direct (map_ctors ltK (plain k)) = Absent
  end.
Proof.
  pose proof (set_vectors ltB HB k direct) as H1. pose proof (maps ltK HK k direct) as H2.
  destruct (implicitly k); split; assumption.
Qed.
