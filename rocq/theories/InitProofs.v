(** InitProofs.v -- lemmas about InitModel.v *)
From Verif Require Import Base StdOrd SetModel SetSpec SetProofs OverModel OverProofs InitModel InitSpec.

Lemma ty_eqb_true a b : ty_eqb a b = true -> a = b.
Proof. destruct a, b; cbn; try discriminate; try reflexivity. intros H. apply Nat.eqb_eq in H. congruence. Qed.

Section Sets.
  Context {V : Type} (ltb : V -> V -> bool) (HO : SWO ltb).
  Lemma fold_insert_in l : forall acc a, In a (fold_left (sinsert ltb) l acc) -> In a acc \/ In a l.
  Proof.
    induction l as [|h l IH]; intros acc a H; cbn in *; [now left|]. destruct (IH _ _ H) as [H'|H']; [|auto].
    destruct (insert_elem_In _ _ _ _ _ H') as [->|]; auto.
  Qed.
  Lemma set_of_list_in l a : In a (set_of_list ltb l) -> In a l.
  Proof. intros H. destruct (fold_insert_in l [] a H) as [[]|H']; exact H'. Qed.
  Lemma set_of_list_has l a : In a l -> exists b, In b (set_of_list ltb l) /\ eqvb ltb b a = true.
  Proof.
    intros H. apply (contains_true ltb). rewrite (set_of_list_contains ltb HO). unfold in_list. apply existsb_exists.
    exists a. split; [exact H|now apply eqvb_refl].
  Qed.
End Sets.

Lemma safe_iff {V} (fits : ty -> ty -> V -> bool) T (x : member V) : safe fits T x <-> narrowing fits T x = false.
Proof.
  unfold safe, narrowing. destruct (narrows (m_type x) T); cbn [andb]; [|tauto]. rewrite negb_false_iff, !andb_true_iff, orb_true_iff, negb_true_iff.
  destruct (is_float (m_type x)), (is_float T); intuition congruence.
Qed.

Section Init.
  Context (conv gen : ty -> ty -> bool) {V : Type} (ltb : V -> V -> bool) (HO : SWO ltb)
          (cast : ty -> ty -> V -> V) (dflt : ty -> V) (count : ty -> V -> nat) (generated : ty -> ty -> V -> nat -> V)
          (fits : ty -> ty -> V -> bool).
  Notation convertible := (convertible conv).
  Notation lossless := (lossless fits).
  Notation members := (members cast).
  Notation set_of_members := (set_of_members ltb cast).
  Notation list_init := (list_init conv cast dflt count fits).
  Notation array_init := (array_init conv gen cast dflt count generated fits).
  Notation set_init := (set_init conv ltb cast fits).
  Notation linked_init := (linked_init conv cast dflt count fits).

  Lemma converts_all T (xs : list (member V)) : convertible T xs -> forallb (converts conv T) xs = true.
  Proof.
    intros H. apply forallb_forall. intros x Hx. unfold converts. specialize (H x Hx). destruct (implicit conv (m_type x) T); congruence.
  Qed.
  Lemma from_list_ok T (xs : list (member V)) : lossless T xs -> from_list cast fits T xs = Elements (members T xs).
  Proof.
    intros H. unfold from_list. replace (existsb _ xs) with false; [reflexivity|]. symmetry. apply not_true_is_false. rewrite existsb_exists.
    intros (x & Hx & Hn). rewrite (proj1 (safe_iff fits T x) (H x Hx)) in Hn. discriminate.
  Qed.
  Lemma from_list_bad T (xs : list (member V)) : ~ lossless T xs -> from_list cast fits T xs = DoesNotCompile.
  Proof.
    intros H. unfold from_list. destruct (existsb (narrowing fits T) xs) eqn:E; [reflexivity|]. exfalso. apply H. intros x Hx. apply safe_iff.
    destruct (narrowing fits T x) eqn:N; [|reflexivity]. enough (existsb (narrowing fits T) xs = true) by congruence.
    apply existsb_exists. eauto.
  Qed.
  Lemma sequences T (xs : list (member V)) : convertible T xs ->
    (lossless T xs -> list_init T xs = Elements (members T xs) /\ array_init T xs = Elements (members T xs)) /\
    (~ lossless T xs -> list_init T xs = DoesNotCompile /\ array_init T xs = DoesNotCompile).
  Proof.
    intros H. unfold InitModel.list_init, InitModel.array_init. rewrite (converts_all T xs H).
    split; intros L; [rewrite from_list_ok by exact L|rewrite from_list_bad by exact L]; split; reflexivity.
  Qed.

  (** ** sets *)
  Lemma ranked T (xs : list (member V)) : convertible T xs -> exists r, list_rank conv T xs = Some r.
  Proof.
    induction xs as [|x xs IH]; intros H; cbn; [eauto|]. destruct IH as (q & ->). { intros y Hy. apply H. now right. }
    pose proof (H x (or_introl eq_refl)) as Hx. destruct (implicit conv (m_type x) T); [eauto|congruence].
  Qed.
  Lemma made_set T (xs : list (member V)) : set_of_members T xs (set_of_list ltb (members T xs)).
  Proof.
    split; [apply set_of_list_sorted; exact HO|]. split.
    - intros a Ha. now apply (set_of_list_in ltb) in Ha.
    - intros a Ha. now apply set_of_list_has.
  Qed.
  Lemma rank_T T (xs : list (member V)) : (forall x, In x xs -> m_type x = T) -> list_rank conv T xs = Some Identity.
  Proof.
    induction xs as [|x xs IH]; intros H; cbn; [reflexivity|]. rewrite (H x (or_introl eq_refl)). unfold implicit. rewrite ty_eqb_refl.
    rewrite IH; [reflexivity|]. intros y Hy. apply H. now right.
  Qed.
  Lemma common_all X (xs : list (member V)) : all_of X xs -> common_type xs = Some X.
  Proof.
    intros [Hne H]. destruct xs as [|x xs]; [contradiction|]. cbn. rewrite (H x (or_introl eq_refl)).
    replace (forallb _ xs) with true; [reflexivity|]. symmetry. apply forallb_forall. intros y Hy. rewrite (H y (or_intror Hy)). apply ty_eqb_refl.
  Qed.
  Lemma common_some X (xs : list (member V)) : common_type xs = Some X -> all_of X xs.
  Proof.
    destruct xs as [|x xs]; cbn; [discriminate|]. destruct (forallb _ xs) eqn:E; [|discriminate]. intros [= <-]. split; [discriminate|].
    intros y [<-|Hy]; [reflexivity|]. rewrite forallb_forall in E. specialize (E y Hy). apply ty_eqb_true. exact E.
  Qed.
  Lemma rank_not X T (xs : list (member V)) : all_of X xs -> X <> T -> convertible T xs ->
    exists r, list_rank conv T xs = Some r /\ rank_num r <> 0.
  Proof.
    intros [Hne H] N C. destruct xs as [|x xs]; [contradiction|]. cbn. pose proof (C x (or_introl eq_refl)) as Cx. rewrite (H x (or_introl eq_refl)) in *.
    destruct (ranked T xs) as (q & ->). { intros y Hy. apply C. now right. }
    assert (R : forall r, implicit conv X T = Some r -> rank_num r <> 0).
    { unfold implicit. rewrite ty_eqb_neq by exact N. intros r. destruct (is_class X || is_class T); [destruct (conv X T)|destruct (promotes X T)];
        intros [= <-]; cbn; discriminate. }
    destruct (implicit conv X T) as [r|]; [|congruence]. exists (rank_max r q). split; [reflexivity|]. specialize (R r eq_refl). unfold rank_max.
    destruct (Nat.leb_spec (rank_num r) (rank_num q)); lia.
  Qed.
  Lemma set_other T X (xs : list (member V)) : all_of X xs -> X <> T -> convertible T xs ->
    set_init T xs = Elements (set_of_list ltb (members T xs)).
  Proof.
    intros A N C. unfold InitModel.set_init. rewrite (common_all X xs A). destruct (rank_not X T xs A N C) as (r & -> & Hr).
    assert (Cx : implicit conv X T <> None).
    { destruct A as [Hne A]. destruct xs as [|x xs]; [contradiction|]. rewrite <- (A x (or_introl eq_refl)). apply C. now left. }
    destruct (implicit conv X T); [|congruence]. destruct r; cbn in Hr; try lia; reflexivity.
  Qed.
  Lemma set_converts T X (xs : list (member V)) : all_of X xs -> X <> T -> convertible T xs ->
    exists l, set_init T xs = Elements l /\ set_of_members T xs l.
  Proof. intros A N C. eexists. split; [now apply (set_other T X)|apply made_set]. Qed.
  Lemma set_listed T (xs : list (member V)) : convertible T xs -> (forall X, all_of X xs -> X = T) ->
    set_init T xs = match from_list cast fits T xs with Elements l => Elements (set_of_list ltb l) | DoesNotCompile => DoesNotCompile end.
  Proof.
    intros C A. unfold InitModel.set_init. destruct (common_type xs) as [X|] eqn:E.
    - apply common_some in E. pose proof (A X E) as ->. rewrite rank_T by apply E. unfold implicit. rewrite ty_eqb_refl. reflexivity.
    - destruct (ranked T xs C) as (r & ->). reflexivity.
  Qed.
  Lemma sets T (xs : list (member V)) : convertible T xs -> (forall X, all_of X xs -> X = T) ->
    (lossless T xs -> exists l, set_init T xs = Elements l /\ set_of_members T xs l) /\
    (~ lossless T xs -> set_init T xs = DoesNotCompile).
  Proof.
    intros C A. rewrite (set_listed T xs C A). split; intros L.
    - rewrite from_list_ok by exact L. eexists. split; [reflexivity|apply made_set].
    - now rewrite from_list_bad by exact L.
  Qed.
  Lemma set_silent T X (xs : list (member V)) : all_of X xs -> convertible T xs -> ~ lossless T xs ->
    list_init T xs = DoesNotCompile /\ exists l, set_init T xs = Elements l /\ set_of_members T xs l.
  Proof.
    intros A C L. split; [now apply sequences|]. apply (set_converts T X xs A); [|exact C]. intros ->. apply L. intros x Hx. left.
    rewrite (proj2 A x Hx). unfold narrows. rewrite ty_eqb_refl. reflexivity.
  Qed.

  (** ** numbers of elements *)
  Lemma one_count T (x : member V) : implicit conv (m_type x) T = None -> implicit conv (m_type x) TSize <> None -> safe fits TSize x ->
    let l := repeat (dflt T) (count (m_type x) (m_value x)) in list_init T [x] = Elements l /\ array_init T [x] = Elements l.
  Proof.
    intros N S L. unfold InitModel.list_init, InitModel.array_init. cbn [forallb]. unfold converts. rewrite N. cbn [andb]. unfold list_candidates, standard. rewrite N.
    destruct (implicit conv (m_type x) TSize) as [r|]; [|congruence]. cbn. apply safe_iff in L. rewrite L. split; reflexivity.
  Qed.
  Lemma two_count T (n x : member V) : implicit conv (m_type n) T = None -> implicit conv (m_type n) TSize <> None -> safe fits TSize n ->
    implicit conv (m_type x) T <> None -> safe fits T x -> gen (m_type x) T = false ->
    let l := repeat (cast (m_type x) T (m_value x)) (count (m_type n) (m_value n)) in list_init T [n; x] = Elements l /\ array_init T [n; x] = Elements l.
  Proof.
    intros N S L C M G. assert (D : ty_eqb (m_type n) (m_type x) = false).
    { destruct (ty_eqb (m_type n) (m_type x)) eqn:E; [|reflexivity]. apply ty_eqb_true in E. rewrite E in N. contradiction. }
    unfold InitModel.list_init, InitModel.array_init. cbn [forallb]. unfold converts. rewrite N. cbn [andb]. unfold list_fill, array_candidates. rewrite G, D.
    destruct (implicit conv (m_type n) TSize) as [r|]; [|congruence]. destruct (implicit conv (m_type x) T) as [q|]; [|congruence].
    cbn. apply safe_iff in L, M. rewrite L, M. split; reflexivity.
  Qed.

  (** ** linked lists *)
  Lemma linked_one T (x : member V) : implicit conv (m_type x) TUInt <> None -> safe fits TUInt x ->
    linked_init T [x] = Elements (repeat (dflt T) (count (m_type x) (m_value x))).
  Proof. intros S L. cbn. destruct (implicit conv (m_type x) TUInt); [|congruence]. cbn. apply safe_iff in L. now rewrite L. Qed.
  Lemma linked_two T X (n x : member V) : m_type n = X -> m_type x = X -> implicit conv X TSize <> None -> implicit conv X T <> None -> ~ (X = TUInt /\ T = TUInt) ->
    linked_init T [n; x] = Elements (repeat (cast X T (m_value x)) (count X (m_value n))).
  Proof. intros N E S C D. cbn. rewrite N, E. now apply linked_fill_copies. Qed.
  Lemma linked_mixed T (n x : member V) : m_type n <> m_type x -> linked_init T [n; x] = DoesNotCompile.
  Proof. intros D. cbn. apply linked_fill_fails. now left. Qed.
  Lemma linked_more T (x y z : member V) xs : linked_init T (x :: y :: z :: xs) = DoesNotCompile.
  Proof. reflexivity. Qed.
End Init.
