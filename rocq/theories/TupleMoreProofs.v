(** TupleMoreProofs.v -- lemmas about TupleMoreModel.v. *)
From Verif Require Import Base TupleModel TupleSpec TupleProofs TupleMoreModel TupleMoreSpec.
From Coq Require Import Permutation Lia.
Open Scope list_scope.
Open Scope nat_scope.

Section Get.
Context {V : Type}.
Implicit Types m : @memory V.

Lemma getter_std k g t c : nth_error getters k = Some g -> g t c = std_get k t c.
Proof.
  intro H. destruct k as [|[|[|[|[|k]]]]]; cbn in H; try (injection H as <-; reflexivity). destruct k; discriminate H.
Qed.
Lemma get_object k g t c e : nth_error getters k = Some g -> nth_error t k = Some e -> exists c', g t c = Some (object e, c').
Proof. intros Hg He. rewrite (getter_std k g t c Hg). unfold std_get. rewrite He. destruct e; eexists; reflexivity. Qed.
Lemma get_none k g t c : nth_error getters k = Some g -> (g t c = None <-> length t <= k).
Proof.
  intros Hg. rewrite (getter_std k g t c Hg). unfold std_get. rewrite <- nth_error_None.
  destruct (nth_error t k) as [[]|]; split; intro H; congruence.
Qed.
Lemma get_assign k g t c e r (v : V) : nth_error getters k = Some g -> nth_error t k = Some e -> g t c = Some r ->
  (assign r v <> None <-> writable e c).
Proof.
  intros Hg He. rewrite (getter_std k g t c Hg). unfold std_get. rewrite He.
  destruct e, c; intro E; injection E as <-; cbn; split; intro H; try exact I; try discriminate; try contradiction; now destruct (H eq_refl).
Qed.
Lemma get_assign_effect k g t c e r (v : V) f m : nth_error getters k = Some g -> nth_error t k = Some e -> g t c = Some r ->
  assign r v = Some f -> m (object e) <> None ->
  exists m', f m = Ret tt m' /\ m' (object e) = Some v /\ forall b, b <> object e -> m' b = m b.
Proof.
  intros Hg He Hr Ha Hm. destruct (get_object k g t c e Hg He) as [c' E]. rewrite Hr in E. injection E as ->. unfold assign in Ha. cbn [fst snd] in Ha.
  destruct c'; try discriminate Ha. injection Ha as <-. destruct (m (object e)) as [w|]; [|congruence].
  eexists. split; [reflexivity|]. split; [apply set_var_eq|]. intros b Hb. apply set_var_neq. exact Hb.
Qed.
Lemma get_initialise k g t c e r (left v : V) m : nth_error getters k = Some g -> nth_error t k = Some e -> g t c = Some r ->
  m (object e) = Some v ->
  exists m', initialise r left m = Ret v m' /\ (forall b, b <> object e -> m' b = m b) /\
  (given_away e c -> m' (object e) = Some left) /\ (~ given_away e c -> m' (object e) = Some v).
Proof.
  intros Hg He. rewrite (getter_std k g t c Hg). unfold std_get. rewrite He. unfold initialise.
  destruct e as [a|a|a], c; intros E Hm; injection E as <-; cbn [fst snd object given_away] in *; rewrite Hm; eexists; (split; [reflexivity|]).
  all: split; [intros b Hb; try rewrite set_var_neq by exact Hb; reflexivity|].
  all: split; intro H; try rewrite set_var_eq; try reflexivity; try exact Hm; try contradiction; destruct (H I).
Qed.

Lemma destroy_other (t : list element) : forall m a, (forall e, In e t -> is_own e -> object e <> a) -> destroy t m a = m a.
Proof.
  unfold destroy. induction t as [|e t IH]; intros m a H; [reflexivity|]. cbn [fold_left]. rewrite IH by (intros x Hx; apply H; right; exact Hx).
  destruct e as [b|b|b]; try reflexivity. apply set_var_neq. intros ->. exact (H (Own b) (or_introl eq_refl) I eq_refl).
Qed.
Lemma destroy_none (t : list element) : forall m a, m a = None -> destroy t m a = None.
Proof.
  unfold destroy. induction t as [|e t IH]; intros m a H; [exact H|]. cbn [fold_left]. apply IH. destruct e as [b|b|b]; try exact H.
  unfold set_var. destruct (Nat.eqb_spec a b); [reflexivity|exact H].
Qed.
Lemma destroy_own (t : list element) : forall m a, In (Own a) t -> destroy t m a = None.
Proof.
  induction t as [|e t IH]; intros m a H; [contradiction|]. destruct H as [->|H].
  - unfold destroy. cbn [fold_left]. apply (destroy_none t). apply set_var_eq.
  - unfold destroy in *. cbn [fold_left]. apply IH. exact H.
Qed.
Lemma get_lifetime k g t c e r (v : V) m : nth_error getters k = Some g -> nth_error t k = Some e -> g t c = Some r ->
  (forall e', In e' t -> is_own e' -> e' <> e -> object e' <> object e) -> m (object e) = Some v ->
  (is_own e -> read r (destroy t m) = Ub UbDangling) /\ (~ is_own e -> read r (destroy t m) = Ret v (destroy t m)).
Proof.
  intros Hg He Hr Hd Hm. destruct (get_object k g t c e Hg He) as [c' E]. rewrite Hr in E. injection E as ->. unfold read. cbn [fst]. split; intro H.
  - destruct e as [a| |]; try contradiction. cbn [object]. rewrite (destroy_own t m a (nth_error_In _ _ He)). reflexivity.
  - rewrite destroy_other; [rewrite Hm; reflexivity|]. intros e' I' O'. apply Hd; auto. intros ->. contradiction.
Qed.
End Get.

Section Throwing.
Context {V : Type} (fails : nat -> option (exn * V)).
Implicit Types s : nat -> V.

Lemma throwing_quiet (l : list nat) (t : list V) order : (forall i, In i order -> fails i = None) -> forall s,
  tuple_assign_throwing fails order l t s = Ret tt (tuple_assign order l t s).
Proof.
  induction order as [|i order IH]; intros H s; [reflexivity|]. cbn [tuple_assign_throwing]. unfold bind, assign_or_throw at 1.
  unfold tuple_assign. cbn [fold_left]. unfold assign_elem at 2. rewrite (H i (or_introl eq_refl)).
  destruct (nth_error l i), (nth_error t i); apply IH; intros j J; apply H; right; exact J.
Qed.
Lemma throwing_app (l : list nat) (t : list V) a b s :
  tuple_assign_throwing fails (a ++ b) l t s = (tuple_assign_throwing fails a l t ;;; tuple_assign_throwing fails b l t)%M s.
Proof.
  revert s. induction a as [|i a IH]; intro s; [reflexivity|]. cbn [app tuple_assign_throwing]. unfold bind at 1 2 3.
  destruct (assign_or_throw fails l t i s); try reflexivity. rewrite IH. reflexivity.
Qed.

Lemma throwing_stops (xs : list nat) (vs : list V) before i after e w x s :
  NoDup xs -> length vs = length xs -> each_once (before ++ i :: after) (length xs) ->
  (forall j, In j before -> fails j = None) -> fails i = Some (e, w) -> nth_error xs i = Some x ->
  exists s', tuple_assign_throwing fails (before ++ i :: after) (make_ltuple xs) vs s = Exc e s' /\ s' x = w /\
  (forall j y v, In j before -> nth_error xs j = Some y -> nth_error vs j = Some v -> s' y = v) /\
  (forall j y, In j after -> nth_error xs j = Some y -> s' y = s y) /\
  (forall z, ~ In z xs -> s' z = s z).
Proof.
  intros ND HL HO HB HF HX. rewrite throwing_app. unfold bind. rewrite throwing_quiet by exact HB. cbn [tuple_assign_throwing].
  unfold bind, assign_or_throw at 1. unfold make_ltuple. rewrite HX, HF.
  assert (Hi : i < length xs) by (apply nth_error_Some; congruence).
  destruct (nth_error vs i) as [v|] eqn:Hv; [|apply nth_error_None in Hv; lia].
  assert (NO : NoDup (before ++ i :: after)) by (eapply Permutation_NoDup; [symmetry; exact HO|apply seq_NoDup]).
  assert (NB : NoDup before).
  { clear -NO. induction before as [|b l IH]; [constructor|]. cbn in NO. inversion NO as [|? ? N1 N2]; subst. constructor.
    - intro K. apply N1. apply in_app_iff. left. exact K.
    - apply IH. exact N2. }
  pose proof (NoDup_remove_2 _ _ _ NO) as NI.
  eexists. split; [reflexivity|]. split; [apply set_var_eq|]. split; [|split].
  - intros j y u J Hy Hu. rewrite set_var_neq.
    + unfold tuple_assign. apply (assign_elem_done xs vs before j y u ND NB Hy Hu J).
    + intros ->. assert (i = j) by exact (nodup_nth xs i j _ ND HX Hy). subst. apply NI. apply in_app_iff. left. exact J.
  - intros j y J Hy. assert (Nij : ~ In j before).
    { intro K. apply in_split in K as (b1 & b2 & ->). apply in_split in J as (a1 & a2 & ->). clear -NO.
      rewrite <- app_assoc in NO. cbn in NO. apply NoDup_remove_2 in NO. apply NO. apply in_app_iff. right. apply in_app_iff. right. right.
      apply in_app_iff. right. left. reflexivity. }
    rewrite set_var_neq.
    + unfold tuple_assign. apply (assign_others xs vs before j y ND Hy Nij).
    + intros ->. assert (i = j) by exact (nodup_nth xs i j _ ND HX Hy). subst. apply NI. apply in_app_iff. right. exact J.
  - intros z Hz. rewrite set_var_neq; [apply assign_untouched; exact Hz|]. intros ->. apply Hz. eapply nth_error_In; eauto.
Qed.

(** the first assignment stays when the second throws, even if that one leaves its variable alone *)
Lemma throwing_second (xs : list nat) (vs : list V) i j after e x y v s :
  NoDup xs -> length vs = length xs -> each_once (i :: j :: after) (length xs) ->
  nth_error xs i = Some x -> nth_error vs i = Some v -> nth_error xs j = Some y ->
  fails i = None -> fails j = Some (e, s y) -> v <> s x ->
  exists s', tuple_assign_throwing fails (i :: j :: after) (make_ltuple xs) vs s = Exc e s' /\ s' x = v /\ s' x <> s x /\
  (forall z, z <> x -> s' z = s z).
Proof.
  intros ND HL HO Hx Hv Hy Fi Fj Hd.
  destruct (throwing_stops xs vs [i] j after e (s y) y s ND HL HO) as (s' & E & E1 & E2 & E3 & E4);
    [intros k [<-|[]]; exact Fi|exact Fj|exact Hy|].
  exists s'. split; [exact E|]. assert (Ex : s' x = v) by (apply (E2 i x v); [left; reflexivity|exact Hx|exact Hv]).
  split; [exact Ex|]. split; [congruence|]. intros z Hz.
  destruct (in_dec Nat.eq_dec z xs) as [I|N]; [|exact (E4 z N)]. apply In_nth_error in I as [k Hk].
  assert (Ik : In k (i :: j :: after)).
  { eapply Permutation_in; [symmetry; exact HO|]. apply in_seq. split; [lia|]. cbn. apply nth_error_Some. congruence. }
  destruct Ik as [<-|[<-|Ik]]; [congruence| |exact (E3 k z Ik Hk)]. assert (z = y) by congruence. subst. exact E1.
Qed.
Lemma pair_throwing_second x y a b e s : x <> y -> fails 0 = None -> fails 1 = Some (e, s y) -> a <> s x ->
  exists s', pair_assign_throwing fails (make_lpair x y) (a, b) s = Exc e s' /\ s' x = a /\ s' x <> s x /\ (forall z, z <> x -> s' z = s z).
Proof.
  intros Hxy F0 F1 Ha. unfold pair_assign_throwing, bind, assign_or_throw, make_lpair. cbn [fst snd nth_error]. rewrite F0, F1.
  eexists. split; [reflexivity|]. rewrite set_var_neq by exact Hxy. rewrite set_var_eq. split; [reflexivity|]. split; [exact Ha|].
  intros z Hz. destruct (Nat.eq_dec z y) as [->|Hn]; [apply set_var_eq|]. rewrite set_var_neq by exact Hn. apply set_var_neq. exact Hz.
Qed.
Lemma pair_throwing x y a b s : x <> y ->
  (fails 0 = None -> fails 1 = None -> pair_assign_throwing fails (make_lpair x y) (a, b) s = Ret tt (pair_assign (make_lpair x y) (a, b) s)) /\
  (forall e w, fails 0 = Some (e, w) ->
    exists s', pair_assign_throwing fails (make_lpair x y) (a, b) s = Exc e s' /\ s' x = w /\ (forall z, z <> x -> s' z = s z)) /\
  (forall e w, fails 0 = None -> fails 1 = Some (e, w) ->
    exists s', pair_assign_throwing fails (make_lpair x y) (a, b) s = Exc e s' /\ s' x = a /\ s' y = w /\ (forall z, z <> x -> z <> y -> s' z = s z)).
Proof.
  intros Hxy. unfold pair_assign_throwing, bind, assign_or_throw, make_lpair, pair_assign. cbn [fst snd nth_error]. split; [|split].
  - intros -> ->. reflexivity.
  - intros e w ->. eexists. split; [reflexivity|]. split; [apply set_var_eq|]. intros z Hz. now apply set_var_neq.
  - intros e w -> ->. eexists. split; [reflexivity|]. rewrite set_var_neq by exact Hxy. rewrite !set_var_eq. split; [reflexivity|]. split; [reflexivity|].
    intros z H1 H2. rewrite set_var_neq by exact H2. now apply set_var_neq.
Qed.
End Throwing.
