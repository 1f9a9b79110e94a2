(** TupleProofs.v *)
From Verif Require Import Base TupleModel TupleSpec.
From Coq Require Import Permutation Lia.
Open Scope list_scope.

Section P.
Context {V : Type}.
Implicit Types s : nat -> V.

Lemma nodup_nth (xs : list nat) i j x : NoDup xs -> nth_error xs i = Some x -> nth_error xs j = Some x -> i = j.
Proof.
  intros H Hi Hj. eapply NoDup_nth_error; [exact H| |congruence]. apply nth_error_Some. congruence.
Qed.
Lemma assign_untouched (l : list nat) (t : list V) order : forall s z, ~ In z l -> fold_left (assign_elem l t) order s z = s z.
Proof.
  induction order as [|i order IH]; intros s z Hz; [reflexivity|]. cbn. rewrite IH by assumption.
  unfold assign_elem. destruct (nth_error l i) as [x|] eqn:E; [|reflexivity]. destruct (nth_error t i); [|reflexivity].
  apply set_var_neq. intros ->. apply Hz. eapply nth_error_In; eauto.
Qed.
(** an element is left alone by the assignment of the others *)
Lemma assign_others (l : list nat) (t : list V) order i x : NoDup l -> nth_error l i = Some x -> ~ In i order ->
  forall s, fold_left (assign_elem l t) order s x = s x.
Proof.
  intros Hn Hx. induction order as [|j order IH]; intros Hi s; [reflexivity|]. cbn in *. rewrite IH by tauto.
  unfold assign_elem. destruct (nth_error l j) as [y|] eqn:E; [|reflexivity]. destruct (nth_error t j); [|reflexivity].
  apply set_var_neq. intros <-. assert (i = j) by (eapply nodup_nth; eauto). subst. tauto.
Qed.
Lemma assign_elem_done (l : list nat) (t : list V) order i x v : NoDup l -> NoDup order ->
  nth_error l i = Some x -> nth_error t i = Some v -> In i order ->
  forall s, fold_left (assign_elem l t) order s x = v.
Proof.
  intros Hn Ho Hx Hv. induction order as [|j order IH]; intros Hi s; [contradiction|]. cbn.
  inversion Ho as [|? ? Hj Ho']; subst. destruct Hi as [->|Hi].
  - rewrite (assign_others l t order i x Hn Hx Hj). unfold assign_elem. rewrite Hx, Hv. apply set_var_eq.
  - now apply IH.
Qed.
Lemma tuple_assigned order (xs : list nat) (vs : list V) s : NoDup xs -> length vs = length xs -> each_once order (length xs) ->
  assigned xs vs s (tuple_assign order (make_ltuple xs) vs s).
Proof.
  intros Hn HL Ho. split; [exact HL|]. split.
  - intros i x v Hx Hv. apply assign_elem_done with (i := i); auto.
    + eapply Permutation_NoDup; [symmetry; exact Ho|apply seq_NoDup].
    + eapply Permutation_in; [symmetry; exact Ho|]. apply in_seq. split; [lia|]. cbn. apply nth_error_Some.
      unfold make_ltuple in Hx. congruence.
  - intros z Hz. now apply assign_untouched.
Qed.
Lemma pair_assigned x y a b s : x <> y -> assigned [x; y] [a; b] s (pair_assign (make_lpair x y) (a, b) s).
Proof.
  intros H. split; [reflexivity|]. unfold pair_assign, make_lpair. cbn [fst snd]. split.
  - intros [|[|[|i]]] z v Hz Hv; cbn in Hz, Hv; try discriminate; inversion Hz; inversion Hv; subst.
    + rewrite set_var_neq by congruence. apply set_var_eq.
    + apply set_var_eq.
  - intros z Hz. cbn in Hz. rewrite !set_var_neq; auto; intros ->; tauto.
Qed.
Lemma pair_refs_assigned x y u v s : x <> y -> v <> x -> assigned [x; y] [s u; s v] s (pair_assign_refs (make_lpair x y) (make_lpair u v) s).
Proof.
  intros H Hv. pose proof (pair_assigned x y (s u) (s v) s H) as P. unfold pair_assign, pair_assign_refs, make_lpair in *. cbn [fst snd] in *.
  rewrite (set_var_neq s x (s u) v) by exact Hv. exact P.
Qed.
(** references that do not overlap act as their values *)
Lemma refs_as_values (l r : list nat) s : (forall z, In z l -> ~ In z r) -> forall order s1,
  (forall z, In z r -> s1 z = s z) ->
  fold_left (assign_elem_ref l r) order s1 = fold_left (assign_elem l (map s r)) order s1.
Proof.
  intros Hd. induction order as [|i order IH]; intros s1 H1; [reflexivity|]. cbn.
  assert (E : assign_elem_ref l r s1 i = assign_elem l (map s r) s1 i).
  { unfold assign_elem_ref, assign_elem. rewrite nth_error_map. destruct (nth_error l i) as [x|]; [|reflexivity].
    destruct (nth_error r i) as [y|] eqn:Ey; [|reflexivity]. cbn. f_equal. apply H1. eapply nth_error_In; eauto. }
  rewrite E. apply IH. intros z Hz. rewrite <- (H1 z Hz). apply (assign_untouched l (map s r) [i]). intros Hl. exact (Hd z Hl Hz).
Qed.
Lemma tuple_refs_assigned order (xs ys : list nat) s : NoDup xs -> length ys = length xs -> each_once order (length xs) ->
  (forall z, In z xs -> ~ In z ys) ->
  assigned xs (map s ys) s (tuple_assign_refs order (make_ltuple xs) (make_ltuple ys) s).
Proof.
  intros Hn HL Ho Hd. unfold tuple_assign_refs. rewrite (refs_as_values (make_ltuple xs) (make_ltuple ys) s Hd) by auto.
  apply tuple_assigned; auto. now rewrite map_length.
Qed.
(** swapping *)
Lemma lpair_swap x y s : x <> y ->
  pair_assign_refs (make_lpair x y) (make_lpair y x) s x = s y /\ pair_assign_refs (make_lpair x y) (make_lpair y x) s y = s y.
Proof.
  intros H. unfold pair_assign_refs, make_lpair. cbn [fst snd]. rewrite set_var_neq by congruence.
  rewrite !set_var_eq. auto.
Qed.
Lemma permutation_two order : each_once order 2 -> order = [0; 1] \/ order = [1; 0].
Proof.
  unfold each_once. cbn. intros H. pose proof (Permutation_length H) as HL.
  destruct order as [|a [|b [|c order]]]; try discriminate.
  assert (Ha : In a [0; 1]) by (eapply Permutation_in; [exact H|cbn; auto]).
  assert (Hb : In b [0; 1]) by (eapply Permutation_in; [exact H|cbn; auto]).
  assert (Hn : NoDup [a; b]) by (eapply Permutation_NoDup; [symmetry; exact H|]; repeat constructor; cbn; intuition discriminate).
  inversion Hn as [|? ? Hab]; subst. cbn in *. assert (a <> b) by (intros ->; tauto).
  destruct Ha as [<-|[<-|[]]], Hb as [<-|[<-|[]]]; auto; congruence.
Qed.
Lemma ltuple_swap order x y s : x <> y -> each_once order 2 ->
  let s' := tuple_assign_refs order (make_ltuple [x; y]) (make_ltuple [y; x]) s in s' x = s' y.
Proof.
  intros H Ho. destruct (permutation_two order Ho) as [-> | ->]; cbn; unfold assign_elem_ref; cbn;
    repeat (rewrite ?set_var_eq, ?set_var_neq by congruence); reflexivity.
Qed.
End P.
