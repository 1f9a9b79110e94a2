(** AssignProofs.v -- lemmas for C165. *)
From Verif Require Import Base AssignModel AssignSpec.

Lemma filter_single : forall (A : Type) (p : A -> bool) (l : list A) (y : A),
  filter p l = [y] <-> exists l1 l2, l = l1 ++ y :: l2 /\ p y = true /\ forall z, In z (l1 ++ l2) -> p z = false.
Proof.
  intros A p l. induction l as [| x l IH]; intros y.
  - split; [discriminate |]. intros ([| ? ?] & l2 & H & _); discriminate H.
  - cbn [filter]. destruct (p x) eqn:P.
    + split.
      * intros H. injection H as -> H. exists [], l. split; [reflexivity |]. split; [exact P |]. cbn. intros z Z.
        destruct (p z) eqn:Q; [| reflexivity]. assert (I : In z (filter p l)) by (apply filter_In; auto). rewrite H in I. destruct I.
      * intros (l1 & l2 & E & Y & N). destruct l1 as [| w l1]; cbn in E.
        -- injection E as -> ->. f_equal. cbn in N. clear -N. induction l2 as [| z l2 IH]; [reflexivity |]. cbn. rewrite (N z) by (left; reflexivity).
           apply IH. intros w W. apply N. right. exact W.
        -- injection E as -> ->. specialize (N w (or_introl eq_refl)). congruence.
    + rewrite IH. split.
      * intros (l1 & l2 & -> & Y & N). exists (x :: l1), l2. split; [reflexivity |]. split; [exact Y |]. cbn. intros z [<- | Z]; [exact P | exact (N z Z)].
      * intros (l1 & l2 & E & Y & N). destruct l1 as [| w l1]; cbn in E; injection E as -> ->; [congruence |].
        exists l1, l2. split; [reflexivity |]. split; [exact Y |]. intros z Z. apply N. right. exact Z.
Qed.
Definition least (x : nat * bool) (t : list (nat * bool)) : nat := fold_right (fun y m => Nat.min (fst y) m) (fst x) t.
Lemma least_le : forall (x : nat * bool) (t : list (nat * bool)) (z : nat * bool), In z (x :: t) -> least x t <= fst z.
Proof.
  intros x t z [<- | Z]; unfold least.
  - induction t as [| y t IH]; cbn; lia.
  - induction t as [| y t IH]; [destruct Z |]. cbn. destruct Z as [<- | Z]; [lia | specialize (IH Z); lia].
Qed.
Lemma least_in : forall (x : nat * bool) (t : list (nat * bool)), exists z, In z (x :: t) /\ fst z = least x t.
Proof.
  intros x t. unfold least. induction t as [| y t (z & Z & E)]; [exists x; split; [left |]; reflexivity |]. cbn.
  destruct (Nat.min_spec (fst y) (fold_right (fun y m => Nat.min (fst y) m) (fst x) t)) as [[_ ->] | [_ ->]].
  - exists y. split; [right; left; reflexivity | reflexivity].
  - exists z. split; [| exact E]. destruct Z as [<- | Z]; [left; reflexivity | right; right; exact Z].
Qed.
Lemma best_iff : forall (l : list (nat * bool)) (x : nat * bool),
  best l = Some x <-> exists l1 l2, l = l1 ++ x :: l2 /\ forall z, In z (l1 ++ l2) -> fst x < fst z.
Proof.
  intros l x. destruct l as [| h t].
  - split; [discriminate |]. intros ([| ? ?] & l2 & H & _); discriminate H.
  - unfold best. cbv zeta. change (fold_right (fun y m => Nat.min (fst y) m) (fst h) t) with (least h t).
    set (p := fun y : nat * bool => fst y =? least h t).
    transitivity (filter p (h :: t) = [x]).
    { destruct (filter p (h :: t)) as [| a [| b r]]; split; intros H; try discriminate H; injection H as ->; reflexivity. }
    rewrite filter_single. split; intros (l1 & l2 & E & H).
    + destruct H as [Y N]. exists l1, l2. split; [exact E |]. intros z Z. specialize (N z Z). subst p. cbn in Y, N. apply Nat.eqb_eq in Y. apply Nat.eqb_neq in N.
      assert (L : least h t <= fst z). { apply least_le. rewrite E. apply in_app_or in Z. apply in_or_app. destruct Z; [left | right; right]; assumption. }
      lia.
    + exists l1, l2. split; [exact E |].
      assert (L : fst x = least h t).
      { destruct (least_in h t) as (z & Z & M). assert (X : least h t <= fst x) by (apply least_le; rewrite E; apply in_or_app; right; left; reflexivity).
        rewrite E in Z. apply in_app_or in Z. destruct Z as [Z | [-> | Z]]; [| exact M |].
        - specialize (H z (in_or_app _ _ _ (or_introl Z))). lia.
        - specialize (H z (in_or_app _ _ _ (or_intror Z))). lia. }
      split; [apply Nat.eqb_eq; exact L |]. intros z Z. apply Nat.eqb_neq. specialize (H z Z). lia.
Qed.

Section P.
  Context {F : Type} (conv : F -> nat -> bool).

  Lemma viable_app : forall (c : category) (a b : list (op F)) (f : F), viable c (a ++ b) f = viable c a f ++ viable c b f.
  Proof. intros. unfold viable. apply flat_map_app. Qed.
  Lemma viable_in : forall (ops : list (op F)) (f : F) (z : nat * bool),
    In z (viable Lvalue ops f) <-> exists o, In o ops /\ callable f o (fst z) /\ snd z = is_deleted o.
  Proof.
    intros ops f [r d]. unfold viable, callable. rewrite in_flat_map. split; intros (o & O & H); exists o; (split; [exact O |]).
    - destruct (viable_for Lvalue o) eqn:V; [| destruct H]. destruct (takes o f) as [r' |] eqn:T; [| destruct H]. destruct H as [H | []]. injection H as <- <-.
      split; [split; [| reflexivity] | reflexivity]. intros N. unfold viable_for in V. rewrite N in V. discriminate V.
    - destruct H as [[Q T] D]. cbn in T, D. rewrite T, D. unfold viable_for. destruct (qual o); [left; reflexivity | left; reflexivity | now contradiction Q].
  Qed.
  Lemma viable_split : forall (ops : list (op F)) (f : F) (l1 l2 : list (nat * bool)) (x : nat * bool),
    viable Lvalue ops f = l1 ++ x :: l2 ->
    exists a o b, ops = a ++ o :: b /\ viable Lvalue a f = l1 /\ viable Lvalue b f = l2 /\ callable f o (fst x) /\ snd x = is_deleted o.
  Proof.
    intros ops f. induction ops as [| o ops IH]; intros l1 l2 x E; [destruct l1; discriminate E |].
    change (viable Lvalue (o :: ops) f) with ((if viable_for Lvalue o then match takes o f with Some r => [(r, is_deleted o)] | None => [] end else []) ++ viable Lvalue ops f) in E.
    destruct (viable_for Lvalue o) eqn:Q; [destruct (takes o f) as [r |] eqn:T |]; cbn [app] in E.
    - destruct l1 as [| y l1]; cbn in E.
      + injection E as <- <-. exists [], o, ops. repeat split; try reflexivity; [| exact T]. intros N. unfold viable_for in Q. rewrite N in Q. discriminate Q.
      + injection E as <- E. destruct (IH _ _ _ E) as (a & o' & b & -> & A & B & C). exists (o :: a), o', b. split; [reflexivity |].
        split; [| split; [exact B | exact C]]. unfold viable in *. cbn [flat_map]. rewrite Q, T, A. reflexivity.
    - destruct (IH _ _ _ E) as (a & o' & b & -> & A & B & C). exists (o :: a), o', b. split; [reflexivity |].
      split; [| split; [exact B | exact C]]. unfold viable in *. cbn [flat_map]. rewrite Q, T. exact A.
    - destruct (IH _ _ _ E) as (a & o' & b & -> & A & B & C). exists (o :: a), o', b. split; [reflexivity |].
      split; [| split; [exact B | exact C]]. unfold viable in *. cbn [flat_map]. rewrite Q. exact A.
  Qed.

  Lemma lvalue_iff : forall (u : type F) (f : F), assignment conv u false Lvalue f = true <-> may_assign conv u f.
  Proof.
    intros u f. unfold assignment. cbn [negb andb]. destruct u as [n | ops].
    - split; [apply M_builtin |]. intros H. inversion H; subst. assumption.
    - split.
      + destruct (best (viable Lvalue ops f)) as [[r d] |] eqn:B; [| discriminate]. intros D. apply negb_true_iff in D. subst d.
        apply best_iff in B. destruct B as (l1 & l2 & E & L). destruct (viable_split _ _ _ _ _ E) as (a & o & b & -> & <- & <- & C & D).
        apply M_class with r; [exact C | symmetry; exact D |]. intros o' r' O' C'.
        apply (L (r', is_deleted o')). rewrite <- viable_app. apply viable_in. exists o'. auto.
      + intros H. inversion H as [| l1 o l2 f' r [Q T] D L]; subst.
        assert (B : best (viable Lvalue (l1 ++ o :: l2) f) = Some (r, is_deleted o)).
        { apply best_iff. exists (viable Lvalue l1 f), (viable Lvalue l2 f). split.
          - rewrite viable_app. f_equal. unfold viable. cbn [flat_map]. rewrite T. unfold viable_for. destruct (qual o); [reflexivity | reflexivity | now contradiction Q].
          - intros z Z. rewrite <- viable_app in Z. apply viable_in in Z. destruct Z as (o' & O' & C' & _). exact (L o' (fst z) O' C'). }
        rewrite B, D. reflexivity.
  Qed.

  Lemma same_concepts : forall (T : targ F) (f : F), AssignableFrom conv T f = Assignable conv T f /\ AssignableTo conv f T = Assignable conv T f.
  Proof. split; reflexivity. Qed.
  Lemma const_never : forall (u : type F) (r : reference) (f : F), Assignable conv (mkT u true r) f = false.
  Proof. reflexivity. Qed.
  Lemma reference_iff : forall (u : type F) (f : F), Assignable conv (mkT u false LRef) f = true <-> may_assign conv u f.
  Proof. exact lvalue_iff. Qed.
  Lemma viable_same : forall (ops : list (op F)) (f : F), (forall o, In o ops -> qual o = Unqualified) -> viable Rvalue ops f = viable Lvalue ops f.
  Proof.
    intros ops f H. induction ops as [| o ops IH]; [reflexivity |]. unfold viable in *. cbn [flat_map]. rewrite IH by (intros p P; apply H; right; exact P).
    f_equal. unfold viable_for. rewrite (H o (or_introl eq_refl)). reflexivity.
  Qed.
  Lemma class_iff : forall (ops : list (op F)) (ref : reference) (f : F), (forall o, In o ops -> qual o = Unqualified) ->
    (Assignable conv (mkT (Class ops) false ref) f = true <-> may_assign conv (Class ops) f).
  Proof.
    intros ops ref f H. rewrite <- lvalue_iff. unfold Assignable, is_assignable, assignment. cbn [base is_const AssignModel.ref].
    destruct ref; cbn [declval_category]; rewrite ?(viable_same ops f H); reflexivity.
  Qed.
  Lemma builtin_never : forall (n : nat) (ref : reference) (f : F), ref <> LRef -> Assignable conv (mkT (Builtin n) false ref) f = false.
  Proof. intros n [| |] f H; [reflexivity | congruence | reflexivity]. Qed.
  Lemma viable_none : forall (c : category) (ops : list (op F)) (f : F), (forall o, In o ops -> viable_for c o = false) -> viable c ops f = [].
  Proof.
    intros c ops f H. induction ops as [| o ops IH]; [reflexivity |]. unfold viable in *. cbn [flat_map]. rewrite (H o (or_introl eq_refl)).
    apply IH. intros p P. apply H. right. exact P.
  Qed.
  Lemma lvalues_only : forall (ops : list (op F)) (ref : reference) (f : F), ref <> LRef -> (forall o, In o ops -> qual o = OnLvalues) ->
    Assignable conv (mkT (Class ops) false ref) f = false.
  Proof.
    intros ops ref f R H. unfold Assignable, is_assignable, assignment. cbn [base is_const AssignModel.ref]. rewrite viable_none; [reflexivity |].
    intros o O. unfold viable_for. rewrite (H o O). destruct ref; [reflexivity | congruence | reflexivity].
  Qed.
  Lemma rvalues_only : forall (o : op F) (ref : reference) (f : F) (r : nat), ref <> LRef -> qual o = OnRvalues -> takes o f = Some r -> is_deleted o = false ->
    Assignable conv (mkT (Class [o]) false ref) f = true /\ ~ may_assign conv (Class [o]) f.
  Proof.
    intros o ref f r L Q T D. split.
    - assert (C : declval_category ref = Rvalue) by (destruct ref; [reflexivity | congruence | reflexivity]).
      unfold Assignable, is_assignable, assignment, viable. cbn. rewrite C. unfold viable_for. rewrite Q, T. cbn. rewrite Nat.eqb_refl. cbn. rewrite D. reflexivity.
    - intros H. inversion H as [| l1 o' l2 f' r' [N _] _ _ E]; subst. destruct l1 as [| y l1]; [| destruct l1; discriminate].
      cbn in *. match goal with E : _ :: _ = [o] |- _ => injection E as -> _ | _ => idtac end. congruence.
  Qed.
End P.
