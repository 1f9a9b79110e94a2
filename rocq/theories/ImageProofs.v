(** ImageProofs.v -- lemmas for C163. *)
From Verif Require Import Base StdOrd SetModel SetSpec SetProofs ListModel ListSpec ListProofs ImageModel ImageSpec.

Lemma adjoinable_iff : forall ways : list way, adjoinable ways = true <-> stands_for_a_set ways.
Proof.
  intros ways. unfold adjoinable, stands_for_a_set. cbn [by_constructor set_constructors existsb fst snd is_itself negb andb orb].
  rewrite existsb_exists. split.
  - intros (w & H & W). destruct w as [| e t]; [auto |]. destruct e; [discriminate W |]. destruct t; try discriminate W; auto.
  - intros [H | [H | H]]; (eexists; split; [exact H | reflexivity]).
Qed.

Section P.
  Context {S T R : Type} (ltb : R -> R -> bool) (HO : SWO ltb).

  Lemma among_contains : forall (x : R) (l : list R), contains ltb l x = true <-> among ltb x l.
  Proof.
    intros x l. rewrite (contains_true ltb). unfold among, eqvb. split; intros (y & H & E); exists y; (split; [exact H |]).
    - apply andb_true_iff in E. destruct E as [A B]. apply negb_true_iff in A, B. auto.
    - destruct E as [A B]. rewrite A, B. reflexivity.
  Qed.
  Lemma ascending_iff : forall l : list R, increasing ltb l <-> ascending ltb l.
  Proof.
    intros l. unfold increasing. split.
    - intros H. induction H as [| x l H IH F]; intros i j a b L A B.
      + destruct i; discriminate A.
      + destruct j as [| j]; [lia |]. cbn in B. destruct i as [| i]; cbn in A.
        * injection A as <-. rewrite Forall_forall in F. apply F. eapply nth_error_In. exact B.
        * apply (IH i j); [lia | exact A | exact B].
    - induction l as [| x l IH]; intros H; constructor.
      + apply IH. intros i j a b L A B. apply (H (Datatypes.S i) (Datatypes.S j)); [lia | exact A | exact B].
      + apply Forall_forall. intros y Y. apply In_nth_error in Y. destruct Y as [n N].
        apply (H 0 (Datatypes.S n)); [lia | reflexivity | exact N].
  Qed.

  Context (as_set : R -> list R) (HS : forall r, increasing ltb (as_set r)) (f : T -> M S R).

  Definition union_of (rs r : list R) : Prop :=
    ascending ltb r /\ forall x, among ltb x r <-> exists y, In y rs /\ among ltb x (as_set y).

  Lemma image_loop_ok : forall (rest pre : list T) (s0 : S) (rs : list R) (s : S) (acc : list R),
    calls f pre s0 rs s -> increasing ltb acc -> (forall x, among ltb x acc <-> exists y, In y rs /\ among ltb x (as_set y)) ->
    outcome f (pre ++ rest) s0 union_of (image_loop ltb as_set f rest acc s).
  Proof.
    induction rest as [| x rest IH]; intros pre s0 rs s acc C I U; cbn [image_loop].
    - rewrite app_nil_r. eapply O_all; [exact C |]. split; [apply ascending_iff; exact I | exact U].
    - unfold bind. destruct (f x s) as [r s1 | e s1 | u | |] eqn:F.
      + destruct (adjoin_other ltb HO (as_set r) acc I (HS r)) as (acc' & A & I' & M'). rewrite A.
        replace (pre ++ x :: rest) with ((pre ++ [x]) ++ rest) by (rewrite <- app_assoc; reflexivity).
        apply (IH (pre ++ [x]) s0 (rs ++ [r]) s1 acc').
        * eapply calls_app; [exact C |]. econstructor; [exact F | constructor].
        * exact I'.
        * intros z. rewrite <- among_contains, M', orb_true_iff, !among_contains, U. split.
          -- intros [(y & Y & Z) | Z]; [exists y | exists r]; (split; [apply in_or_app; cbn; auto | exact Z]).
          -- intros (y & Y & Z). apply in_app_or in Y. destruct Y as [Y | [<- | []]]; [left; exists y; auto | right; exact Z].
      + apply O_fails; [eapply pass_exc; [reflexivity | exact C | exact F] | discriminate].
      + apply O_fails; [eapply pass_ub; [reflexivity | exact C | exact F] | discriminate].
      + apply O_fails; [eapply pass_abort; [reflexivity | exact C | exact F] | discriminate].
      + apply O_fails; [eapply pass_fuel; [reflexivity | exact C | exact F] | discriminate].
  Qed.
End P.

Lemma image_runs : forall (S T R : Type) (ltb : R -> R -> bool) (ways : list way) (as_set : R -> list R) (f : T -> M S R) (l : list T) (s : S),
  SWO ltb -> (forall r, ascending ltb (as_set r)) -> stands_for_a_set ways ->
  exists m, image ltb ways as_set f l = Some m /\
            outcome f l s (fun rs r => ascending ltb r /\ forall x, among ltb x r <-> exists y, In y rs /\ among ltb x (as_set y)) (m s).
Proof.
  intros S T R ltb ways as_set f l s HO HS W. apply adjoinable_iff in W. unfold image. rewrite W. eexists. split; [reflexivity |].
  apply (image_loop_ok ltb HO as_set (fun r => proj2 (ascending_iff ltb (as_set r)) (HS r)) f l [] s [] s []).
  - constructor.
  - constructor.
  - intros x. split; [intros (y & [] & _) | intros (y & [] & _)].
Qed.
Lemma image_compiles : forall (S T R : Type) (ltb : R -> R -> bool) (ways : list way) (as_set : R -> list R) (f : T -> M S R) (l : list T),
  image ltb ways as_set f l = None <-> ~ stands_for_a_set ways.
Proof.
  intros. rewrite <- adjoinable_iff. unfold image. destruct (adjoinable ways); split; intros H; try discriminate; try reflexivity.
  exfalso. apply H. reflexivity.
Qed.
Lemma outcome_weaken : forall (S T R : Type) (f : T -> M S R) (l : list T) (s : S) (p q : list R -> list R -> Prop) (a : res S (list R)),
  (forall rs r, p rs r -> q rs r) -> outcome f l s p a -> outcome f l s q a.
Proof. intros S T R f l s p q a H O. destruct O as [rs s' r C P | a P N]; [eapply O_all; [exact C | exact (H rs r P)] | apply O_fails; assumption]. Qed.
Lemma image_singletons : forall (S T R : Type) (ltb : R -> R -> bool) (ways : list way) (as_set : R -> list R) (f : T -> M S R) (l : list T) (s : S),
  SWO ltb -> (forall r, as_set r = [r]) -> stands_for_a_set ways ->
  exists m, image ltb ways as_set f l = Some m /\
            outcome f l s (fun rs r => ascending ltb r /\ forall x, among ltb x r <-> among ltb x rs) (m s).
Proof.
  intros S T R ltb ways as_set f l s HO HS W.
  destruct (image_runs S T R ltb ways as_set f l s HO) as (m & E & O); [| exact W |].
  - intros r. rewrite HS. intros i j a b L A B. destruct j as [| [| j]]; [lia | discriminate B | discriminate B].
  - exists m. split; [exact E |]. eapply outcome_weaken; [| exact O]. intros rs r [A U]. split; [exact A |]. intros x. rewrite U. split.
    + intros (y & Y & z & Z & E'). rewrite HS in Z. destruct Z as [<- | []]. exists y. auto.
    + intros (y & Y & E'). exists y. split; [exact Y |]. rewrite HS. exists y. split; [left; reflexivity | exact E'].
Qed.
Lemma image_loses : forall (S T R : Type) (ltb : R -> R -> bool) (ways : list way) (as_set : R -> list R) (f : T -> M S R) (x : T) (s s' : S) (r : R),
  SWO ltb -> (forall r, ascending ltb (as_set r)) -> stands_for_a_set ways -> f x s = Ret r s' -> ~ among ltb r (as_set r) ->
  exists m l, image ltb ways as_set f [x] = Some m /\ m s = Ret l s' /\ ~ among ltb r l.
Proof.
  intros S T R ltb ways as_set f x s s' r HO HS W F N.
  destruct (image_runs S T R ltb ways as_set f [x] s HO HS W) as (m & E & O). exists m.
  inversion O as [rs s1 l C P Eq | a P NR Eq]; subst.
  - exists l. inversion C as [| ? ? ? r' s2 rs' ? F' C']; subst. inversion C'; subst. rewrite F in F'. injection F' as <- <-.
    split; [exact E |]. split; [reflexivity |]. intros A. apply P in A. destruct A as (y & [<- | []] & A). exact (N A).
  - exfalso. assert (G : forall l1 y l2 rs s1, [x] = l1 ++ y :: l2 -> calls f l1 s rs s1 -> f y s1 = Ret r s').
    { intros l1 y l2 rs s1 H C. destruct l1 as [| z l1]; [| destruct l1; discriminate H]. cbn in H. injection H as <- <-. inversion C; subst. exact F. }
    inversion P as [rs s1 C Eq | l1 y l2 rs s1 e s2 L C F' Eq | l1 y l2 rs s1 u L C F' Eq | l1 y l2 rs s1 L C F' Eq | l1 y l2 rs s1 L C F' Eq].
    + exact (NR rs s1 (eq_sym Eq)).
    + pose proof (G _ _ _ _ _ L C). congruence.
    + pose proof (G _ _ _ _ _ L C). congruence.
    + pose proof (G _ _ _ _ _ L C). congruence.
    + pose proof (G _ _ _ _ _ L C). congruence.
Qed.
