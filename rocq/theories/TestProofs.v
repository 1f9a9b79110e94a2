(** TestProofs.v -- proofs about TestModel. *)
From Verif Require Import Base StreamModel MacroModel MacroSpec MacroProofs TestModel TestSpec.
From Coq Require Import String.
Open Scope list_scope.
Open Scope Z_scope.

(** ** Scopes that change only in the values of the variables [G] *)
Definition isval (c : cell) : Prop := exists z, c = CVal z.
Definition sim_entry (G : list name) (a b : name * cell) : Prop :=
  fst a = fst b /\ (snd a = snd b \/ (In (fst a) G /\ isval (snd a) /\ isval (snd b))).
Definition sim (G : list name) : list frame -> list frame -> Prop := Forall2 (Forall2 (sim_entry G)).

Lemma sim_entry_refl G a : sim_entry G a a.
Proof. split; auto. Qed.
Lemma Forall2_refl {A} (R : A -> A -> Prop) (H : forall a, R a a) l : Forall2 R l l.
Proof. induction l; constructor; auto. Qed.
Lemma Forall2_trans {A} (R : A -> A -> Prop) (H : forall a b c, R a b -> R b c -> R a c) l1 l2 l3 :
  Forall2 R l1 l2 -> Forall2 R l2 l3 -> Forall2 R l1 l3.
Proof.
  intros H1. revert l3. induction H1 as [|x y l l' Hxy H1 IH]; intros l3 H2; inversion H2; subst; constructor; eauto.
Qed.
Lemma Forall2_mono {A} (R R' : A -> A -> Prop) (H : forall a b, R a b -> R' a b) l1 l2 :
  Forall2 R l1 l2 -> Forall2 R' l1 l2.
Proof. induction 1; constructor; auto. Qed.
Lemma sim_refl G fs : sim G fs fs.
Proof. apply Forall2_refl. intros f. apply Forall2_refl. apply sim_entry_refl. Qed.
Lemma sim_entry_trans G a b c : sim_entry G a b -> sim_entry G b c -> sim_entry G a c.
Proof.
  unfold sim_entry. intros [E1 H1] [E2 H2]. split; [congruence|].
  destruct H1 as [H1|(I1 & V1 & V1')], H2 as [H2|(I2 & V2 & V2')].
  - left; congruence.
  - right. rewrite E1, H1. auto.
  - right. rewrite <- H2. auto.
  - right; auto.
Qed.
Lemma sim_trans G a b c : sim G a b -> sim G b c -> sim G a c.
Proof. apply Forall2_trans. intros x y z. apply Forall2_trans. apply sim_entry_trans. Qed.
Lemma sim_mono G G' a b : incl G G' -> sim G a b -> sim G' a b.
Proof.
  intros HG. apply Forall2_mono. intros x y. apply Forall2_mono. intros [n1 c1] [n2 c2] [E H]. split; [exact E|].
  destruct H as [H|(I & V)]; [auto|]. right. split; [apply HG, I|exact V].
Qed.
Lemma sim_entry_find G f f' x : Forall2 (sim_entry G) f f' ->
  match find_in x f, find_in x f' with
  | Some c, Some c' => c = c' \/ (In x G /\ isval c /\ isval c')
  | None, None => True
  | _, _ => False
  end.
Proof.
  induction 1 as [|[n1 c1] [n2 c2] f f' [E H] HF IH]; cbn; [exact I|]. cbn in E. subst n2.
  destruct (String.eqb x n1) eqn:Ex; [|exact IH]. apply String.eqb_eq in Ex. subst. exact H.
Qed.
Lemma sim_lookup G fs fs' x : sim G fs fs' ->
  match lookup x fs, lookup x fs' with
  | Some c, Some c' => c = c' \/ (In x G /\ isval c /\ isval c')
  | None, None => True
  | _, _ => False
  end.
Proof.
  induction 1 as [|f f' fs fs' Hf HF IH]; cbn; [exact I|].
  pose proof (sim_entry_find G f f' x Hf) as Hx.
  destruct (find_in x f), (find_in x f'); auto; contradiction.
Qed.
Lemma sim_lookup_out G fs fs' x c : sim G fs fs' -> ~ In x G -> lookup x fs = Some c -> lookup x fs' = Some c.
Proof.
  intros H Hx E. pose proof (sim_lookup G fs fs' x H) as Hl. rewrite E in Hl.
  destruct (lookup x fs') as [c'|]; [|contradiction]. destruct Hl as [->|(I & _)]; [reflexivity|contradiction].
Qed.
Lemma sim_lookup_val G fs fs' x : sim G fs fs' -> (exists z, lookup x fs = Some (CVal z)) ->
  exists z, lookup x fs' = Some (CVal z).
Proof.
  intros H [z E]. pose proof (sim_lookup G fs fs' x H) as Hl. rewrite E in Hl.
  destruct (lookup x fs') as [c'|]; [|contradiction]. destruct Hl as [<-|(I & _ & (z' & ->))]; eauto.
Qed.
Lemma sim_set_in G f x z z' : In x G -> find_in x f = Some (CVal z) -> Forall2 (sim_entry G) f (set_in x (CVal z') f).
Proof.
  intros HG. induction f as [|[n c] f IH]; cbn; [discriminate|].
  destruct (String.eqb x n) eqn:E; intros H.
  - inversion H; subst. apply String.eqb_eq in E; subst. constructor.
    + split; [reflexivity|]. right. cbn. unfold isval. eauto.
    + apply Forall2_refl, sim_entry_refl.
  - constructor; [apply sim_entry_refl|auto].
Qed.
Lemma sim_assign G fs x z z' : In x G -> lookup x fs = Some (CVal z) -> sim G fs (assign x (CVal z') fs).
Proof.
  intros HG. induction fs as [|f fs IH]; cbn; [discriminate|].
  destruct (find_in x f) as [c|] eqn:E; intros H.
  - inversion H; subst. constructor; [eapply sim_set_in; eauto|apply sim_refl].
  - constructor; [apply Forall2_refl, sim_entry_refl|]. now apply IH.
Qed.
Lemma sim_length G a b : sim G a b -> List.length a = List.length b.
Proof. induction 1; cbn; congruence. Qed.
Lemma sim_tl G f a b : sim G (f :: a) b -> sim G a (tl b).
Proof. inversion 1; subst; assumption. Qed.

(** ** States that differ in empty scopes and output only *)
Inductive fe : list frame -> list frame -> Prop :=
| fe_nil : fe [] []
| fe_cons f r r' : fe r r' -> fe (f :: r) (f :: r')
| fe_l r r' : fe r r' -> fe ([] :: r) r'
| fe_r r r' : fe r r' -> fe r ([] :: r').
Lemma fe_refl l : fe l l.
Proof. induction l; constructor; auto. Qed.
Lemma fe_lookup l l' x : fe l l' -> lookup x l = lookup x l'.
Proof. induction 1; cbn; try congruence. destruct (find_in x f); auto. Qed.
Lemma fe_assign l l' x c : fe l l' -> fe (assign x c l) (assign x c l').
Proof. induction 1; cbn; try (constructor; assumption). destruct (find_in x f); constructor; assumption. Qed.
(** the [k] innermost scopes are the same *)
Fixpoint al (k : nat) (l l' : list frame) : Prop :=
  match k with
  | O => fe l l'
  | S k' => match l, l' with f :: r, f' :: r' => f = f' /\ al k' r r' | _, _ => False end
  end.
Lemma al_fe k : forall l l', al k l l' -> fe l l'.
Proof.
  induction k as [|k IH]; [auto|]. intros [|f r] [|f' r']; cbn; try contradiction. intros [-> H]. constructor. auto.
Qed.
Lemma al_assign k x c : forall l l', al k l l' -> al k (assign x c l) (assign x c l').
Proof.
  induction k as [|k IH]; [intros; now apply fe_assign|].
  intros [|f r] [|f' r']; cbn; try contradiction. intros [<- H]. destruct (find_in x f); cbn; split; auto.
Qed.

(** ** The shape of checks *)
Definition inserts (l : list (sink * list part)) : list stmt := map (fun q => SInsert (fst q) (snd q)) l.
Definition branch (b : bool) (l : list (sink * list part)) : stmt :=
  seqs ((if b then [count_failure] else []) ++ inserts l).
Definition check1 (pre : list part) (auto : bool) (x : name) (cond : expr) (b1 : bool) (l1 : list (sink * list part))
  (b2 : bool) (l2 : list (sink * list part)) : stmt :=
  brace [ cout pre; SDecl auto x cond; SIf (EVar x) (branch b1 l1) (branch b2 l2) ].
Ltac get_inserts c :=
  lazymatch c with
  | SSeq (SInsert ?k ?p) ?r => let l := get_inserts r in constr:((k, p) :: l)
  | SInsert ?k ?p => constr:([(k, p)])
  end.
Ltac get_branch c :=
  lazymatch c with
  | SSeq (SExpr (EIncr _)) ?r => let l := get_inserts r in constr:((true, l))
  | _ => let l := get_inserts c in constr:((false, l))
  end.
Ltac as_check1 c :=
  lazymatch c with
  | SBlock (SSeq (SInsert Cout ?pre) (SSeq (SDecl ?a ?x ?cond) (SIf (EVar ?x) ?c1 ?c2))) =>
      let q1 := get_branch c1 in let q2 := get_branch c2 in
      lazymatch q1 with (?b1, ?l1) => lazymatch q2 with (?b2, ?l2) => constr:(check1 pre a x cond b1 l1 b2 l2) end end
  end.
Ltac unfold_check := cbv [check_stmt HELPER_TEST_ASSERT HELPER_TEST_CHECK_WARN HELPER_TEST_CHECK HELPER_TEST_SAME HELPER_TEST_SAME_AS
  HELPER_TEST_EQUAL HELPER_TEST_NOT_EQUAL HELPER_TEST_EQUALS HELPER_TEST_LESS HELPER_TEST_UNARY_PREDICATE
  HELPER_TEST_BINARY_PREDICATE HELPER_TEST_COMPARE HELPER_TEST_WITHIN HELPER_TEST_RESULT_COMPARE static_check
  brace seqs cout cerr ctrue count_failure p_error p_loc p_two p_both p_one p_line app].

Section T.
Context {W : Type} (call : nat -> list Z -> W -> callres W) (ltr : bool).
Notation St := (st W).
Notation eval := (eval call ltr).
Notation exec := (exec call ltr).
Notation insert := (insert call ltr).

Definition eqv_by (R : list frame -> list frame -> Prop) (s s' : St) : Prop :=
  R (s_frames s) (s_frames s') /\ s_statics s = s_statics s' /\ s_world s = s_world s'.
Definition oeqv {A} (R : list frame -> list frame -> Prop) (m m' : outc St A) : Prop :=
  match m, m' with
  | Norm a s, Norm a' s' => a = a' /\ eqv_by R s s'
  | Thrown x s, Thrown x' s' => x = x' /\ eqv_by R s s'
  | Undef r, Undef r' => r = r'
  | Ill, Ill => True
  | _, _ => False
  end.
(** [R] is one of [al k] *)
Definition good_rel (R : list frame -> list frame -> Prop) : Prop :=
  (forall l l' x, R l l' -> lookup x l = lookup x l') /\
  (forall l l' x c, R l l' -> R (assign x c l) (assign x c l')).
Lemma good_al k : good_rel (al k).
Proof. split; [intros l l' x H; eapply fe_lookup, al_fe, H|]. intros; now apply al_assign. Qed.

Section R.
Context (R : list frame -> list frame -> Prop) (HR : good_rel R).
Lemma obind_eqv {A B} (m m' : outc St A) (k k' : A -> St -> outc St B) :
  oeqv R m m' -> (forall a s s', eqv_by R s s' -> oeqv R (k a s) (k' a s')) -> oeqv R (obind m k) (obind m' k').
Proof. destruct m, m'; cbn; try contradiction; auto. intros [<- H] Hk. now apply Hk. Qed.
Lemma eqv_out s s' t t' : eqv_by R s s' -> eqv_by R (add_out t s) (add_out t' s').
Proof. intros H; exact H. Qed.
Lemma read_eqv x s s' : eqv_by R s s' -> oeqv R (read_var x s) (read_var x s').
Proof.
  intros (H1 & H2 & H3). unfold read_var. rewrite <- (proj1 HR _ _ x H1), <- H2.
  destruct (lookup x (s_frames s)) as [[]|]; cbn; try reflexivity; try (repeat split; assumption).
  destruct (s_statics s site); cbn; repeat split; assumption.
Qed.
Lemma write_eqv x z s s' : eqv_by R s s' -> oeqv R (write_var x z s) (write_var x z s').
Proof.
  intros (H1 & H2 & H3). unfold write_var. rewrite <- (proj1 HR _ _ x H1), <- H2.
  destruct (lookup x (s_frames s)) as [[]|]; cbn; try reflexivity; (split; [reflexivity|]); (split; [|split]); cbn; auto;
    now apply (proj2 HR).
Qed.
Lemma call_eqv f l s s' : eqv_by R s s' -> oeqv R (do_call call f l s) (do_call call f l s').
Proof.
  intros (H1 & H2 & H3). unfold do_call. rewrite <- H3.
  destruct (call f l (s_world s)); cbn; repeat split; assumption.
Qed.
Lemma both_eqv {A} (m1 m2 : St -> outc St Z) (k : Z -> Z -> St -> outc St A) :
  (forall s s', eqv_by R s s' -> oeqv R (m1 s) (m1 s')) -> (forall s s', eqv_by R s s' -> oeqv R (m2 s) (m2 s')) ->
  (forall a b s s', eqv_by R s s' -> oeqv R (k a b s) (k a b s')) ->
  forall s s', eqv_by R s s' -> oeqv R (both ltr m1 m2 k s) (both ltr m1 m2 k s').
Proof.
  intros H1 H2 Hk s s' H. unfold both. destruct ltr; repeat (apply obind_eqv; [auto|intros]); auto.
Qed.
Lemma eval_eqv e : forall s s', eqv_by R s s' -> oeqv R (eval e s) (eval e s').
Proof.
  induction e; intros s s' H; cbn [MacroModel.eval].
  - split; auto.
  - now apply read_eqv.
  - apply obind_eqv; [auto|]. intros; split; auto.
  - apply obind_eqv; [auto|]. intros; split; auto.
  - apply obind_eqv; [auto|]. intros a s1 s1' H1. destruct (truth a); [|split; auto].
    apply obind_eqv; [auto|]. intros; split; auto.
  - apply both_eqv; auto. intros; split; auto.
  - apply both_eqv; auto. intros; split; auto.
  - apply obind_eqv; [auto|]. intros; split; auto.
  - apply obind_eqv; [auto|]. intros; now apply call_eqv.
  - apply both_eqv; auto. intros; now apply call_eqv.
  - apply obind_eqv; [auto|]. intros; now apply write_eqv.
  - apply obind_eqv; [now apply read_eqv|]. intros a s1 s1' H1.
    destruct (a + 1 <? 2 ^ 31); [now apply write_eqv|reflexivity].
  - apply both_eqv; auto. intros; split; auto.
Qed.
Lemma put_eqv k t s s' : eqv_by R s s' -> oeqv R (put k t s) (put k t s').
Proof.
  intros (H1 & H2 & H3). destruct k; cbn; try (repeat split; assumption).
  rewrite <- (proj1 HR _ _ x H1). destruct (lookup x (s_frames s)) as [[]|]; cbn; auto.
  split; [reflexivity|]. split; [|split]; cbn; auto. now apply (proj2 HR).
Qed.
Lemma what_eqv x s s' : eqv_by R s s' -> oeqv R (what_of x s) (what_of x s').
Proof.
  intros (H1 & H2 & H3). unfold what_of. rewrite <- (proj1 HR _ _ x H1).
  destruct (lookup x (s_frames s)) as [[| | | | |[]]|]; cbn; auto. repeat split; assumption.
Qed.
Lemma insert_eqv k ps : forall s s', eqv_by R s s' -> oeqv R (insert k ps s) (insert k ps s').
Proof.
  induction ps as [|[t|e|x] ps IH]; intros s s' H; cbn [MacroModel.insert].
  - split; auto.
  - apply obind_eqv; [now apply put_eqv|]. intros; auto.
  - apply obind_eqv; [now apply eval_eqv|]. intros. apply obind_eqv; [now apply put_eqv|]. intros; auto.
  - apply obind_eqv; [now apply what_eqv|]. intros. apply obind_eqv; [now apply put_eqv|]. intros; auto.
Qed.
End R.

Lemma declare_eqv k x c s s' : eqv_by (al (S k)) s s' -> oeqv (al (S k)) (declare x c s) (declare x c s').
Proof.
  intros (H1 & H2 & H3). unfold declare. destruct (s_frames s) as [|f r], (s_frames s') as [|f' r']; try contradiction.
  destruct H1 as [<- H1]. destruct (find_in x f); cbn; auto. repeat split; auto.
Qed.
Lemma push_al k f s s' : eqv_by (al k) s s' -> eqv_by (al (S k)) (push f s) (push f s').
Proof. intros (H1 & H2 & H3). repeat split; auto. Qed.
Lemma pop_al k s s' : eqv_by (al (S k)) s s' -> eqv_by (al k) (pop s) (pop s').
Proof.
  intros (H1 & H2 & H3). split; [|split]; auto. cbn.
  destruct (s_frames s), (s_frames s'); try contradiction. apply H1.
Qed.
Lemma leave_eqv {A} k (m m' : outc St A) : oeqv (al (S k)) m m' -> oeqv (al k) (leave m) (leave m').
Proof. destruct m, m'; cbn; try contradiction; auto; intros [<- H]; split; auto; now apply pop_al. Qed.
(** statements that declare nothing in the innermost scope *)
Fixpoint flat (c : stmt) : bool :=
  match c with
  | SDecl _ _ _ | SStatic _ _ _ | SStream _ => false
  | SSeq c1 c2 => flat c1 && flat c2
  | _ => true
  end.
Lemma exec_eqv c : forall k s s', (k = O -> flat c = true) -> eqv_by (al k) s s' -> oeqv (al k) (exec c s) (exec c s').
Proof.
  induction c as [|e|auto x e|x site z|x|snk ps|cls x|cls t|e c1 IH1 c2 IH2|c IH|c1 IH1 c2 IH2|c IH p1 x1 h1 IH1 p2 x2 h2 IH2];
    intros k s s' Hk H; cbn [flat] in Hk; cbn [MacroModel.exec].
  - split; auto.
  - apply obind_eqv; [apply eval_eqv; [apply good_al|assumption]|]. intros; split; auto.
  - destruct k as [|k]; [now specialize (Hk eq_refl)|].
    apply obind_eqv; [now apply declare_eqv|]. intros _ s1 s1' H1.
    apply obind_eqv; [apply eval_eqv; [apply good_al|assumption]|]. intros z s2 s2' (E1 & E2 & E3).
    split; [reflexivity|]. split; [|split]; auto. now apply (al_assign (S k)).
  - destruct k as [|k]; [now specialize (Hk eq_refl)|].
    apply obind_eqv; [now apply declare_eqv|]. intros _ s1 s1' (E1 & E2 & E3). rewrite <- E2.
    destruct (s_statics s1 site); (split; [reflexivity|]); (split; [|split]); cbn; auto; now rewrite E2.
  - destruct k as [|k]; [now specialize (Hk eq_refl)|]. now apply declare_eqv.
  - apply insert_eqv; [apply good_al|assumption].
  - destruct H as (H1 & H2 & H3). rewrite <- (proj1 (good_al k) _ _ x H1).
    destruct (lookup x (s_frames s)) as [[]|]; cbn; auto. repeat split; auto.
  - split; auto.
  - apply obind_eqv; [apply eval_eqv; [apply good_al|assumption]|]. intros z s1 s1' H1. apply leave_eqv.
    destruct (truth z); [apply IH1|apply IH2]; try discriminate; now apply push_al.
  - apply leave_eqv. apply IH; [discriminate|]. now apply push_al.
  - apply obind_eqv.
    + apply IH1; [|exact H]. intros E. now apply andb_prop in Hk as [].
    + intros _ s1 s1' H1. apply IH2; [|exact H1]. intros E. now apply andb_prop in Hk as [].
  - assert (Hb : oeqv (al k) (leave (exec c (push [] s))) (leave (exec c (push [] s')))).
    { apply leave_eqv. apply IH; [discriminate|]. now apply push_al. }
    destruct (leave (exec c (push [] s))), (leave (exec c (push [] s'))); cbn in Hb; try contradiction; auto.
    destruct Hb as [<- Hb]. destruct (p1 x); [|destruct (p2 x)].
    + apply leave_eqv. apply IH1; [discriminate|]. now apply push_al.
    + apply leave_eqv. apply IH2; [discriminate|]. now apply push_al.
    + split; auto.
Qed.
Lemma flat_prog p : flat (prog_stmt p) = true.
Proof.
  induction p; cbn; auto.
  - destruct k; reflexivity.
  - now rewrite IHp1, IHp2.
Qed.
(** programs do not see empty scopes and the output *)
Lemma prog_eqv p s s' : eqv_by fe s s' -> oeqv fe (exec (prog_stmt p) s) (exec (prog_stmt p) s').
Proof. intros H. apply (exec_eqv _ 0%nat); auto using flat_prog. Qed.
Lemma oeqv_thrown {A} R (m m' : outc St A) : oeqv R m m' -> thrown m = thrown m'.
Proof. destruct m, m'; cbn; try contradiction; auto. now intros [-> _]. Qed.

Lemma value1_eqv e s s' : eqv_by fe s s' -> value1 call ltr e s = value1 call ltr e s'.
Proof.
  intros H. unfold value1. pose proof (eval_eqv fe (good_al 0) e s s' H) as He.
  destruct (eval e s), (eval e s'); cbn in He; try contradiction; auto. now destruct He as [<- _].
Qed.
Lemma value2_eqv b e x s s' : eqv_by fe s s' -> value2 call ltr b e x s = value2 call ltr b e x s'.
Proof.
  intros H. unfold value2. destruct b.
  - pose proof (eval_eqv fe (good_al 0) e s s' H) as He.
    destruct (eval e s) as [a s1| | |], (eval e s') as [a' s1'| | |]; cbn in He; try contradiction; auto.
    destruct He as [<- He]. pose proof (eval_eqv fe (good_al 0) x s1 s1' He) as Hx.
    destruct (eval x s1), (eval x s1'); cbn in Hx; try contradiction; auto. now destruct Hx as [<- _].
  - pose proof (eval_eqv fe (good_al 0) x s s' H) as He.
    destruct (eval x s) as [a s1| | |], (eval x s') as [a' s1'| | |]; cbn in He; try contradiction; auto.
    destruct He as [<- He]. pose proof (eval_eqv fe (good_al 0) e s1 s1' He) as Hx.
    destruct (eval e s1), (eval e s1'); cbn in Hx; try contradiction; auto. now destruct Hx as [<- _].
Qed.
Lemma value3_eqv e x t s s' : eqv_by fe s s' -> value3 call ltr e x t s = value3 call ltr e x t s'.
Proof.
  intros H. unfold value3. rewrite (value2_eqv ltr e x s s' H).
  pose proof (eval_eqv fe (good_al 0) (ESub e x) s s' H) as He.
  destruct (eval (ESub e x) s) as [a s1| | |], (eval (ESub e x) s') as [a' s1'| | |]; cbn in He; try contradiction; auto.
  destruct He as [<- He]. destruct (value2 call ltr ltr e x s') as [[u v]|]; [|reflexivity].
  pose proof (eval_eqv fe (good_al 0) t s1 s1' He) as Hx.
  destruct (eval t s1), (eval t s1'); cbn in Hx; try contradiction; auto. now destruct Hx as [<- _].
Qed.
Lemma failed_eqv k s s' : eqv_by fe s s' -> failed call ltr k s = failed call ltr k s'.
Proof.
  intros H. destruct k; cbn [TestSpec.failed]; try reflexivity;
    first [now rewrite (value1_eqv _ s s' H) | now rewrite (value2_eqv _ _ _ s s' H) | now rewrite (value3_eqv _ _ _ s s' H)].
Qed.
Lemma tally_eqv p : forall s s', eqv_by fe s s' -> tally call ltr p s = tally call ltr p s'.
Proof.
  induction p; intros s s' H; cbn [tally]; try reflexivity; try (now rewrite (failed_eqv _ _ _ H));
    try (now rewrite (IHp s s' H), (oeqv_thrown _ _ _ (prog_eqv p s s' H)));
    try (now rewrite (oeqv_thrown _ _ _ (eval_eqv fe (good_al 0) e s s' H))); auto.
  rewrite (IHp1 s s' H). pose proof (prog_eqv p1 s s' H) as Hp.
  destruct (exec (prog_stmt p1) s), (exec (prog_stmt p1) s'); cbn in Hp; try contradiction; auto.
  destruct Hp as [_ Hp]. now rewrite (IHp2 _ _ Hp).
Qed.

(** ** Programs count their failures *)
Section H.
Context (vs : list name) (Hvs : vars_ok vs) (Hstd : only_std call).
Definition G : list name := vs ++ locals.
Definition GA : list name := G ++ counters.
Lemma counter_not_G c : In c counters -> ~ In c G.
Proof.
  intros Hc H. unfold G in H. apply in_app_iff in H as [H|H].
  - apply (Hvs c H). apply in_app_iff. now right.
  - cbn in Hc, H. intuition (subst; discriminate).
Qed.

Definition std_out {A} (m : outc St A) (P : St -> Prop) : Prop :=
  match m with Norm _ s' => P s' | Thrown x s' => is_std x = true /\ P s' | _ => False end.
Lemma std_obind {A B} (m : outc St A) (k : A -> St -> outc St B) (P Q : St -> Prop) :
  std_out m P -> (forall s', P s' -> Q s') -> (forall a s', P s' -> std_out (k a s') Q) -> std_out (obind m k) Q.
Proof. destruct m; cbn; auto. intuition. Qed.
Lemma std_weaken {A} (m : outc St A) (P Q : St -> Prop) : std_out m P -> (forall s', P s' -> Q s') -> std_out m Q.
Proof. destruct m; cbn; auto. intuition. Qed.

(** *** expressions *)
Fixpoint quiet (e : expr) : bool :=
  match e with
  | ELit _ | EVar _ => true
  | EBool e | ENot e | EAbs e | ECall1 _ e | EAssign _ e => quiet e
  | EAnd e1 e2 | ECmp _ e1 e2 | ESub e1 e2 | ECall2 _ e1 e2 | ECheck e1 e2 => quiet e1 && quiet e2
  | EIncr _ => false
  end.
Lemma user_quiet e : is_user e = true -> quiet e = true.
Proof.
  induction e; cbn; auto; try discriminate; intros H; apply andb_prop in H as [H1 H2]; now rewrite IHe1, IHe2.
Qed.
Definition vals (e : expr) (s : St) : Prop :=
  forall x, mentions x e = true -> In x G /\ exists z, lookup x (s_frames s) = Some (CVal z).
Notation simG s s' := (sim G (s_frames s) (s_frames s')).
Lemma vals_sim e s s' G' : vals e s -> sim G' (s_frames s) (s_frames s') -> vals e s'.
Proof. intros H Hs x Hx. destruct (H x Hx) as [H1 H2]. split; [exact H1|]. eapply sim_lookup_val; eauto. Qed.
Ltac vsim := cbn beta in *; eapply vals_sim; [eassumption|eassumption].
Ltac strans := cbn beta in *; eauto using sim_trans.
Lemma vals_or e1 e2 s : (forall x, mentions x e1 || mentions x e2 = true -> In x G /\ exists z, lookup x (s_frames s) = Some (CVal z)) ->
  vals e1 s /\ vals e2 s.
Proof. intros H. split; intros x Hx; apply H; rewrite Hx; auto using orb_true_r. Qed.
Lemma both_hoare {A} e1 e2 (m1 m2 : St -> outc St Z) (k : Z -> Z -> St -> outc St A) s :
  (forall s', vals e1 s' -> std_out (m1 s') (fun s'' => simG s' s'')) ->
  (forall s', vals e2 s' -> std_out (m2 s') (fun s'' => simG s' s'')) ->
  (forall a b s', std_out (k a b s') (fun s'' => simG s' s'')) ->
  vals e1 s -> vals e2 s -> std_out (both ltr m1 m2 k s) (fun s' => simG s s').
Proof.
  intros H1 H2 Hk V1 V2. unfold both. destruct ltr.
  - eapply std_obind; [apply H1, V1|auto|]. intros a s1 E1.
    eapply std_obind; [apply H2; vsim| |].
    + intros s2 E2. strans.
    + intros b s2 E2. eapply std_weaken; [apply Hk|]. intros s3 E3. strans.
  - eapply std_obind; [apply H2, V2|auto|]. intros a s1 E1.
    eapply std_obind; [apply H1; vsim| |].
    + intros s2 E2. strans.
    + intros b s2 E2. eapply std_weaken; [apply Hk|]. intros s3 E3. strans.
Qed.
Lemma call_hoare f l s : std_out (do_call call f l s) (fun s' => simG s s').
Proof.
  unfold do_call. destruct (call f l (s_world s)) eqn:E; cbn; [apply sim_refl|]. split; [|apply sim_refl].
  eapply Hstd; eauto.
Qed.
Lemma eval_hoare e : quiet e = true -> forall s, vals e s -> std_out (eval e s) (fun s' => simG s s').
Proof.
  induction e; cbn [quiet]; intros Hq s HV; cbn [MacroModel.eval]; try discriminate.
  - apply sim_refl.
  - unfold read_var. destruct (HV x) as [_ [z ->]]; [apply String.eqb_refl|]. apply sim_refl.
  - eapply std_obind; [apply IHe; auto|auto|]. intros a s1 H1. exact H1.
  - eapply std_obind; [apply IHe; auto|auto|]. intros a s1 H1. exact H1.
  - apply andb_prop in Hq as [Q1 Q2]. apply vals_or in HV as [V1 V2].
    eapply std_obind; [apply IHe1; auto|auto|]. intros a s1 H1. destruct (truth a); [|exact H1].
    eapply std_obind; [apply IHe2; auto; vsim| |].
    + intros s2 H2. strans.
    + intros b s2 H2. cbn. strans.
  - apply andb_prop in Hq as [Q1 Q2]. apply vals_or in HV as [V1 V2].
    eapply both_hoare; eauto. intros; apply sim_refl.
  - apply andb_prop in Hq as [Q1 Q2]. apply vals_or in HV as [V1 V2].
    eapply both_hoare; eauto. intros; apply sim_refl.
  - eapply std_obind; [apply IHe; auto|auto|]. intros a s1 H1. exact H1.
  - eapply std_obind; [apply IHe; auto|auto|]. intros a s1 H1.
    eapply std_weaken; [apply call_hoare|]. intros s2 H2. strans.
  - apply andb_prop in Hq as [Q1 Q2]. apply vals_or in HV as [V1 V2].
    eapply both_hoare; eauto. intros; apply call_hoare.
  - assert (Ve : vals e s) by (intros y Hy; apply HV; cbn; now rewrite Hy, orb_true_r).
    eapply std_obind; [apply IHe; auto|auto|]. intros a s1 H1.
    destruct (HV x) as [Hx [z Hz]]; [cbn; now rewrite String.eqb_refl|].
    destruct (sim_lookup_val _ _ _ x H1 (ex_intro _ z Hz)) as [z' Hz'].
    unfold write_var. rewrite Hz'. cbn. eapply sim_trans; [exact H1|]. eapply sim_assign; eauto.
  - apply andb_prop in Hq as [Q1 Q2]. apply vals_or in HV as [V1 V2].
    eapply both_hoare; eauto. intros; apply sim_refl.
Qed.

(** *** messages *)
Definition part_ok (s : St) (p : part) : Prop :=
  match p with
  | PStr _ => True
  | PExp e => quiet e = true /\ vals e s
  | PWhat x => exists c t, lookup x (s_frames s) = Some (CExn (XStd c t))
  end.
Lemma part_ok_sim G' s s' p : part_ok s p -> sim G' (s_frames s) (s_frames s') -> part_ok s' p.
Proof.
  intros H Hs. destruct p as [t|e|x]; cbn in *; auto.
  - destruct H as [H1 H2]. split; [exact H1|]. vsim.
  - destruct H as (c & t & H). pose proof (sim_lookup _ _ _ x Hs) as Hx. rewrite H in Hx.
    destruct (lookup x (s_frames s')) as [d|]; [|contradiction]. destruct Hx as [<-|(_ & (z & Hz) & _)]; [eauto|discriminate].
Qed.
Lemma parts_ok_sim G' s s' ps : Forall (part_ok s) ps -> sim G' (s_frames s) (s_frames s') -> Forall (part_ok s') ps.
Proof. intros H Hs. eapply Forall_impl; [|exact H]. intros p Hp. eapply part_ok_sim; eauto. Qed.
Definition is_std_sink (k : sink) : Prop := match k with Into _ => False | _ => True end.
Lemma put_hoare k t s : is_std_sink k -> std_out (put k t s) (fun s' => s_frames s' = s_frames s).
Proof. destruct k; cbn; auto; contradiction. Qed.
Lemma insert_hoare k ps : is_std_sink k -> forall s, Forall (part_ok s) ps -> std_out (insert k ps s) (fun s' => simG s s').
Proof.
  intros Hk. induction ps as [|p ps IH]; intros s H; [apply sim_refl|].
  inversion H as [|? ? Hp Hps]; subst. destruct p as [t|e|x]; cbn [MacroModel.insert].
  - eapply std_obind; [apply put_hoare, Hk| |].
    + intros s1 ->. apply sim_refl.
    + intros _ s1 E1. rewrite <- E1. apply IH. eapply parts_ok_sim; [exact Hps|]. rewrite E1. apply sim_refl with (G := G).
  - destruct Hp as [Hq Hv]. eapply std_obind; [apply eval_hoare; eauto|auto|]. intros z s1 H1. cbn beta in H1.
    eapply std_obind; [apply put_hoare, Hk| |].
    + intros s2 E2. now rewrite E2.
    + intros _ s2 E2. eapply std_weaken; [apply IH|].
      * eapply parts_ok_sim; [exact Hps|]. rewrite E2. exact H1.
      * intros s3 H3. eapply sim_trans; [exact H1|]. now rewrite <- E2.
  - destruct Hp as (c & t & Hp). unfold what_of. rewrite Hp. cbn [obind].
    eapply std_obind; [apply put_hoare, Hk| |].
    + intros s1 ->. apply sim_refl.
    + intros _ s1 E1. rewrite <- E1. apply IH. eapply parts_ok_sim; [exact Hps|]. rewrite E1. apply sim_refl with (G := G).
Qed.

(** *** counters *)
Notation cF := "HELPER_TEST_FAILURES"%string.
Definition others : list name := ["HELPER_TEST_SKIPPED"; "test_case_counter"]%string.
Definition tracked (s s' : St) (d n : Z) : Prop :=
  sim GA (s_frames s) (s_frames s') /\ 0 <= d <= n /\
  (forall f, counter cF s f -> counter cF s' (f + d)) /\
  (forall c k, In c others -> counter c s k -> exists k', counter c s' k' /\ k <= k' <= k + n).
Lemma simG_GA (s s' : St) : simG s s' -> sim GA (s_frames s) (s_frames s').
Proof. apply sim_mono. unfold GA. intros x H. apply in_app_iff. auto. Qed.
Lemma sim_tracked s s' n : simG s s' -> 0 <= n -> tracked s s' 0 n.
Proof.
  intros H Hn. split; [now apply simG_GA|]. split; [lia|]. split.
  - intros f Hf. rewrite Z.add_0_r. eapply sim_lookup_out; [exact H| |exact Hf]. apply counter_not_G. cbn; auto.
  - intros c k Hc Hk. exists k. split; [|lia]. eapply sim_lookup_out; [exact H| |exact Hk].
    apply counter_not_G. cbn in *; tauto.
Qed.
Lemma frames_tracked s s' : s_frames s' = s_frames s -> tracked s s' 0 0.
Proof. intros E. apply sim_tracked; [|lia]. rewrite E. apply sim_refl. Qed.
Lemma tracked_trans s s1 s2 d1 n1 d2 n2 : tracked s s1 d1 n1 -> tracked s1 s2 d2 n2 -> tracked s s2 (d1 + d2) (n1 + n2).
Proof.
  intros (A1 & B1 & C1 & D1) (A2 & B2 & C2 & D2). split; [strans|]. split; [lia|]. split.
  - intros f Hf. rewrite Z.add_assoc. auto.
  - intros c k Hc Hk. destruct (D1 c k Hc Hk) as (k1 & Hk1 & L1). destruct (D2 c k1 Hc Hk1) as (k2 & Hk2 & L2).
    exists k2. split; [exact Hk2|lia].
Qed.
Lemma tracked_more s s' d n n' : tracked s s' d n -> n <= n' -> tracked s s' d n'.
Proof.
  intros (A & B & C & D) L. split; [exact A|]. split; [lia|]. split; [exact C|].
  intros c k Hc Hk. destruct (D c k Hc Hk) as (k1 & Hk1 & L1). exists k1. split; [exact Hk1|lia].
Qed.
Lemma tracked_eq s s' d d' n n' : tracked s s' d n -> d = d' -> n <= n' -> tracked s s' d' n'.
Proof. intros H <- L. eapply tracked_more; eauto. Qed.
Lemma room_tracked (s s' : St) d n m : room s (n + m) -> tracked s s' d n -> room s' m.
Proof.
  intros HR (A & B & C & D) c Hc. destruct (HR c Hc) as (k & Hk & L). cbn in Hc.
  destruct Hc as [<-|Hc].
  - exists (k + d). split; [auto|lia].
  - destruct (D c k) as (k' & Hk' & L'); [cbn; tauto|exact Hk|]. exists k'. split; [exact Hk'|lia].
Qed.
Lemma room_less (s : St) n m : room s n -> m <= n -> room s m.
Proof. intros H L c Hc. destruct (H c Hc) as (k & Hk & L'). exists k. split; [exact Hk|lia]. Qed.
Lemma scoped_tracked L s s' d n : scoped L s -> tracked s s' d n -> scoped L s'.
Proof. intros H (A & _) x Hx. eapply sim_lookup_val; [exact A|]. now apply H. Qed.

(** entering a scope that hides no counter, and leaving it *)
Definition no_counter (f : frame) : Prop := forall c, In c counters -> find_in c f = None.
Lemma counter_push c f (s : St) k : In c counters -> no_counter f -> counter c (push f s) k <-> counter c s k.
Proof. intros Hc Hf. unfold counter. cbn. now rewrite (Hf c Hc). Qed.
Lemma counter_pop c f (s s' : St) k : In c counters -> no_counter f -> sim GA (f :: s_frames s) (s_frames s') ->
  counter c (pop s') k <-> counter c s' k.
Proof.
  intros Hc Hf Hs. inversion Hs as [|? f' ? r' Hff Hr E1 E2]; subst. unfold counter. cbn. rewrite <- E2. cbn.
  pose proof (sim_entry_find _ _ _ c Hff) as H. rewrite (Hf c Hc) in H. destruct (find_in c f'); [contradiction|]. reflexivity.
Qed.
Lemma tracked_scope f s s' d n : no_counter f -> tracked (push f s) s' d n -> tracked s (pop s') d n.
Proof.
  intros Hf (A & B & C & D). cbn in A. split; [cbn; now apply sim_tl in A|]. split; [exact B|]. split.
  - intros k Hk. apply (counter_pop cF f s s' _) ; [cbn; auto|exact Hf|exact A|]. apply C.
    apply counter_push; [cbn; auto|exact Hf|exact Hk].
  - intros c k Hc Hk. assert (Hc' : In c counters) by (cbn in *; tauto).
    destruct (D c k Hc) as (k' & Hk' & L); [now apply counter_push|].
    exists k'. split; [|exact L]. apply (counter_pop c f s s' _); auto.
Qed.
Lemma no_counter_nil : no_counter [].
Proof. intros c _. reflexivity. Qed.
Lemma no_counter_cons x c f : ~ In x counters -> no_counter f -> no_counter ((x, c) :: f).
Proof.
  intros Hx Hf y Hy. cbn. destruct (String.eqb y x) eqn:E; [|now apply Hf]. apply String.eqb_eq in E as ->. contradiction.
Qed.
Lemma local_not_counter x : In x locals -> ~ In x counters.
Proof. cbn. intuition (subst; discriminate). Qed.
Lemma scope_hoare {A} f (m : outc St A) s d n : no_counter f ->
  std_out m (fun s' => tracked (push f s) s' d n) -> std_out (leave m) (fun s' => tracked s s' d n).
Proof.
  intros Hf. destruct m; cbn; auto.
  - now apply tracked_scope.
  - intros [H1 H2]. split; [exact H1|]. now apply tracked_scope with (f := f).
Qed.
Lemma room_push f (s : St) n : no_counter f -> room s n -> room (push f s) n.
Proof. intros Hf H c Hc. destruct (H c Hc) as (k & Hk & L). exists k. split; [now apply counter_push|exact L]. Qed.

Lemma count_failure_exec s : room s 1 ->
  exists s', exec count_failure s = Norm tt s' /\ tracked s s' 1 1.
Proof.
  intros HR. destruct (HR cF) as (k & Hk & L); [cbn; auto|]. unfold counter in Hk.
  unfold count_failure. cbn [MacroModel.exec MacroModel.eval]. unfold read_var. rewrite Hk. cbn [obind].
  replace (k + 1 <? 2 ^ 31) with true by (symmetry; now apply Z.ltb_lt). unfold write_var. rewrite Hk. cbn [obind].
  eexists. split; [reflexivity|]. split; [|split; [lia|split]].
  - cbn. eapply sim_assign; [|exact Hk]. unfold GA. apply in_app_iff. right. cbn; auto.
  - intros f Hf. unfold counter in *. rewrite Hk in Hf. inversion Hf; subst. cbn. apply lookup_assign. now rewrite Hk.
  - intros c j Hc Hj. exists j. split; [|lia]. unfold counter in *. cbn. rewrite lookup_assign_other; [exact Hj|].
    intros <-. cbn in Hc. intuition discriminate.
Qed.

(** *** the branches of a check *)
Definition msgs_ok (s : St) (l : list (sink * list part)) : Prop :=
  Forall (fun q => is_std_sink (fst q) /\ Forall (part_ok s) (snd q)) l.
Lemma msgs_ok_sim G' s s' l : msgs_ok s l -> sim G' (s_frames s) (s_frames s') -> msgs_ok s' l.
Proof.
  intros H Hs. eapply Forall_impl; [|exact H]. intros q [H1 H2]. split; [exact H1|]. cbn beta in *; eapply parts_ok_sim; eauto.
Qed.
Lemma inserts_hoare l : forall s, msgs_ok s l -> std_out (exec (seqs (inserts l)) s) (fun s' => simG s s').
Proof.
  induction l as [|q l IH]; intros s H; [apply sim_refl|].
  inversion H as [|? ? [Hk Hp] Hl]; subst. unfold inserts. cbn [map]. rewrite exec_seqs_cons. fold (inserts l).
  eapply std_obind; [apply (insert_hoare (fst q) (snd q) Hk s Hp)|auto|]. intros _ s1 H1.
  eapply std_weaken; [apply IH; eapply msgs_ok_sim; [exact Hl|exact H1]|]. intros s2 H2. strans.
Qed.
Lemma branch_hoare b l s : msgs_ok s l -> room s 1 ->
  std_out (exec (branch b l) s) (fun s' => tracked s s' (zif b) 1).
Proof.
  intros Hl HR. unfold branch. destruct b; cbn [app zif].
  - rewrite exec_seqs_cons. destruct (count_failure_exec s HR) as (s1 & -> & H1). cbn [obind].
    eapply std_weaken; [apply inserts_hoare; eapply msgs_ok_sim; [exact Hl|apply H1]|].
    intros s2 H2. eapply tracked_eq; [eapply tracked_trans; [exact H1|apply sim_tracked; [exact H2|apply Z.le_refl]]|lia|lia].
  - eapply std_weaken; [apply inserts_hoare, Hl|]. intros s2 H2. now apply sim_tracked.
Qed.
(** *** what a message may mention: the variables [L] *)
Definition part_over (L : list name) (p : part) : Prop :=
  match p with
  | PStr _ => True
  | PExp e => quiet e = true /\ forall x, mentions x e = true -> In x L
  | PWhat x => False
  end.
Definition msgs_over (L : list name) (l : list (sink * list part)) : Prop :=
  Forall (fun q => is_std_sink (fst q) /\ Forall (part_over L) (snd q)) l.
Lemma msgs_over_ok L s l : incl L G -> scoped L s -> msgs_over L l -> msgs_ok s l.
Proof.
  intros HL Hs H. eapply Forall_impl; [|exact H]. intros q [H1 H2]. split; [exact H1|].
  eapply Forall_impl; [|exact H2]. intros [t|e|x]; [exact (fun _ => I)| |contradiction].
  intros [H3 H4]. split; [exact H3|]. intros y Hy. split; [apply HL, H4, Hy|]. apply Hs, H4, Hy.
Qed.
Lemma scoped_push_nil L (s : St) : scoped L s -> scoped L (push [] s).
Proof. intros H x Hx. cbn. now apply H. Qed.
Lemma scoped_push_val L x z f (s : St) : scoped L (push f s) -> scoped (x :: L) (push ((x, CVal z) :: f) s).
Proof.
  intros H y Hy. cbn. destruct (String.eqb y x) eqn:E; [eauto|]. destruct Hy as [<-|Hy]; [now rewrite String.eqb_refl in E|].
  apply (H y Hy).
Qed.
Lemma vs_fresh x c : In x (locals ++ counters) -> In c vs -> String.eqb c x = false.
Proof. intros Hx Hc. apply String.eqb_neq. intros ->. exact (Hvs x Hc Hx). Qed.
Lemma user_no_local e x : user_expr vs e -> In x locals -> mentions x e = false.
Proof.
  intros [_ H] Hx. destruct (mentions x e) eqn:E; [|reflexivity]. exfalso. apply (Hvs x (H x E)). apply in_app_iff. auto.
Qed.
Lemma user_vals e s : user_expr vs e -> scoped vs s -> vals e s.
Proof. intros [_ H] Hs x Hx. split; [unfold G; apply in_app_iff; left; auto|]. apply Hs, H, Hx. Qed.

Lemma eval_out e t s : oeqv fe (eval e s) (eval e (add_out t s)).
Proof. apply (eval_eqv fe (good_al 0)). repeat split; auto. apply fe_refl. Qed.
Lemma value1_out e t s : value1 call ltr e (add_out t s) = value1 call ltr e s.
Proof. symmetry. apply value1_eqv. repeat split; auto. apply fe_refl. Qed.

(** The shape of most checks: print, evaluate the condition into a local, branch on it. *)
Lemma check1_hoare pre auto x cond b1 l1 b2 l2 s :
  scoped vs s -> room s 1 -> In x locals ->
  std_out (insert Cout pre s) (fun s' => exists t, s' = add_out t s) ->
  quiet cond = true -> (forall y, mentions y cond = true -> In y vs) ->
  msgs_over (x :: vs) l1 -> msgs_over (x :: vs) l2 ->
  std_out (exec (check1 pre auto x cond b1 l1 b2 l2) s) (fun s' => tracked s s'
    (match insert Cout pre s with
     | Norm _ _ => match value1 call ltr cond s with Some v => zif (if truth v then b1 else b2) | None => 0 end
     | _ => 0
     end) 1).
Proof.
  intros Hs HR Hx Hpre Hq Hm H1 H2. unfold check1, brace. cbn [seqs MacroModel.exec cout].
  rewrite <- (insS_0 [] s), insert_ins by (try exact I; apply avoids_nil).
  destruct (insert Cout pre s) as [u s0|ex s0|r|]; cbn in Hpre; try contradiction; cbn [omap obind].
  2:{ destruct Hpre as [Hex [t ->]]. cbn [leave]. rewrite insS_0, pop_push. split; [exact Hex|].
      eapply tracked_more; [now apply frames_tracked|lia]. }
  destruct Hpre as [t ->]. rewrite insS_0.
  assert (Hxc : mentions x cond = false).
  { destruct (mentions x cond) eqn:E; [|reflexivity]. exfalso. apply (Hvs x (Hm x E)). apply in_app_iff; auto. }
  set (i := if auto then CUndeduced else CIndet).
  replace (declare x i (push [] (add_out t s))) with (Norm tt (push [(x, i)] (add_out t s)) : outc St unit) by reflexivity.
  cbn [obind]. rewrite <- insS_0, eval_ins by (now apply avoids_one).
  pose proof (eval_out cond t s) as Heq. rewrite <- (value1_out cond t s). unfold value1.
  assert (Hv : vals cond (add_out t s)).
  { intros y Hy. split; [unfold G; apply in_app_iff; left; auto|]. apply (Hs y (Hm y Hy)). }
  pose proof (eval_hoare cond Hq (add_out t s) Hv) as He.
  destruct (eval cond (add_out t s)) as [v s1|ex s1|r|]; cbn in He; try contradiction; cbn [omap obind leave].
  2:{ destruct He as [Hex He]. rewrite insS_0, pop_push. split; [exact Hex|].
      apply sim_tracked; [exact He|lia]. }
  rewrite insS_0, push_define.
  replace (eval (EVar x) (push [(x, CVal v)] s1)) with (Norm v (push [(x, CVal v)] s1) : outc St Z)
    by (cbn; unfold read_var; cbn; now rewrite String.eqb_refl).
  cbn [obind].
  assert (T1 : tracked s s1 0 0) by (apply sim_tracked; [exact He|lia]).
  assert (HR1 : room s1 1) by (eapply room_tracked; [|exact T1]; exact HR).
  assert (Hs1 : scoped vs s1) by (eapply scoped_tracked; [exact Hs|exact T1]).
  assert (Hf : no_counter [(x, CVal v)]) by (apply no_counter_cons; [now apply local_not_counter|apply no_counter_nil]).
  assert (HsB : scoped (x :: vs) (push [] (push [(x, CVal v)] s1))).
  { apply scoped_push_nil. apply scoped_push_val. now apply scoped_push_nil. }
  assert (HL : incl (x :: vs) G).
  { intros y [<-|Hy]; unfold G; apply in_app_iff; auto. }
  assert (HRB : room (push [] (push [(x, CVal v)] s1)) 1).
  { apply room_push; [apply no_counter_nil|]. now apply room_push. }
  assert (HB : std_out (exec (if truth v then branch b1 l1 else branch b2 l2) (push [] (push [(x, CVal v)] s1)))
    (fun s' => tracked (push [] (push [(x, CVal v)] s1)) s' (zif (if truth v then b1 else b2)) 1)).
  { destruct (truth v); apply branch_hoare; auto; eapply msgs_over_ok; eauto. }
  apply scope_hoare in HB; [|apply no_counter_nil]. apply scope_hoare in HB; [|exact Hf].
  replace (if truth v then exec (branch b1 l1) (push [] (push [(x, CVal v)] s1)) else exec (branch b2 l2) (push [] (push [(x, CVal v)] s1)))
    with (exec (if truth v then branch b1 l1 else branch b2 l2) (push [] (push [(x, CVal v)] s1))) by (destruct (truth v); reflexivity).
  eapply std_weaken; [exact HB|]. intros s' Hs'. eapply tracked_eq; [eapply tracked_trans; [exact T1|exact Hs']|lia|lia].
Qed.

(** *** what is printed before a check *)
Definition pre_ok (p : part) : Prop :=
  match p with PStr _ => True | PExp e => user_expr vs e /\ pure call ltr e | PWhat _ => False end.
Lemma add_out_twice t u (s : St) : add_out u (add_out t s) = add_out (t ++ u) s.
Proof. unfold add_out; cbn. now rewrite app_assoc. Qed.
Lemma insert_pure ps : Forall pre_ok ps -> forall s, scoped vs s ->
  std_out (insert Cout ps s) (fun s' => exists t, s' = add_out t s) /\
  (forall x s', insert Cout ps s = Thrown x s' -> exists e, In (PExp e) ps /\ value1 call ltr e s = None).
Proof.
  induction 1 as [|p ps Hp Hps IH]; intros s Hs.
  - split; [|discriminate]. exists []. unfold add_out. rewrite app_nil_r. destruct s; reflexivity.
  - destruct p as [t|e|x]; [| |contradiction]; cbn [MacroModel.insert].
    + cbn [put obind]. destruct (IH (add_out t s) Hs) as [H1 H2]. split.
      * eapply std_weaken; [exact H1|]. intros s' [u ->]. exists (t ++ u). apply add_out_twice.
      * intros x s' H. destruct (H2 x s' H) as (e & He & Hv). exists e. split; [now right|]. now rewrite value1_out in Hv.
    + destruct Hp as [Hu Hp]. pose proof (Hp s) as Hps'.
      pose proof (eval_hoare e (user_quiet e (proj1 Hu)) s (user_vals e s Hu Hs)) as He.
      destruct (eval e s) as [z s1|x s1|r|] eqn:Ee; cbn in He; try contradiction; subst s1; cbn [obind put].
      * destruct (IH (add_out (int_text z) s) Hs) as [H1 H2]. split.
        -- eapply std_weaken; [exact H1|]. intros s' [u ->]. exists (int_text z ++ u). apply add_out_twice.
        -- intros x s' H. destruct (H2 x s' H) as (e' & He' & Hv). exists e'. split; [now right|]. now rewrite value1_out in Hv.
      * split; [split; [apply He|]|].
        -- exists []. unfold add_out. rewrite app_nil_r. destruct s; reflexivity.
        -- intros y s' H. exists e. split; [now left|]. unfold value1. now rewrite Ee.
Qed.
Lemma truth_b2z b : truth (b2z b) = b.
Proof. destruct b; reflexivity. Qed.
Ltac split_evals := repeat match goal with |- context [match MacroModel.eval ?a ?b ?c ?d with _ => _ end] =>
  destruct (MacroModel.eval a b c d) end.
Lemma value1_cmp c e x s : value1 call ltr (ECmp c e x) s
  = match value2 call ltr ltr e x s with Some (a, b) => Some (b2z (compare_vals c a b)) | None => None end.
Proof.
  unfold value1, value2. cbn [MacroModel.eval]. unfold both, obind. destruct ltr; split_evals; reflexivity.
Qed.
Lemma value1_check e x s : value1 call ltr (ECheck e x) s
  = match value2 call ltr ltr e x s with Some (a, b) => Some (b2z (a =? b)) | None => None end.
Proof.
  unfold value1, value2. cbn [MacroModel.eval]. unfold both, obind. destruct ltr; split_evals; reflexivity.
Qed.
Lemma value1_bool e s : value1 call ltr (EBool e) s
  = match value1 call ltr e s with Some v => Some (b2z (truth v)) | None => None end.
Proof. unfold value1. cbn [MacroModel.eval]. destruct (eval e s); reflexivity. Qed.

Lemma tail_hoare x z f s L b1 l1 b2 l2 :
  room s 1 -> no_counter ((x, CVal z) :: f) -> scoped L (push ((x, CVal z) :: f) s) -> incl L G ->
  msgs_over L l1 -> msgs_over L l2 ->
  std_out (leave (exec (SIf (EVar x) (branch b1 l1) (branch b2 l2)) (push ((x, CVal z) :: f) s)))
    (fun s' => tracked s s' (zif (if truth z then b1 else b2)) 1).
Proof.
  intros HR Hf Hs HL H1 H2. cbn [MacroModel.exec].
  replace (eval (EVar x) (push ((x, CVal z) :: f) s)) with (Norm z (push ((x, CVal z) :: f) s) : outc St Z)
    by (cbn; unfold read_var; cbn; now rewrite String.eqb_refl).
  cbn [obind]. set (s1 := push ((x, CVal z) :: f) s) in *.
  assert (HRB : room (push [] s1) 1) by (apply room_push; [apply no_counter_nil|]; now apply room_push).
  assert (HsB : scoped L (push [] s1)) by now apply scoped_push_nil.
  assert (HB : std_out (exec (if truth z then branch b1 l1 else branch b2 l2) (push [] s1))
    (fun s' => tracked (push [] s1) s' (zif (if truth z then b1 else b2)) 1)).
  { destruct (truth z); apply branch_hoare; auto; eapply msgs_over_ok; eauto. }
  apply scope_hoare in HB; [|apply no_counter_nil]. apply scope_hoare in HB; [|exact Hf].
  destruct (truth z); exact HB.
Qed.
(** the second half of HELPER_TEST_WITHIN and HELPER_TEST_RESULT_COMPARE *)
Lemma core2 y v c e2 b1 l1 b2 l2 s :
  In y locals -> y <> "ok"%string -> user_expr vs e2 -> scoped vs s -> room s 1 ->
  msgs_over ("ok"%string :: y :: vs) l1 -> msgs_over ("ok"%string :: y :: vs) l2 ->
  std_out (leave (exec (seqs [ SDecl false "ok" (ECmp c (EVar y) e2); SIf (EVar "ok") (branch b1 l1) (branch b2 l2) ]) (push [(y, CVal v)] s)))
    (fun s' => tracked s s' (match value1 call ltr e2 s with
                             | Some b => zif (if compare_vals c v b then b1 else b2) | None => 0 end) 1).
Proof.
  intros Hy Hyok He Hs HR H1 H2. cbn [seqs MacroModel.exec].
  assert (Ey : String.eqb y "ok" = false) by now apply String.eqb_neq.
  replace (declare "ok" CIndet (push [(y, CVal v)] s)) with (Norm tt (push [("ok"%string, CIndet); (y, CVal v)] s) : outc St unit).
  2:{ unfold declare. cbn [s_frames push with_frames find_in]. rewrite String.eqb_sym, Ey. reflexivity. }
  cbn [obind]. set (f := [("ok"%string, CIndet); (y, CVal v)]).
  assert (Hav : avoids mentions e2 f).
  { intros x Hx. cbn. destruct (String.eqb x "ok") eqn:E1; [apply String.eqb_eq in E1; subst; now rewrite (user_no_local e2 "ok") in Hx by (auto; cbn; auto)|].
    destruct (String.eqb x y) eqn:E2; [apply String.eqb_eq in E2; subst; now rewrite (user_no_local e2 y) in Hx by auto|]. reflexivity. }
  assert (Hread : forall s' : St, read_var y (push f s') = Norm v (push f s')).
  { intros s'. unfold read_var. cbn. now rewrite Ey, String.eqb_refl. }
  assert (Hc : eval (ECmp c (EVar y) e2) (push f s) = obind (omap (push f) (eval e2 s)) (fun b s' => Norm (b2z (compare_vals c v b)) s')).
  { cbn [MacroModel.eval]. unfold both. pose proof (eval_ins call ltr 0 f e2 Hav s) as Hins. rewrite !insS_0 in Hins.
    destruct ltr.
    - rewrite Hread. cbn [obind]. rewrite Hins. unfold omap, obind. split_evals; reflexivity.
    - rewrite Hins. unfold omap, obind. split_evals; rewrite ?insS_0, ?Hread; reflexivity. }
  rewrite Hc. unfold value1. pose proof (eval_hoare e2 (user_quiet e2 (proj1 He)) s (user_vals e2 s He Hs)) as Hh.
  destruct (eval e2 s) as [b s1|ex s1|r|]; cbn in Hh; try contradiction; cbn [omap obind].
  2:{ destruct Hh as [Hex Hh]. cbn [leave]. rewrite pop_push. split; [exact Hex|]. apply sim_tracked; [exact Hh|lia]. }
  replace (define "ok" (b2z (compare_vals c v b)) (push f s1))
    with (push [("ok"%string, CVal (b2z (compare_vals c v b))); (y, CVal v)] s1) by reflexivity.
  assert (T1 : tracked s s1 0 0) by (apply sim_tracked; [exact Hh|lia]).
  assert (Hnc : no_counter [("ok"%string, CVal (b2z (compare_vals c v b))); (y, CVal v)]).
  { apply no_counter_cons; [apply local_not_counter; cbn; auto|]. apply no_counter_cons; [now apply local_not_counter|apply no_counter_nil]. }
  assert (Hs1 : scoped vs s1) by (eapply scoped_tracked; eauto).
  eapply std_weaken; [apply tail_hoare with (L := "ok"%string :: y :: vs)|]; auto.
  - eapply room_tracked; [|exact T1]. exact HR.
  - apply scoped_push_val. apply scoped_push_val. now apply scoped_push_nil.
  - intros x [<-|[<-|Hx]]; unfold G; apply in_app_iff; [right|right|]; cbn; auto.
  - intros s' Hs'. rewrite truth_b2z in Hs'. eapply tracked_eq; [eapply tracked_trans; [exact T1|exact Hs']|lia|lia].
Qed.

(** *** every check *)
Lemma over_user L e : user_expr vs e -> incl vs L -> part_over L (PExp e).
Proof. intros [H1 H2] HL. split; [now apply user_quiet|]. intros x Hx. apply HL, H2, Hx. Qed.
Lemma over_var L x : In x L -> part_over L (PExp (EVar x)).
Proof. intros H. split; [reflexivity|]. intros y Hy. cbn in Hy. apply String.eqb_eq in Hy as ->. exact H. Qed.
Lemma over_lit L z : part_over L (PExp (ELit z)).
Proof. split; [reflexivity|]. intros y Hy. discriminate. Qed.
Lemma incl_cons_r {A} (x : A) l l' : incl l l' -> incl l (x :: l').
Proof. intros H y Hy. right. auto. Qed.
Ltac solve_incl := first [apply incl_refl | apply incl_cons_r; solve_incl].
Ltac solve_part :=
  lazymatch goal with
  | |- part_over _ (PStr _) => exact I
  | |- part_over _ (lit _) => exact I
  | |- part_over _ (nl _) => exact I
  | |- part_over _ (nl2 _) => exact I
  | |- part_over _ endl => exact I
  | |- part_over _ (PExp (ELit _)) => apply over_lit
  | |- part_over _ (PExp (EVar _)) => first [ apply over_var; cbn; tauto | apply over_user; [assumption|solve_incl] ]
  | |- part_over _ (PExp _) => apply over_user; [assumption|solve_incl]
  end.
Ltac solve_msgs :=
  repeat first [ apply Forall_nil | apply Forall_cons; [split; [exact I|]|] | apply Forall_cons; [solve_part|] ].
Ltac to_check1 :=
  unfold_check;
  lazymatch goal with |- std_out (MacroModel.exec _ _ ?c _) _ => let d := as_check1 c in change c with d end.

Lemma check1_texts pre auto x cond b1 l1 b2 l2 s d :
  scoped vs s -> room s 1 -> In x locals -> Forall pre_ok pre ->
  quiet cond = true -> (forall y, mentions y cond = true -> In y vs) ->
  msgs_over (x :: vs) l1 -> msgs_over (x :: vs) l2 ->
  d = match value1 call ltr cond s with Some v => zif (if truth v then b1 else b2) | None => 0 end ->
  (forall e, In (PExp e) pre -> value1 call ltr e s = None -> d = 0) ->
  std_out (exec (check1 pre auto x cond b1 l1 b2 l2) s) (fun s' => tracked s s' d 1).
Proof.
  intros Hs HR Hx Hpre Hq Hm H1 H2 Hd H0. destruct (insert_pure pre Hpre s Hs) as [P1 P2].
  eapply std_weaken; [apply check1_hoare; eauto|]. intros s' Hs'. eapply tracked_eq; [exact Hs'| |lia].
  destruct (insert Cout pre s) as [u s0|ex s0|r|]; cbn in P1; try contradiction; [auto|].
  destruct (P2 ex s0 eq_refl) as (e & He & Hv). symmetry. eapply H0; eauto.
Qed.
Lemma mentions_two e x : user_expr vs e -> user_expr vs x -> forall y, mentions y e || mentions y x = true -> In y vs.
Proof. intros [_ H1] [_ H2] y H. apply orb_prop in H as [H|H]; auto. Qed.
Lemma quiet_two e x : user_expr vs e -> user_expr vs x -> quiet e && quiet x = true.
Proof. intros [H1 _] [H2 _]. now rewrite !user_quiet. Qed.
Ltac in_parts H := cbn in H; repeat destruct H as [H|H]; first [contradiction | discriminate H | injection H; auto].
Ltac no_pre := cbn; intros ? Hin; exfalso; intuition discriminate.
Ltac pre_texts := repeat (apply Forall_cons; [first [exact I | split; assumption]|]); apply Forall_nil.
Lemma pure_none2 b e x s : pure call ltr e -> pure call ltr x -> (value1 call ltr e s = None \/ value1 call ltr x s = None) ->
  value2 call ltr b e x s = None.
Proof.
  intros P1 P2 H. specialize (P1 s) as Q1. specialize (P2 s) as Q2. unfold value1, value2 in *. destruct b.
  - destruct (eval e s) as [v s1| | |]; try reflexivity. subst s1. destruct H as [H|H]; [discriminate|].
    destruct (eval x s); [discriminate| | |]; reflexivity.
  - destruct (eval x s) as [v s1| | |]; try reflexivity. subst s1. destruct H as [H|H]; [|discriminate].
    destruct (eval e s); [discriminate| | |]; reflexivity.
Qed.
Lemma value1_call2 f e x s : value2 call ltr ltr e x s = None -> value1 call ltr (ECall2 f e x) s = None.
Proof.
  unfold value1, value2. cbn [MacroModel.eval]. unfold both, obind. destruct ltr; split_evals; first [reflexivity|discriminate].
Qed.
Lemma eval_sub_value e x s : value1 call ltr (ESub e x) s
  = match value2 call ltr ltr e x s with Some (a, b) => Some (a - b) | None => None end.
Proof.
  unfold value1, value2. cbn [MacroModel.eval]. unfold both, obind. destruct ltr; split_evals; reflexivity.
Qed.
(** declare a local and evaluate its initialiser *)
Lemma decl_hoare auto y e s t :
  In y locals -> user_expr vs e -> scoped vs s ->
  match eval e (add_out t s) with
  | Norm v s1 => exec (SDecl auto y e) (push [] (add_out t s)) = Norm tt (push [(y, CVal v)] s1) /\ tracked s s1 0 0
  | Thrown x s1 => (exists f, exec (SDecl auto y e) (push [] (add_out t s)) = Thrown x (push f s1)) /\ is_std x = true /\ tracked s s1 0 0
  | _ => False
  end.
Proof.
  intros Hy He Hs. cbn [MacroModel.exec]. set (i := if auto then CUndeduced else CIndet).
  replace (declare y i (push [] (add_out t s))) with (Norm tt (push [(y, i)] (add_out t s)) : outc St unit) by reflexivity.
  cbn [obind]. rewrite <- (insS_0 [(y, i)]), eval_ins by (apply avoids_one; now apply user_no_local).
  pose proof (eval_hoare e (user_quiet e (proj1 He)) (add_out t s) (user_vals e (add_out t s) He Hs)) as Hh.
  destruct (eval e (add_out t s)) as [v s1|x s1|r|]; cbn in Hh; try contradiction; cbn [omap obind].
  - rewrite insS_0, push_define. split; [reflexivity|]. apply sim_tracked; [exact Hh|lia].
  - rewrite insS_0. split; [eauto|]. destruct Hh as [H1 H2]. split; [exact H1|]. apply sim_tracked; [exact H2|lia].
Qed.
Lemma tracked_room s s1 : tracked s s1 0 0 -> scoped vs s -> room s 1 -> scoped vs s1 /\ room s1 1.
Proof. intros T Hs HR. split; [eapply scoped_tracked; eauto|]. eapply room_tracked; [|exact T]. exact HR. Qed.
Lemma exec_brace2 a b c1 c2 (s : St) : exec (brace [a; b; c1; c2]) s
  = leave (obind (exec a (push [] s)) (fun _ s1 => obind (exec b s1) (fun _ s2 => exec (seqs [c1; c2]) s2))).
Proof. reflexivity. Qed.
Lemma add_out_nil (s : St) : add_out [] s = s.
Proof. unfold add_out. rewrite app_nil_r. destruct s; reflexivity. Qed.
Ltac as_core2 :=
  lazymatch goal with |- context [seqs [SDecl false "ok"%string ?cond; SIf (EVar "ok"%string) ?c1 ?c2]] =>
    let q1 := get_branch c1 in let q2 := get_branch c2 in
    lazymatch q1 with (?b1, ?l1) => lazymatch q2 with (?b2, ?l2) =>
      change c1 with (branch b1 l1); change c2 with (branch b2 l2) end end end.
Lemma within_hoare l t1 t2 e x tol s : wf_check call ltr vs (KWithin t1 t2 e x tol) -> scoped vs s -> room s 1 ->
  std_out (exec (HELPER_TEST_WITHIN l t1 t2 e x tol) s) (fun s' => tracked s s' (zif (TestSpec.failed call ltr (KWithin t1 t2 e x tol) s)) 1).
Proof.
  intros (He & Hx & Ht) Hs HR. unfold HELPER_TEST_WITHIN. rewrite exec_brace2.
  assert (HI : exists t, exec (cout [PStr t1; lit " ~ "; PStr t2; lit ": "]) (push [] s) = Norm tt (push [] (add_out t s))).
  { unfold cout, lit. cbn [MacroModel.exec MacroModel.insert put obind]. rewrite !add_out_twice. eexists; reflexivity. }
  destruct HI as [t ->]. cbn [obind].
  assert (Hu : user_expr vs (EAbs (ESub e x))).
  { split; [cbn; rewrite (proj1 He), (proj1 Hx); reflexivity|]. now apply mentions_two. }
  pose proof (decl_hoare true "error" _ s t ltac:(cbn; auto) Hu Hs) as HD.
  cbn [TestSpec.failed]. unfold value3.
  pose proof (eval_out (ESub e x) t s) as HO. pose proof (eval_sub_value e x s) as HV. unfold value1 in HV.
  change (eval (EAbs (ESub e x)) (add_out t s)) with (obind (eval (ESub e x) (add_out t s)) (fun a s' => Norm (Z.abs a) s')) in HD.
  destruct (eval (ESub e x) (add_out t s)) as [v s1|ex s1|r|] eqn:E1; cbn [obind] in HD; try contradiction.
  2:{ destruct HD as ([f ->] & Hex & T). cbn [obind leave]. rewrite pop_push. split; [exact Hex|].
      destruct (eval (ESub e x) s); cbn in HO; try contradiction. eapply tracked_more; [exact T|lia]. }
  destruct HD as [-> T]. cbn [obind].
  destruct (eval (ESub e x) s) as [v' s1'|? ?|?|]; cbn in HO; try contradiction. destruct HO as [<- HO].
  destruct (value2 call ltr ltr e x s) as [[a b]|]; [|discriminate]. injection HV as ->.
  destruct (tracked_room s s1 T Hs HR) as [Hs1 HR1].
  unfold ctrue, count_failure, cout, cerr, p_error, p_loc. cbn [app]. unfold seqs at 2. as_core2.
  eapply std_weaken; [apply core2; auto; try solve_msgs|].
  - cbn; auto.
  - discriminate.
  - intros s' Hs'. cbn in Hs'. rewrite <- (value1_eqv tol s1' s1 HO) in Hs'.
    eapply tracked_eq; [eapply tracked_trans; [exact T|exact Hs']| |lia]. unfold value1.
    destruct (eval tol s1') as [t0 ?| | |]; reflexivity.
Qed.
Lemma result_compare_hoare l t1 t2 e c x s : wf_check call ltr vs (KResultCompare t1 t2 e c x) -> scoped vs s -> room s 1 ->
  std_out (exec (HELPER_TEST_RESULT_COMPARE l t1 t2 e c x) s) (fun s' => tracked s s' (zif (TestSpec.failed call ltr (KResultCompare t1 t2 e c x) s)) 1).
Proof.
  intros (He & Hx) Hs HR. unfold HELPER_TEST_RESULT_COMPARE. rewrite exec_brace2.
  pose proof (decl_hoare false "result" e s [] ltac:(cbn; auto) He Hs) as HD. rewrite add_out_nil in HD.
  cbn [TestSpec.failed]. unfold value2.
  destruct (eval e s) as [v s1|ex s1|r|]; try contradiction.
  2:{ destruct HD as ([f ->] & Hex & T). cbn [obind leave]. rewrite pop_push. split; [exact Hex|]. eapply tracked_more; [exact T|lia]. }
  destruct HD as [-> T]. cbn [obind].
  assert (HI : exists t, exec (cout [PStr t1; lit ": "; PExp (EVar "result")]) (push [("result"%string, CVal v)] s1)
    = Norm tt (push [("result"%string, CVal v)] (add_out t s1))).
  { unfold cout, lit. cbn [MacroModel.exec MacroModel.insert put obind MacroModel.eval].
    unfold read_var. cbn [s_frames add_out push with_frames lookup find_in String.eqb Ascii.eqb Bool.eqb obind put].
    rewrite !add_out_twice. eexists; reflexivity. }
  destruct HI as [t ->]. cbn [obind].
  destruct (tracked_room s s1 T Hs HR) as [Hs1 HR1].
  unfold count_failure, cout, cerr, p_error, p_loc. cbn [app]. unfold seqs at 2. as_core2.
  eapply std_weaken; [apply core2; auto; try solve_msgs|].
  - cbn; auto.
  - discriminate.
  - intros s' Hs'. cbn in Hs'. rewrite value1_out in Hs'. unfold value1 in Hs'.
    assert (T' : tracked s (add_out t s1) 0 0) by exact T.
    eapply tracked_eq; [eapply tracked_trans; [exact T'|exact Hs']| |lia].
    destruct (eval x s1) as [b ?| | |]; reflexivity.
Qed.
Lemma check_hoare l k s : wf_check call ltr vs k -> scoped vs s -> room s 1 ->
  std_out (exec (check_stmt l k) s) (fun s' => tracked s s' (zif (TestSpec.failed call ltr k s)) 1).
Proof.
  intros Hwf Hs HR. destruct k; cbn [wf_check] in Hwf; cbn [TestSpec.failed].
  - (* ASSERT *) to_check1. apply check1_texts; auto; try solve_msgs.
    + cbn; auto. + pre_texts. + apply user_quiet, Hwf. + apply Hwf.
    + destruct (value1 call ltr e s); [|reflexivity]. cbn. unfold nonzero, truth. destruct (z =? 0); reflexivity.
    + no_pre.
  - (* CHECK_WARN *) destruct Hwf. to_check1. apply check1_texts; auto; try solve_msgs.
    + cbn; auto. + pre_texts. + now apply quiet_two. + now apply mentions_two.
    + destruct (value1 call ltr (ECheck e x) s); [|reflexivity]. destruct (truth z); reflexivity.
  - (* CHECK *) destruct Hwf. to_check1. apply check1_texts; auto; try solve_msgs.
    + cbn; auto. + pre_texts. + now apply quiet_two. + now apply mentions_two.
    + rewrite value1_check. destruct (value2 call ltr ltr e x s) as [[a b]|]; [|reflexivity]. cbn. rewrite truth_b2z.
      destruct (a =? b); reflexivity.
    + no_pre.
  - (* SAME *) destruct Hwf. to_check1. apply check1_texts; auto; try solve_msgs.
    + cbn; auto. + pre_texts. + now apply quiet_two. + now apply mentions_two.
    + rewrite value1_bool. destruct (value1 call ltr (ECall2 f e x) s); [|reflexivity]. cbn. rewrite truth_b2z.
      unfold nonzero, truth. destruct (z =? 0); reflexivity.
    + no_pre.
  - (* SAME_AS *) destruct Hwf. to_check1. apply check1_texts; auto; try solve_msgs.
    + cbn; auto. + pre_texts. + now apply quiet_two. + now apply mentions_two.
    + rewrite value1_bool. destruct (value1 call ltr (ECall2 f e x) s); [|reflexivity]. cbn. rewrite truth_b2z.
      unfold nonzero, truth. destruct (z =? 0); reflexivity.
    + no_pre.
  - (* EQUAL *) destruct Hwf. to_check1. apply check1_texts; auto; try solve_msgs.
    + cbn; auto. + pre_texts. + now apply quiet_two. + now apply mentions_two.
    + rewrite value1_cmp. destruct (value2 call ltr ltr e x s) as [[a b]|]; [|reflexivity]. cbn. rewrite truth_b2z.
      destruct (a =? b); reflexivity.
    + no_pre.
  - (* NOT_EQUAL *) destruct Hwf. to_check1. apply check1_texts; auto; try solve_msgs.
    + cbn; auto. + pre_texts. + now apply quiet_two. + now apply mentions_two.
    + rewrite value1_cmp. destruct (value2 call ltr ltr e x s) as [[a b]|]; [|reflexivity]. cbn. rewrite truth_b2z.
      destruct (a =? b); reflexivity.
    + no_pre.
  - (* EQUALS *) destruct Hwf. to_check1. apply check1_texts; auto; try solve_msgs.
    + cbn; auto. + pre_texts. + now apply quiet_two. + now apply mentions_two.
    + rewrite value1_cmp. destruct (value2 call ltr ltr e x s) as [[a b]|]; [|reflexivity]. cbn. rewrite truth_b2z.
      destruct (a =? b); reflexivity.
    + no_pre.
  - (* WITHIN *) now apply within_hoare.
  - (* LESS *) destruct Hwf. to_check1. apply check1_texts; auto; try solve_msgs.
    + cbn; auto. + pre_texts. + now apply quiet_two. + now apply mentions_two.
    + rewrite value1_cmp. destruct (value2 call ltr ltr e x s) as [[a b]|]; [|reflexivity]. cbn. rewrite truth_b2z.
      destruct (a <? b); reflexivity.
    + no_pre.
  - (* UNARY *) destruct Hwf as [Hu Hp]. to_check1. apply check1_texts; auto; try solve_msgs.
    + cbn; auto. + pre_texts. + apply user_quiet, Hu. + apply Hu.
    + rewrite value1_bool. destruct (value1 call ltr (ECall1 p a) s); [|reflexivity]. cbn. rewrite truth_b2z.
      unfold nonzero, truth. destruct (z =? 0); reflexivity.
    + intros e He Hv. assert (e = a) as -> by in_parts He.
      unfold value1 in Hv |- *. cbn [MacroModel.eval]. destruct (eval a s); [discriminate| | |]; reflexivity.
  - (* BINARY *) destruct Hwf as [[Hu Hp] [Hu2 Hp2]]. to_check1. apply check1_texts; auto; try solve_msgs.
    + cbn; auto. + pre_texts. + now apply quiet_two. + now apply mentions_two.
    + rewrite value1_bool. destruct (value1 call ltr (ECall2 p a b) s); [|reflexivity]. cbn. rewrite truth_b2z.
      unfold nonzero, truth. destruct (z =? 0); reflexivity.
    + intros e He Hv. rewrite value1_call2; [reflexivity|]. apply pure_none2; auto.
      assert (e = a \/ e = b) as [-> | ->] by in_parts He; auto.
  - (* COMPARE *) destruct Hwf as [[Hu Hp] [Hu2 Hp2]]. to_check1. apply check1_texts; auto; try solve_msgs.
    + cbn; auto. + pre_texts. + now apply quiet_two. + now apply mentions_two.
    + rewrite value1_cmp. destruct (value2 call ltr ltr e x s) as [[a b]|]; [|reflexivity]. cbn. rewrite truth_b2z.
      destruct (compare_vals c a b); reflexivity.
    + intros e' He Hv. rewrite pure_none2; auto.
      assert (e' = e) as -> by in_parts He; auto.
  - (* RESULT_COMPARE *) now apply result_compare_hoare.
  - (* static *) to_check1. apply check1_texts; auto; try solve_msgs.
    + cbn; auto. + intros y Hy; discriminate.
    + cbn. rewrite truth_b2z. destruct b; reflexivity.
    + no_pre.
Qed.

(** *** messages that cannot fail *)
Definition part_const (s : St) (p : part) : Prop :=
  match p with
  | PStr _ => True
  | PExp e => exists z, e = ELit z
  | PWhat x => exists c t, lookup x (s_frames s) = Some (CExn (XStd c t))
  end.
Definition msgs_const (s : St) (l : list (sink * list part)) : Prop :=
  Forall (fun q => is_std_sink (fst q) /\ Forall (part_const s) (snd q)) l.
Lemma part_const_sim G' (s s' : St) p : part_const s p -> sim G' (s_frames s) (s_frames s') -> part_const s' p.
Proof.
  intros H Hs. destruct p as [t|e|x]; cbn in *; auto.
  destruct H as (c & t & H). pose proof (sim_lookup _ _ _ x Hs) as Hx. rewrite H in Hx.
  destruct (lookup x (s_frames s')) as [d|]; [|contradiction]. destruct Hx as [<-|(_ & (z & Hz) & _)]; [eauto|discriminate].
Qed.
Lemma msgs_const_sim G' s s' l : msgs_const s l -> sim G' (s_frames s) (s_frames s') -> msgs_const s' l.
Proof.
  intros H Hs. eapply Forall_impl; [|exact H]. intros q [H1 H2]. split; [exact H1|].
  eapply Forall_impl; [|exact H2]. intros p Hp. eapply part_const_sim; eauto.
Qed.
Lemma put_const k t (s : St) : is_std_sink k -> exists s', put k t s = Norm tt s' /\ s_frames s' = s_frames s.
Proof. destruct k; cbn; try contradiction; eauto. Qed.
Lemma insert_const k ps : is_std_sink k -> forall s, Forall (part_const s) ps ->
  exists s', insert k ps s = Norm tt s' /\ s_frames s' = s_frames s.
Proof.
  intros Hk. induction ps as [|p ps IH]; intros s H; [eexists; split; reflexivity|].
  inversion H as [|? ? Hp Hps]; subst.
  assert (Hstep : exists t, insert k (p :: ps) s = obind (put k t s) (fun _ s' => insert k ps s')).
  { destruct p as [t|e|x]; cbn [MacroModel.insert].
    - eexists; reflexivity.
    - destruct Hp as [z ->]. eexists; reflexivity.
    - destruct Hp as (c & t & Hp). unfold what_of. rewrite Hp. eexists; reflexivity. }
  destruct Hstep as [t ->]. destruct (put_const k t s Hk) as (s1 & -> & E1). cbn [obind].
  destruct (IH s1) as (s2 & -> & E2).
  - eapply Forall_impl; [|exact Hps]. intros q Hq. eapply part_const_sim with (G' := []); [exact Hq|]. rewrite E1. apply sim_refl.
  - exists s2. split; [reflexivity|congruence].
Qed.
Lemma inserts_const l : forall s, msgs_const s l -> exists s', exec (seqs (inserts l)) s = Norm tt s' /\ s_frames s' = s_frames s.
Proof.
  induction l as [|q l IH]; intros s H; [eexists; split; reflexivity|].
  inversion H as [|? ? [Hk Hp] Hl]; subst. unfold inserts. cbn [map]. rewrite exec_seqs_cons. fold (inserts l).
  cbn [MacroModel.exec]. destruct (insert_const (fst q) (snd q) Hk s Hp) as (s1 & -> & E1). cbn [obind].
  destruct (IH s1) as (s2 & -> & E2).
  - eapply msgs_const_sim with (G' := []); [exact Hl|]. rewrite E1. apply sim_refl.
  - exists s2. split; [reflexivity|congruence].
Qed.
Lemma branch_const b l s : msgs_const s l -> room s 1 -> exists s', exec (branch b l) s = Norm tt s' /\ tracked s s' (zif b) 1.
Proof.
  intros Hl HR. unfold branch. destruct b; cbn [app zif].
  - rewrite exec_seqs_cons. destruct (count_failure_exec s HR) as (s1 & -> & H1). cbn [obind].
    destruct (inserts_const l s1) as (s2 & -> & E2); [eapply msgs_const_sim; [exact Hl|apply H1]|].
    exists s2. split; [reflexivity|].
    eapply tracked_eq; [eapply tracked_trans; [exact H1|apply frames_tracked, E2]|lia|lia].
  - destruct (inserts_const l s Hl) as (s2 & -> & E2). exists s2. split; [reflexivity|].
    eapply tracked_more; [apply frames_tracked, E2|lia].
Qed.
Lemma insert_texts_out ts (s : St) : exists t, insert Cout (map PStr ts) s = Norm tt (add_out t s).
Proof.
  revert s; induction ts as [|u ts IH]; intros s; cbn [map MacroModel.insert].
  - exists []. now rewrite add_out_nil.
  - cbn [put obind]. destruct (IH (add_out u s)) as [t ->]. exists (u ++ t). now rewrite add_out_twice.
Qed.
Lemma incr_other c s : In c others -> room s 1 -> exists k s', eval (EIncr c) s = Norm k s' /\ tracked s s' 0 1.
Proof.
  intros Hc HR. assert (Hc' : In c counters) by (cbn in *; tauto). destruct (HR c Hc') as (k & Hk & L). unfold counter in Hk.
  cbn [MacroModel.eval]. unfold read_var. rewrite Hk. cbn [obind].
  replace (k + 1 <? 2 ^ 31) with true by (symmetry; now apply Z.ltb_lt). unfold write_var. rewrite Hk. cbn [obind].
  eexists _, _. split; [reflexivity|]. split; [|split; [lia|split]].
  - cbn. eapply sim_assign; [|exact Hk]. unfold GA. apply in_app_iff. now right.
  - intros f Hf. unfold counter in *. cbn. rewrite Z.add_0_r. rewrite lookup_assign_other; [exact Hf|].
    intros ->. cbn in Hc. intuition discriminate.
  - intros d j Hd Hj. unfold counter in *. cbn. destruct (String.eqb c d) eqn:E.
    + apply String.eqb_eq in E as ->. rewrite Hk in Hj. inversion Hj; subst. exists (j + 1). split; [|lia].
      apply lookup_assign. now rewrite Hk.
    + apply String.eqb_neq in E. exists j. split; [|lia]. rewrite lookup_assign_other; auto.
Qed.

(** *** blocks *)
Lemma room_out (s : St) t n : room s n -> room (push [] (add_out t s)) n.
Proof. intros H. apply room_push; [apply no_counter_nil|exact H]. Qed.
Lemma eqv_inner t (s : St) : eqv_by fe s (push [] (add_out t s)).
Proof. repeat split. cbn. apply fe_r, fe_refl. Qed.
Lemma fe_trans_inner (s s1 : St) t : eqv_by fe s s1 -> eqv_by fe s (push [] (add_out t s1)).
Proof. intros (A & B & C). repeat split; auto. cbn. now apply fe_r. Qed.
Lemma leave_out {A} (m : outc St A) t s d n :
  std_out m (fun s' => tracked (push [] (add_out t s)) s' d n) -> std_out (leave m) (fun s' => tracked s s' d n).
Proof. intros H. apply scope_hoare in H; [exact H|apply no_counter_nil]. Qed.
Lemma block_texts ts c (s : St) : exists t, exec (brace [cout (map PStr ts); c]) s = leave (exec c (push [] (add_out t s))).
Proof.
  unfold brace, cout. cbn [seqs MacroModel.exec]. destruct (insert_texts_out ts (push [] s)) as [t ->]. exists t. reflexivity.
Qed.
Lemma seq_branch_hoare c b l s d n :
  std_out (exec c s) (fun s' => tracked s s' d n) -> (forall s', msgs_const s' l) -> room s (n + 1) ->
  std_out (exec (SSeq c (branch b l)) s) (fun s' => tracked s s' (d + match exec c s with Norm _ _ => zif b | _ => 0 end) (n + 1))
  /\ thrown (exec (SSeq c (branch b l)) s) = thrown (exec c s).
Proof.
  intros H Hl HR. cbn [MacroModel.exec]. destruct (exec c s) as [u s1|x s1|r|]; cbn in H; try contradiction; cbn [obind].
  - destruct (branch_const b l s1 (Hl s1)) as (s2 & -> & T2); [eapply room_tracked; [exact HR|exact H]|].
    split; [|reflexivity]. eapply tracked_trans; eauto.
  - split; [|reflexivity]. destruct H as [Hx H]. split; [exact Hx|]. eapply tracked_eq; [exact H|lia|lia].
Qed.
Definition handler_ok (p : excn -> bool) (x : option name) (l : list (sink * list part)) : Prop :=
  forall e (s : St), p e = true -> is_std e = true -> msgs_const (push (bound x e) s) l /\ no_counter (bound x e).
Lemma try_hoare body p1 x1 b1 l1 p2 x2 b2 l2 s d n :
  std_out (exec body (push [] s)) (fun s' => tracked (push [] s) s' d n) -> room s (n + 1) ->
  handler_ok p1 x1 l1 -> handler_ok p2 x2 l2 ->
  std_out (exec (STry body p1 x1 (branch b1 l1) p2 x2 (branch b2 l2)) s) (fun s' => tracked s s'
    (d + match thrown (exec body (push [] s)) with
         | Some e => if p1 e then zif b1 else if p2 e then zif b2 else 0 | None => 0 end) (n + 1)).
Proof.
  intros H HR H1 H2. cbn [MacroModel.exec].
  destruct (exec body (push [] s)) as [u s1|x s1|r|]; cbn in H; try contradiction; cbn [leave thrown].
  - eapply tracked_eq; [eapply tracked_scope; [apply no_counter_nil|exact H]|lia|lia].
  - destruct H as [Hx H]. apply tracked_scope in H; [|apply no_counter_nil].
    assert (HR1 : room (pop s1) 1) by (eapply room_tracked; [exact HR|exact H]).
    destruct (p1 x) eqn:E1; [|destruct (p2 x) eqn:E2].
    + destruct (H1 x (pop s1) E1 Hx) as [Hm Hn].
      destruct (branch_const b1 l1 _ Hm) as (s2 & -> & T2); [now apply room_push|].
      cbn. eapply tracked_trans; [exact H|]. now apply tracked_scope with (f := bound x1 x).
    + destruct (H2 x (pop s1) E2 Hx) as [Hm Hn].
      destruct (branch_const b2 l2 _ Hm) as (s2 & -> & T2); [now apply room_push|].
      cbn. eapply tracked_trans; [exact H|]. now apply tracked_scope with (f := bound x2 x).
    + split; [exact Hx|]. eapply tracked_eq; [exact H|lia|lia].
Qed.
Ltac solve_const :=
  repeat first [ apply Forall_nil | apply Forall_cons; [split; [exact I|]|]
               | apply Forall_cons; [first [exact I | eexists; reflexivity | eexists _, _; reflexivity]|] ].
Lemma except_not_counter e : no_counter [("except"%string, CExn e)].
Proof. apply no_counter_cons; [cbn; intuition discriminate|apply no_counter_nil]. Qed.
Lemma err_not_counter e : no_counter [("err"%string, CExn e)].
Proof. apply no_counter_cons; [cbn; intuition discriminate|apply no_counter_nil]. Qed.

Definition counts (p : prog) : Prop := forall s, scoped vs s -> room s (size p) ->
  std_out (exec (prog_stmt p) s) (fun s' => tracked s s' (tally call ltr p s) (size p)).
Lemma inner_prog p s s1 : counts p -> eqv_by fe s s1 -> scoped vs s1 -> room s1 (size p) ->
  std_out (exec (prog_stmt p) s1) (fun s' => tracked s1 s' (tally call ltr p s) (size p))
  /\ thrown (exec (prog_stmt p) s1) = thrown (exec (prog_stmt p) s).
Proof.
  intros HC HE Hs HR. split.
  - rewrite (tally_eqv p s s1 HE). now apply HC.
  - symmetry. eapply oeqv_thrown. now apply prog_eqv.
Qed.
Lemma size_pos p : 1 <= size p.
Proof. induction p; cbn; lia. Qed.

(** [try { body } HELPER_TEST_CATCH(message)] *)
Lemma try_catch_hoare body l msg s d n :
  std_out (exec body (push [] s)) (fun s' => tracked (push [] s) s' d n) -> room s (n + 1) ->
  (forall s', Forall (part_const s') msg) ->
  std_out (exec (try_catch body l msg) s) (fun s' => tracked s s'
    (d + match thrown (exec body (push [] s)) with Some _ => 1 | None => 0 end) (n + 1)).
Proof.
  intros H HR Hm. unfold try_catch.
  set (l1 := [(Cout, [lit "exception: """; PWhat "except"; nl """"; endl]);
              (Cerr, (p_error l ++ msg ++ [lit " throwed """; PWhat "except"; lit """."; endl])%list)]).
  set (l2 := [(Cout, [nl "unknown exception"; endl]);
              (Cerr, (p_error l ++ msg ++ [lit " throwed an unknown exception."; endl])%list)]).
  change (std_out (exec (STry body is_std (Some "except"%string) (branch true l1) any None (branch true l2)) s) (fun s' => tracked s s'
    (d + match thrown (exec body (push [] s)) with Some _ => 1 | None => 0 end) (n + 1))).
  eapply std_weaken; [eapply (try_hoare body _ _ true l1 _ _ true l2); [exact H|exact HR| |]|].
  - intros e s' _ He. split; [|apply except_not_counter]. destruct e as [c t|]; [|discriminate].
    unfold l1. repeat (apply Forall_cons; [split; [exact I|]|]); [| |apply Forall_nil].
    + solve_const.
    + cbn [snd]. unfold p_error, p_loc. apply Forall_app. split; [solve_const|]. apply Forall_app. split; [apply Hm|solve_const].
  - intros e s' _ He. split; [|apply no_counter_nil].
    unfold l2. repeat (apply Forall_cons; [split; [exact I|]|]); [| |apply Forall_nil].
    + solve_const.
    + cbn [snd]. unfold p_error, p_loc. apply Forall_app. split; [solve_const|]. apply Forall_app. split; [apply Hm|solve_const].
  - intros s' Hs'. eapply tracked_eq; [exact Hs'| |lia]. destruct (thrown _) as [e|]; [|reflexivity].
    destruct (is_std e); reflexivity.
Qed.

Ltac texts := lazymatch goal with |- context [brace [cout ?ps; ?c]] =>
  let rec go l := lazymatch l with
    | [] => constr:(@nil text)
    | PStr ?t :: ?r => let r' := go r in constr:(t :: r')
    end in
  let ps' := eval cbv [stars nl nl2 lit endl] in ps in
  let ts := go ps' in change (cout ps) with (cout (map PStr ts)) end.
Lemma eval_in e s0 s : user_expr vs e -> scoped vs s -> eqv_by fe s0 s ->
  std_out (eval e s) (fun s' => tracked s s' 0 0) /\ thrown (eval e s) = thrown (eval e s0).
Proof.
  intros He Hs HE. split.
  - eapply std_weaken; [apply eval_hoare; [apply user_quiet, He|now apply user_vals]|].
    intros s' H'. apply sim_tracked; [exact H'|lia].
  - symmetry. eapply oeqv_thrown, eval_eqv; [apply (good_al 0)|exact HE].
Qed.
Ltac enter t := texts; lazymatch goal with |- std_out (MacroModel.exec _ _ (brace [cout (map PStr ?ts); ?c]) ?s) _ =>
  destruct (block_texts ts c s) as [t ->] end.
Lemma eqv_inner2 t (s : St) : eqv_by fe s (push [] (push [] (add_out t s))).
Proof. repeat split. cbn. apply fe_r, fe_r, fe_refl. Qed.
Lemma room_in (s : St) n m : room s n -> m <= n -> room (push [] s) m.
Proof. intros H L. apply room_push; [apply no_counter_nil|]. eapply room_less; eauto. Qed.
Lemma scoped_out t (s : St) : scoped vs s -> scoped vs (push [] (push [] (add_out t s))).
Proof. intros H x Hx. cbn. now apply H. Qed.
Ltac as_branch c := let q := get_branch c in lazymatch q with (?b, ?l) => constr:(branch b l) end.
Ltac unfold_msgs := unfold count_failure, cout, cerr, p_error, p_loc; cbn [app seqs].
Lemma prog_counts p : wf_prog call ltr vs p -> counts p.
Proof.
  induction p; cbn [wf_prog]; intros Hwf s Hs HR; cbn [prog_stmt tally size] in *.
  - now apply check_hoare.
  - cbn [MacroModel.exec]. destruct (eval_in e s s Hwf Hs) as [H _]; [repeat split; apply fe_refl|].
    eapply std_obind; [exact H| |]; cbn beta; intros; (eapply tracked_more; [eassumption|lia]).
  - destruct Hwf as [W1 W2]. pose proof (size_pos p1). pose proof (size_pos p2).
    cbn [MacroModel.exec]. assert (HR1 : room s (size p1)) by (eapply room_less; [exact HR|lia]). specialize (IHp1 W1 s Hs HR1).
    destruct (exec (prog_stmt p1) s) as [u s1|x s1|r|]; cbn in IHp1; try contradiction; cbn [obind].
    + eapply std_weaken; [apply (IHp2 W2)|].
      * eapply scoped_tracked; eauto.
      * eapply room_tracked; [exact HR|exact IHp1].
      * intros s' Hs'. eapply tracked_trans; eauto.
    + destruct IHp1 as [Hx T]. split; [exact Hx|]. eapply tracked_eq; [exact T|lia|lia].
  - (* CLASS *) unfold HELPER_TEST_CLASS. enter t.
    destruct (inner_prog p s (push [] (add_out t s)) (IHp Hwf) (eqv_inner t s)) as [H _]; auto.
    + apply room_out. eapply room_less; [exact HR|lia].
    + eapply leave_out, std_weaken; [exact H|]. intros s' Hs'. eapply tracked_more; [exact Hs'|lia].
  - (* CALL *) unfold HELPER_TEST_CALL. enter t'.
    destruct (inner_prog p s _ (IHp Hwf) (eqv_inner2 t' s)) as [H HT]; [now apply scoped_out|apply room_in with (n := size p + 2); [apply room_out, HR|lia]|].
    eapply leave_out. unfold_msgs.
    lazymatch goal with |- context [STry _ _ _ ?h1 _ _ ?h2] => let d1 := as_branch h1 in change h1 with d1; change h2 with (branch false []) end.
    eapply std_weaken; [apply try_hoare; [exact H| | |]|].
    + apply room_out. eapply room_less; [exact HR|lia].
    + intros e s' _ He. split; [|apply except_not_counter]. destruct e as [c u|]; [|discriminate]. solve_const.
    + intros e s' Hn. discriminate.
    + intros s' Hs'. eapply tracked_eq; [exact Hs'| |lia]. rewrite HT. f_equal.
      rewrite <- HT. destruct (exec (prog_stmt p) (push [] (push [] (add_out t' s)))); cbn in H |- *; try reflexivity.
      now destruct H as [-> _].
  - (* TRY *) unfold HELPER_TEST_TRY. enter t'.
    destruct (inner_prog p s _ (IHp Hwf) (eqv_inner2 t' s)) as [H HT]; [now apply scoped_out|apply room_in with (n := size p + 2); [apply room_out, HR|lia]|].
    eapply leave_out. unfold cout.
    change (SInsert Cout [nl " (ok)"; endl]) with (branch false [(Cout, [nl " (ok)"; endl])]).
    destruct (seq_branch_hoare (prog_stmt p) false [(Cout, [nl " (ok)"; endl])] _ _ _ H) as [H2 HT2].
    + intros s'. solve_const.
    + apply room_in with (n := size p + 2); [apply room_out, HR|lia].
    + eapply std_weaken; [eapply try_catch_hoare; [exact H2| |]|].
      * apply room_out. eapply room_less; [exact HR|lia].
      * intros s'. solve_const.
      * intros s' Hs'. eapply tracked_eq; [exact Hs'| |lia]. rewrite HT2, HT.
        destruct (exec (prog_stmt p) (push [] (push [] (add_out t' s)))); cbn; lia.
  - (* EXECUTE *) unfold HELPER_TEST_EXECUTE.
    change (brace [cout [PStr t; lit ": "]; prog_stmt p; cout [nl " (ok)"; endl]])
      with (brace [cout [PStr t; lit ": "]; SSeq (prog_stmt p) (branch false [(Cout, [nl " (ok)"; endl])])]). enter t'.
    destruct (inner_prog p s (push [] (add_out t' s)) (IHp Hwf) (eqv_inner t' s)) as [H _]; auto.
    + apply room_out. eapply room_less; [exact HR|lia].
    + destruct (seq_branch_hoare (prog_stmt p) false [(Cout, [nl " (ok)"; endl])] _ _ _ H) as [H2 _].
      * intros s'. solve_const.
      * apply room_out. eapply room_less; [exact HR|lia].
      * eapply leave_out, std_weaken; [exact H2|]. intros s' Hs'. eapply tracked_eq; [exact Hs'| |lia].
        destruct (exec (prog_stmt p) (push [] (add_out t' s))); cbn; lia.
  - (* THROWS *) unfold HELPER_TEST_THROWS. enter t'.
    destruct (inner_prog p s _ (IHp Hwf) (eqv_inner2 t' s)) as [H HT]; [now apply scoped_out|apply room_in with (n := size p + 2); [apply room_out, HR|lia]|].
    eapply leave_out. unfold_msgs.
    lazymatch goal with |- context [STry (SSeq _ ?c) _ _ ?h1 _ _ ?h2] =>
      let d0 := as_branch c in let d1 := as_branch h1 in let d2 := as_branch h2 in
      change c with d0; change h1 with d1; change h2 with d2 end.
    lazymatch goal with |- context [STry (SSeq _ (branch true ?l0)) _ _ _ _ _ _] =>
      destruct (seq_branch_hoare (prog_stmt p) true l0 _ _ _ H) as [H2 HT2] end.
    + intros s'. solve_const.
    + apply room_in with (n := size p + 2); [apply room_out, HR|lia].
    + eapply std_weaken; [apply try_hoare; [exact H2| | |]|].
      * apply room_out. eapply room_less; [exact HR|lia].
      * intros e s' _ He. split; [|apply err_not_counter]. solve_const.
      * intros e s' _ He. split; [|apply except_not_counter]. destruct e as [c u|]; [|discriminate]. solve_const.
      * intros s' Hs'. eapply tracked_eq; [exact Hs'| |lia]. rewrite HT2. rewrite <- HT.
        destruct (exec (prog_stmt p) (push [] (push [] (add_out t' s)))) as [? ?|x ?| |]; cbn in H |- *; try contradiction; [lia|].
        destruct H as [Hx _]. rewrite Hx. destruct (error x); cbn; lia.
  - (* FAIL *) unfold HELPER_TEST_FAIL. enter t'.
    destruct (inner_prog p s _ (IHp Hwf) (eqv_inner2 t' s)) as [H HT]; [now apply scoped_out|apply room_in with (n := size p + 2); [apply room_out, HR|lia]|].
    eapply leave_out. unfold_msgs.
    lazymatch goal with |- context [STry (SSeq _ ?c) _ _ ?h1 _ _ ?h2] =>
      let d0 := as_branch c in let d1 := as_branch h1 in
      change c with d0; change h1 with d1; change h2 with (branch false []) end.
    lazymatch goal with |- context [STry (SSeq _ (branch true ?l0)) _ _ _ _ _ _] =>
      destruct (seq_branch_hoare (prog_stmt p) true l0 _ _ _ H) as [H2 HT2] end.
    + intros s'. solve_const.
    + apply room_in with (n := size p + 2); [apply room_out, HR|lia].
    + eapply std_weaken; [apply try_hoare; [exact H2| | |]|].
      * apply room_out. eapply room_less; [exact HR|lia].
      * intros e s' _ He. split; [|apply no_counter_nil]. solve_const.
      * intros e s' Hn. discriminate.
      * intros s' Hs'. eapply tracked_eq; [exact Hs'| |lia]. rewrite HT2. rewrite <- HT.
        destruct (exec (prog_stmt p) (push [] (push [] (add_out t' s)))) as [? ?|x ?| |]; cbn in H |- *; try contradiction; lia.
  - (* EVALUATE *) unfold HELPER_TEST_EVALUATE. enter t'. eapply leave_out.
    set (s2 := push [] (push [] (add_out t' s))).
    destruct (eval_in e s s2 Hwf (scoped_out t' s Hs) (eqv_inner2 t' s)) as [H HT].
    assert (HB : std_out (exec (cout [PExp e; nl ""; endl]) s2) (fun s' => tracked s2 s' 0 0) /\
                 thrown (exec (cout [PExp e; nl ""; endl]) s2) = thrown (eval e s2)).
    { unfold cout, nl, endl. cbn [MacroModel.exec MacroModel.insert].
      destruct (eval e s2) as [z s3|x s3| |]; cbn in H; try contradiction; cbn [obind put]; auto. }
    destruct HB as [HB1 HB2]. eapply std_weaken; [eapply (try_catch_hoare _ _ _ (push [] (add_out t' s))); [exact HB1| |]|].
    + apply room_out. eapply room_less; [exact HR|lia].
    + intros s'. solve_const.
    + intros s' Hs'. eapply tracked_eq; [exact Hs'| |lia]. fold s2. now rewrite HB2, HT.
  - (* PRINT *) unfold HELPER_TEST_PRINT. enter t'. eapply leave_out. set (s2 := push [] (add_out t' s)).
    destruct (eval_in e s s2 Hwf ltac:(exact Hs) (eqv_inner t' s)) as [H _].
    unfold cout, nl, endl. cbn [MacroModel.exec MacroModel.insert].
    destruct (eval e s2) as [z s3|x s3| |]; cbn in H; try contradiction; cbn [obind put std_out].
    + eapply tracked_more; [exact H|lia].
    + destruct H as [Hx H]. split; [exact Hx|]. eapply tracked_more; [exact H|lia].
  - (* ASSIGN *) destruct Hwf as [Hx Hu]. unfold HELPER_TEST_ASSIGN. enter t'. eapply leave_out.
    set (s2 := push [] (push [] (add_out t' s))).
    destruct (eval_in e s s2 Hu (scoped_out t' s Hs) (eqv_inner2 t' s)) as [H HT].
    set (body := SSeq (SExpr (EAssign x e)) (cout [PExp (EVar x); nl ""; endl])).
    assert (HB : std_out (exec body s2) (fun s' => tracked s2 s' 0 0) /\ thrown (exec body s2) = thrown (eval e s2)).
    { unfold body, cout, nl, endl. cbn [MacroModel.exec MacroModel.insert MacroModel.eval].
      destruct (eval e s2) as [z s3|y s3| |]; cbn in H; try contradiction; cbn [obind put]; auto.
      assert (Hs3 : scoped vs s3) by (eapply scoped_tracked; [apply scoped_out, Hs|exact H]).
      destruct (Hs3 x Hx) as [v Hv]. unfold write_var. rewrite Hv. cbn [obind]. unfold read_var. cbn [s_frames with_frames].
      rewrite lookup_assign by now rewrite Hv. cbn [obind put std_out thrown]. split; [|reflexivity].
      refine (tracked_trans s2 s3 _ 0 0 0 0 H _).
      apply sim_tracked; [|lia]. cbn. eapply sim_assign; [|exact Hv]. unfold G. apply in_app_iff. auto. }
    destruct HB as [HB1 HB2]. eapply std_weaken; [eapply (try_catch_hoare _ _ _ (push [] (add_out t' s))); [exact HB1| |]|].
    + apply room_out. eapply room_less; [exact HR|lia].
    + intros s'. solve_const.
    + intros s' Hs'. eapply tracked_eq; [exact Hs'| |lia]. fold s2. now rewrite HB2, HT.
  - (* SKIP *) unfold HELPER_TEST_SKIP.
    lazymatch goal with |- context [brace [?a; ?b; ?c]] => change (brace [a; b; c]) with (brace [a; SSeq b c]) end. enter t'.
    eapply leave_out. cbn [MacroModel.exec].
    destruct (incr_other "HELPER_TEST_SKIPPED" (push [] (add_out t' s))) as (k & s2 & -> & T).
    + cbn; auto.
    + apply room_out. eapply room_less; [exact HR|lia].
    + unfold cout, endl. cbn [obind MacroModel.exec MacroModel.insert put std_out]. exact T.
  - (* WARN *) unfold HELPER_TEST_WARN. cbn [app]. enter t'. apply (leave_out _ t' s). eapply tracked_more; [apply frames_tracked; reflexivity|lia].
  - (* NOTIFY *) unfold HELPER_TEST_NOTIFY. cbn [app]. enter t'. apply (leave_out _ t' s). eapply tracked_more; [apply frames_tracked; reflexivity|lia].
  - (* COMMENT *) unfold HELPER_PRINT_TEST_COMMENT. unfold brace. cbn [app seqs MacroModel.exec]. apply (leave_out _ [] s). rewrite add_out_nil.
    eapply tracked_more; [apply frames_tracked; reflexivity|lia].
  - (* TITLE *) unfold HELPER_PRINT_TEST_CASE_TITLE. unfold brace, cout, lit, endl. cbn [app seqs MacroModel.exec MacroModel.insert put obind].
    eapply (leave_out _ (chars "*** ") s).
    destruct (incr_other "test_case_counter" (push [] (add_out (chars "*** ") s))) as (k & s2 & E & T).
    + cbn; auto.
    + apply room_out. eapply room_less; [exact HR|lia].
    + change (add_out (chars "*** ") (push [] s)) with (push [] (add_out (chars "*** ") s)). rewrite E. cbn [obind put std_out]. exact T.
Qed.
End H.

(** ** How often expressions are evaluated *)
Section Once.
Lemma same_refl (s : St) : same s s.
Proof. repeat split. Qed.
Lemma same_trans (s s1 s2 : St) : same s s1 -> same s1 s2 -> same s s2.
Proof. intros (A & B & C) (D & E & F). repeat split; congruence. Qed.
Lemma put_same k t (s : St) : is_std_sink k -> exists s', put k t s = Norm tt s' /\ same s s'.
Proof. destruct k; cbn; try contradiction; intros _; eexists; (split; [reflexivity|repeat split]). Qed.
Definition plain (p : part) : Prop := match p with PStr _ => True | PExp e => exists z, e = ELit z | PWhat _ => False end.
Lemma insert_same k ps : is_std_sink k -> Forall plain ps -> forall s : St, exists s', insert k ps s = Norm tt s' /\ same s s'.
Proof.
  intros Hk. induction 1 as [|p ps Hp Hps IH]; intros s; [eexists; split; [reflexivity|apply same_refl]|].
  assert (Hstep : exists t, insert k (p :: ps) s = obind (put k t s) (fun _ s' => insert k ps s')).
  { destruct p as [t|e|x]; cbn [MacroModel.insert]; [eexists; reflexivity| |contradiction].
    destruct Hp as [z ->]. eexists; reflexivity. }
  destruct Hstep as [t ->]. destruct (put_same k t s Hk) as (s1 & -> & E1). cbn [obind].
  destruct (IH s1) as (s2 & -> & E2). exists s2. split; [reflexivity|]. eapply same_trans; eauto.
Qed.
Definition plain_msgs (l : list (sink * list part)) : Prop := Forall (fun q => is_std_sink (fst q) /\ Forall plain (snd q)) l.
Lemma inserts_same l : plain_msgs l -> forall s : St, exists s', exec (seqs (inserts l)) s = Norm tt s' /\ same s s'.
Proof.
  induction 1 as [|q l [Hk Hp] Hl IH]; intros s; [eexists; split; [reflexivity|apply same_refl]|].
  unfold inserts. cbn [map]. rewrite exec_seqs_cons. fold (inserts l). cbn [MacroModel.exec].
  destruct (insert_same _ _ Hk Hp s) as (s1 & -> & E1). cbn [obind]. destruct (IH s1) as (s2 & -> & E2).
  exists s2. split; [reflexivity|]. eapply same_trans; eauto.
Qed.
Definition small (s : St) : Prop := exists n, counter "HELPER_TEST_FAILURES" s n /\ n + 1 < 2 ^ 31.
Definition after (b : bool) (s s' : St) : Prop := if b then one_more s s' else same s s'.
Lemma branch_once b l (s : St) : plain_msgs l -> (b = true -> small s) -> exists s', exec (branch b l) s = Norm tt s' /\ after b s s'.
Proof.
  intros Hl Hb. unfold branch. destruct b; cbn [app after].
  - destruct (Hb eq_refl) as (n & Hn & L). unfold counter in Hn. rewrite exec_seqs_cons. unfold count_failure.
    cbn [MacroModel.exec MacroModel.eval]. unfold read_var. rewrite Hn. cbn [obind].
    replace (n + 1 <? 2 ^ 31) with true by (symmetry; now apply Z.ltb_lt). unfold write_var. rewrite Hn. cbn [obind].
    match goal with |- context [exec (seqs (inserts l)) ?u] => destruct (inserts_same l Hl u) as (s2 & -> & A & B & C) end.
    exists s2. split; [reflexivity|]. exists n. auto.
  - destruct (inserts_same l Hl s) as (s2 & -> & E). eauto.
Qed.
Definition hides (f : frame) : Prop := find_in "HELPER_TEST_FAILURES" f <> None.
Lemma after_pop b f (s s' : St) : ~ hides f -> after b (push f s) s' -> after b s (pop s').
Proof.
  intros Hf. assert (Hn : find_in "HELPER_TEST_FAILURES" f = None) by (destruct (find_in _ f) eqn:E; [|reflexivity]; exfalso; apply Hf; unfold hides; rewrite E; discriminate).
  destruct b; cbn [after].
  - intros (n & Hc & A & B & C). exists n. unfold counter in *. cbn in Hc, A. rewrite Hn in Hc, A.
    split; [exact Hc|]. split; [cbn; now rewrite A|]. now split.
  - intros (A & B & C). cbn in A. split; [cbn; now rewrite A|]. now split.
Qed.
Lemma small_push f (s : St) : ~ hides f -> small s -> small (push f s).
Proof.
  intros Hf (n & Hn & L). exists n. split; [|exact L]. unfold counter in *. cbn.
  destruct (find_in _ f) eqn:E; [|exact Hn]. exfalso. apply Hf. unfold hides. rewrite E. discriminate.
Qed.
Lemma not_hides_nil : ~ hides [].
Proof. unfold hides. cbn. congruence. Qed.
Lemma not_hides_local x c f : In x locals -> ~ hides f -> ~ hides ((x, c) :: f).
Proof.
  intros Hx Hf. unfold hides. cbn -[String.eqb]. destruct (String.eqb "HELPER_TEST_FAILURES" x) eqn:E; [|exact Hf].
  apply String.eqb_eq in E as <-. cbn in Hx. intuition discriminate.
Qed.
Lemma tail_once x z f b1 l1 b2 l2 (s : St) : In x locals -> ~ hides f ->
  (if truth z then plain_msgs l1 /\ (b1 = true -> small s) else plain_msgs l2 /\ (b2 = true -> small s)) ->
  exists s', leave (exec (SIf (EVar x) (branch b1 l1) (branch b2 l2)) (push ((x, CVal z) :: f) s)) = Norm tt s'
             /\ after (if truth z then b1 else b2) s s'.
Proof.
  intros Hx Hf H. cbn [MacroModel.exec].
  replace (eval (EVar x) (push ((x, CVal z) :: f) s)) with (Norm z (push ((x, CVal z) :: f) s) : outc St Z)
    by (cbn; unfold read_var; cbn; now rewrite String.eqb_refl).
  cbn [obind]. assert (Hf' : ~ hides ((x, CVal z) :: f)) by now apply not_hides_local.
  set (s1 := push ((x, CVal z) :: f) s).
  destruct (truth z); destruct H as [Hl Hb].
  - destruct (branch_once b1 l1 (push [] s1) Hl) as (s2 & -> & A).
    + intros E. apply small_push; [apply not_hides_nil|]. apply small_push; [exact Hf'|]. auto.
    + cbn [leave]. eexists. split; [reflexivity|]. apply after_pop with (f := (x, CVal z) :: f); [exact Hf'|].
      apply after_pop with (f := []); [apply not_hides_nil|exact A].
  - destruct (branch_once b2 l2 (push [] s1) Hl) as (s2 & -> & A).
    + intros E. apply small_push; [apply not_hides_nil|]. apply small_push; [exact Hf'|]. auto.
    + cbn [leave]. eexists. split; [reflexivity|]. apply after_pop with (f := (x, CVal z) :: f); [exact Hf'|].
      apply after_pop with (f := []); [apply not_hides_nil|exact A].
Qed.
Lemma eval_same e (s s' : St) : same s s' ->
  match eval e s, eval e s' with
  | Norm v s1, Norm v' s1' => v = v' /\ same s1 s1'
  | Thrown x s1, Thrown x' s1' => x = x' /\ same s1 s1'
  | Undef r, Undef r' => r = r'
  | Ill, Ill => True
  | _, _ => False
  end.
Proof.
  intros (A & B & C). assert (HG : good_rel eq) by (split; [congruence|intros; congruence]).
  pose proof (eval_eqv eq HG e s s') as H. specialize (H ltac:(repeat split; congruence)).
  destruct (eval e s), (eval e s'); cbn in H; try contradiction; auto; destruct H as [-> (D & E & F)]; repeat split; congruence.
Qed.
Lemma after_same b (s s1 s' : St) : same s s1 -> after b s1 s' -> after b s s'.
Proof.
  intros (A & B & C). destruct b; cbn.
  - intros (n & Hn & D & E & F). exists n. unfold counter in *. rewrite A in *. repeat split; congruence.
  - intros (D & E & F). repeat split; congruence.
Qed.
Lemma small_same (s s1 : St) : same s s1 -> small s -> small s1.
Proof. intros (A & _) (n & Hn & L). exists n. unfold counter in *. now rewrite A. Qed.
Lemma check1_once ts auto x cond b1 l1 b2 l2 (s : St) : In x locals -> mentions x cond = false ->
  match eval cond s with
  | Norm v s1 =>
      (if truth v then plain_msgs l1 /\ (b1 = true -> small s1) else plain_msgs l2 /\ (b2 = true -> small s1)) ->
      exists s', exec (check1 (map PStr ts) auto x cond b1 l1 b2 l2) s = Norm tt s' /\ after (if truth v then b1 else b2) s1 s'
  | Thrown e s1 => exists s', exec (check1 (map PStr ts) auto x cond b1 l1 b2 l2) s = Thrown e s' /\ same s1 s'
  | _ => True
  end.
Proof.
  intros Hx Hm. unfold check1.
  change (brace [cout (map PStr ts); SDecl auto x cond; SIf (EVar x) (branch b1 l1) (branch b2 l2)])
    with (brace [cout (map PStr ts); SSeq (SDecl auto x cond) (SIf (EVar x) (branch b1 l1) (branch b2 l2))]).
  destruct (block_texts ts (SSeq (SDecl auto x cond) (SIf (EVar x) (branch b1 l1) (branch b2 l2))) s) as [t ->].
  assert (HT : same s (add_out t s)) by (repeat split).
  pose proof (eval_same cond _ _ HT) as HE.
  set (i := if auto then CUndeduced else CIndet).
  assert (HD : exec (SDecl auto x cond) (push [] (add_out t s))
     = obind (omap (push [(x, i)]) (eval cond (add_out t s))) (fun z s2 => Norm tt (define x z s2))).
  { cbn [MacroModel.exec]. fold i.
    replace (declare x i (push [] (add_out t s))) with (Norm tt (push [(x, i)] (add_out t s)) : outc St unit) by reflexivity.
    cbn [obind]. rewrite <- insS_0, eval_ins by (now apply avoids_one). reflexivity. }
  destruct (eval cond s) as [v s1|e s1|r|]; try exact I.
  - intros H. destruct (eval cond (add_out t s)) as [v' s1'|? ?|?|]; try contradiction. destruct HE as [<- HS].
    change (exec (SSeq ?a ?b) ?u) with (obind (exec a u) (fun _ s' => exec b s')).
    rewrite HD. cbn [omap obind]. rewrite push_define.
    destruct (tail_once x v [] b1 l1 b2 l2 s1' Hx not_hides_nil) as (s2 & -> & HA).
    + destruct (truth v); destruct H as [H1 H2]; (split; [exact H1|]); intros E; eapply small_same; eauto.
    + exists s2. split; [reflexivity|]. eapply after_same; eauto.
  - destruct (eval cond (add_out t s)) as [? ?|e' s1'|?|]; try contradiction. destruct HE as [<- HS].
    change (exec (SSeq ?a ?b) ?u) with (obind (exec a u) (fun _ s' => exec b s')).
    rewrite HD. cbn [omap obind leave]. eexists. split; [reflexivity|]. now rewrite pop_push.
Qed.
Ltac solve_plain :=
  repeat first [ apply Forall_nil | apply Forall_cons; [split; [exact I|]|]
               | apply Forall_cons; [first [exact I | eexists; reflexivity]|] ].
Ltac pre_to_texts := lazymatch goal with |- context [check1 ?ps ?a ?x ?c ?b1 ?l1 ?b2 ?l2] =>
  let rec go l := lazymatch l with
    | [] => constr:(@nil text)
    | PStr ?t :: ?r => let r' := go r in constr:(t :: r')
    end in
  let ps' := eval cbv [stars nl nl2 lit endl] in ps in
  let ts := go ps' in
  change (check1 ps a x c b1 l1 b2 l2) with (check1 (map PStr ts) a x c b1 l1 b2 l2);
  pose proof (check1_once ts a x c b1 l1 b2 l2) as Honce end.
Ltac use_once H s Hm := specialize (H s ltac:(cbn; auto));
  match type of H with mentions ?y _ = false -> _ => specialize (H (Hm y ltac:(cbn; auto))) end.
Lemma passing_once l k c (s : St) v s1 : condition k = Some c -> (forall y, In y locals -> mentions y c = false) ->
  eval c s = Norm v s1 -> truth v = expected k -> exists s', exec (check_stmt l k) s = Norm tt s' /\ same s1 s'.
Proof.
  intros Hc Hm He Hv. destruct k; cbn [condition] in Hc; inversion Hc; subst c; clear Hc; cbn [expected] in Hv;
    (unfold_check; match goal with |- context [MacroModel.exec _ _ ?c _] => let d := as_check1 c in change c with d end;
     pre_to_texts; use_once Honce s Hm; rewrite He, Hv in Honce;
     apply Honce; (split; [solve_plain|discriminate])).
Qed.
Lemma throwing_once l k c (s : St) x s1 : condition k = Some c -> (forall y, In y locals -> mentions y c = false) ->
  eval c s = Thrown x s1 -> exists s', exec (check_stmt l k) s = Thrown x s' /\ same s1 s'.
Proof.
  intros Hc Hm He. destruct k; cbn [condition] in Hc; inversion Hc; subst c; clear Hc;
    (unfold_check; match goal with |- context [MacroModel.exec _ _ ?c _] => let d := as_check1 c in change c with d end;
     pre_to_texts; use_once Honce s Hm; rewrite He in Honce;
     exact Honce).
Qed.
Lemma assert_once l t e (s : St) s1 : (forall y, In y locals -> mentions y e = false) ->
  eval e s = Norm 0 s1 -> small s1 -> exists s', exec (check_stmt l (KAssert t e)) s = Norm tt s' /\ one_more s1 s'.
Proof.
  intros Hm He Hs. unfold_check; match goal with |- context [MacroModel.exec _ _ ?c _] => let d := as_check1 c in change c with d end;
     pre_to_texts; use_once Honce s Hm; rewrite He in Honce. cbn [truth Z.eqb negb] in Honce.
  apply Honce; (split; [solve_plain|auto]).
Qed.
Lemma within_once l t1 t2 e x tol (s : St) d s1 t s2 :
  (forall y, In y locals -> mentions y e = false /\ mentions y x = false /\ mentions y tol = false) ->
  eval (ESub e x) s = Norm d s1 -> eval tol s1 = Norm t s2 -> Z.abs d <= t ->
  exists s', exec (check_stmt l (KWithin t1 t2 e x tol)) s = Norm tt s' /\ same s2 s'.
Proof.
  intros Hm He Ht Hd. cbn [check_stmt]. unfold HELPER_TEST_WITHIN. rewrite exec_brace2.
  assert (HI : exists u, exec (cout [PStr t1; lit " ~ "; PStr t2; lit ": "]) (push [] s) = Norm tt (push [] (add_out u s))).
  { unfold cout, lit. cbn [MacroModel.exec MacroModel.insert put obind]. rewrite !add_out_twice. eexists; reflexivity. }
  destruct HI as [u ->]. cbn [obind].
  assert (HT : same s (add_out u s)) by (repeat split).
  pose proof (eval_same (ESub e x) _ _ HT) as HE. rewrite He in HE.
  destruct (eval (ESub e x) (add_out u s)) as [d' s1'|? ?|?|] eqn:E1; try contradiction. destruct HE as [<- HS1].
  assert (HD : exec (SDecl true "error" (EAbs (ESub e x))) (push [] (add_out u s)) = Norm tt (push [("error"%string, CVal (Z.abs d))] s1')).
  { cbn [MacroModel.exec].
    replace (declare "error" CUndeduced (push [] (add_out u s))) with (Norm tt (push [("error"%string, CUndeduced)] (add_out u s)) : outc St unit) by reflexivity.
    cbn [obind]. rewrite <- insS_0, eval_ins.
    - change (eval (EAbs (ESub e x)) (add_out u s)) with (obind (eval (ESub e x) (add_out u s)) (fun a s' => Norm (Z.abs a) s')).
      rewrite E1. cbn [obind omap]. now rewrite insS_0, push_define.
    - apply avoids_one. cbn. destruct (Hm "error"%string) as (A & B & _); [cbn; auto|]. now rewrite A, B. }
  rewrite HD. cbn [obind].
  pose proof (eval_same tol _ _ HS1) as HE2. rewrite Ht in HE2.
  destruct (eval tol s1') as [t' s2'|? ?|?|] eqn:E2; try contradiction. destruct HE2 as [<- HS2].
  cbn [seqs]. change (exec (SSeq ?a ?b) ?w) with (obind (exec a w) (fun _ s' => exec b s')).
  set (f := [("error"%string, CVal (Z.abs d))]).
  assert (HD2 : exec (SDecl false "ok" (ECmp CLe (EVar "error") tol)) (push f s1') = Norm tt (push (("ok"%string, CVal 1) :: f) s2')).
  { cbn [MacroModel.exec].
    replace (declare "ok" CIndet (push f s1')) with (Norm tt (push (("ok"%string, CIndet) :: f) s1') : outc St unit) by reflexivity.
    cbn [obind MacroModel.eval]. set (f2 := ("ok"%string, CIndet) :: f).
    assert (Hread : forall w : St, read_var "error" (push f2 w) = Norm (Z.abs d) (push f2 w)) by reflexivity.
    assert (Htol : eval tol (push f2 s1') = Norm t (push f2 s2')).
    { rewrite <- (insS_0 f2 s1'), eval_ins.
      - rewrite E2. cbn [omap]. now rewrite insS_0.
      - intros y Hy. unfold f2, f. cbn.
        destruct (String.eqb y "ok") eqn:Q1; [apply String.eqb_eq in Q1; subst y; destruct (Hm "ok"%string) as (_ & _ & R); [cbn; auto|congruence]|].
        destruct (String.eqb y "error") eqn:Q2; [apply String.eqb_eq in Q2; subst y; destruct (Hm "error"%string) as (_ & _ & R); [cbn; auto|congruence]|].
        reflexivity. }
    unfold both. assert (HL : Z.abs d <=? t = true) by now apply Z.leb_le.
    destruct ltr; repeat (rewrite ?Hread, ?Htol; cbn [obind compare_vals]); rewrite HL; reflexivity. }
  rewrite HD2. cbn [obind].
  unfold ctrue, count_failure, cout, cerr, p_error, p_loc. cbn [app seqs].
  lazymatch goal with |- context [SIf (EVar "ok"%string) ?c1 ?c2] =>
    let q1 := get_branch c1 in let q2 := get_branch c2 in
    lazymatch q1 with (?b1, ?l1) => lazymatch q2 with (?b2, ?l2) =>
      change c1 with (branch b1 l1); change c2 with (branch b2 l2);
      destruct (tail_once "ok"%string 1 f b1 l1 b2 l2 s2') as (s3 & -> & HA) end end end.
  - cbn; auto.
  - apply not_hides_local; [cbn; auto|apply not_hides_nil].
  - cbn [truth Z.eqb negb]. split; [solve_plain|discriminate].
  - exists s3. split; [reflexivity|]. eapply after_same with (b := false); eauto.
Qed.
End Once.

(** ** Whole programs *)
Lemma program_counts vs p s n : vars_ok vs -> only_std call -> wf_prog call ltr vs p -> scoped vs s -> room s (size p) ->
  counter "HELPER_TEST_FAILURES" s n ->
  exists s', ended (exec (prog_stmt p) s) s' /\ counter "HELPER_TEST_FAILURES" s' (n + tally call ltr p s).
Proof.
  intros Hv Hs Hw Hsc HR Hn. pose proof (prog_counts vs Hv Hs p Hw s Hsc HR) as H.
  destruct (exec (prog_stmt p) s) as [[] s'|x s'|r|]; cbn in H; try contradiction.
  - exists s'. split; [now left|]. now apply H.
  - exists s'. split; [right; eauto|]. now apply H.
Qed.
Lemma find_start (l : list (name * Z)) x : In x (map fst l) -> exists z, find_in x (map (fun q => (fst q, CVal (snd q))) l) = Some (CVal z).
Proof.
  induction l as [|[y z] l IH]; cbn; [contradiction|]. intros [<-|H]; [rewrite String.eqb_refl; eauto|].
  destruct (String.eqb x y); [eauto|auto].
Qed.
Lemma find_start_none (l : list (name * Z)) x : ~ In x (map fst l) -> find_in x (map (fun q => (fst q, CVal (snd q))) l) = None.
Proof.
  induction l as [|[y z] l IH]; cbn; [auto|]. intros H. destruct (String.eqb x y) eqn:E; [|apply IH; tauto].
  apply String.eqb_eq in E as ->. tauto.
Qed.
Lemma start_ok l (w : W) n : vars_ok (map fst l) -> n < 2 ^ 31 ->
  scoped (map fst l) (start l w) /\ room (start l w) n /\ counter "HELPER_TEST_FAILURES" (start l w) 0.
Proof.
  intros Hv L. assert (Hc : forall c, In c counters -> counter c (start l w) 0).
  { intros c Hc. unfold counter, start. cbn [s_frames lookup]. rewrite find_start_none.
    - cbn in Hc. destruct Hc as [<-|[<-|[<-|[]]]]; reflexivity.
    - intros Hin. apply (Hv c Hin). apply in_app_iff. now right. }
  split; [|split].
  - intros x Hx. destruct (find_start l x Hx) as [z Hz]. exists z. unfold start. cbn [s_frames lookup]. now rewrite Hz.
  - intros c Hin. exists 0. split; [auto|lia].
  - apply Hc. cbn; auto.
Qed.
Lemma tally_range vs p s : vars_ok vs -> only_std call -> wf_prog call ltr vs p -> scoped vs s -> room s (size p) ->
  0 <= tally call ltr p s.
Proof.
  intros Hv Hs Hw Hsc HR. pose proof (prog_counts vs Hv Hs p Hw s Hsc HR) as H.
  destruct (exec (prog_stmt p) s) as [[] s'|x s'|r|]; cbn in H; try contradiction; [|destruct H as [_ H]]; apply H.
Qed.
Lemma run_status l p w : vars_ok (map fst l) -> only_std call -> wf_prog call ltr (map fst l) p -> size p < 2 ^ 31 ->
  run call ltr l p w = match thrown (exec (prog_stmt p) (start l w)) with
                       | Some _ => Terminated
                       | None => Exited (tally call ltr p (start l w) mod 256)
                       end.
Proof.
  intros Hv Hs Hw L. destruct (start_ok l w (size p) Hv L) as (H1 & H2 & H3).
  pose proof (prog_counts _ Hv Hs p Hw _ H1 H2) as H. unfold run, run_main.
  change (mkSt _ _ _ _ _) with (start l w).
  destruct (exec (prog_stmt p) (start l w)) as [[] s'|x s'|r|]; cbn in H; try contradiction; [|reflexivity].
  destruct H as (_ & _ & H & _). specialize (H 0 H3). unfold counter in H. rewrite H. reflexivity.
Qed.
Lemma exit_zero_iff l p w : vars_ok (map fst l) -> only_std call -> wf_prog call ltr (map fst l) p -> size p < 2 ^ 31 ->
  tally call ltr p (start l w) < 256 ->
  (run call ltr l p w = Exited 0 <-> tally call ltr p (start l w) = 0 /\ thrown (exec (prog_stmt p) (start l w)) = None).
Proof.
  intros Hv Hs Hw L Ht. rewrite run_status by assumption. destruct (start_ok l w (size p) Hv L) as (H1 & H2 & H3).
  pose proof (tally_range _ p _ Hv Hs Hw H1 H2) as H0.
  destruct (thrown (exec (prog_stmt p) (start l w))).
  - split; [discriminate|]. now intros [_ ?].
  - rewrite Z.mod_small by lia. split; [intros E; inversion E; auto|]. now intros [-> _].
Qed.
End T.
