(** TreeProofs.v -- lemmas for TreeProps.v. *)
From Verif Require Import Base StreamModel MacroModel MacroSpec MacroProofs TestModel TestSpec TreeModel TreeSpec.
From Coq Require Import String.
Open Scope list_scope.
Open Scope Z_scope.
Notation cF := "HELPER_TEST_FAILURES"%string.
Notation cE := "elements_count"%string.

Lemma set_in_same x c f : find_in x f = Some c -> set_in x c f = f.
Proof.
  induction f as [|[y d] f IH]; cbn; [discriminate|]. destruct (String.eqb x y) eqn:E.
  - intros H. inversion H; subst. apply String.eqb_eq in E as ->. reflexivity.
  - intros H. now rewrite IH.
Qed.
Lemma set_in_twice x c d f : set_in x c (set_in x d f) = set_in x c f.
Proof.
  induction f as [|[y b] f IH]; cbn; [reflexivity|]. destruct (String.eqb x y) eqn:E; cbn; rewrite ?E, ?String.eqb_refl; [reflexivity|].
  now rewrite IH.
Qed.
Lemma find_set_in x c f : find_in x f <> None -> find_in x (set_in x c f) = Some c.
Proof.
  induction f as [|[y b] f IH]; cbn; [congruence|]. destruct (String.eqb x y) eqn:E; cbn; rewrite ?E, ?String.eqb_refl; auto.
Qed.
Lemma assign_same x c fs : lookup x fs = Some c -> assign x c fs = fs.
Proof.
  induction fs as [|f fs IH]; cbn; [reflexivity|]. destruct (find_in x f) eqn:E.
  - intros H. inversion H; subst. now rewrite set_in_same.
  - intros H. now rewrite IH.
Qed.
Lemma assign_twice x c d fs : assign x c (assign x d fs) = assign x c fs.
Proof.
  induction fs as [|f fs IH]; cbn; [reflexivity|]. destruct (find_in x f) eqn:E; cbn.
  - rewrite find_set_in by congruence. now rewrite set_in_twice.
  - rewrite E. now rewrite IH.
Qed.

Lemma both_norm {W A} b (m1 m2 : st W -> outc (st W) Z) (k : Z -> Z -> st W -> outc (st W) A) s a c :
  m1 s = Norm a s -> m2 s = Norm c s -> both b m1 m2 k s = k a c s.
Proof. intros H1 H2. unfold both. destruct b; rewrite ?H1, ?H2; cbn [obind]; rewrite ?H1, ?H2; reflexivity. Qed.
Section Tree.
Context {W : Type} (call : nat -> list Z -> W -> callres W) (ltr : bool).
Notation St := (st W).

Lemma arithmetic_eval e : arithmetic e = true -> forall s s' : St,
  (forall x, mentions x e = true -> lookup x (s_frames s') = lookup x (s_frames s)) -> s_statics s' = s_statics s ->
  eval call ltr e s' = match eval call ltr e s with Norm z _ => Norm z s' | Thrown x _ => Thrown x s' | Undef r => Undef r | Ill => Ill end.
Proof.
  assert (Hboth : forall e1 e2 (f : Z -> Z -> Z) (s s' : St),
    (forall s s' : St, (forall x, mentions x e1 = true -> lookup x (s_frames s') = lookup x (s_frames s)) -> s_statics s' = s_statics s ->
      eval call ltr e1 s' = match eval call ltr e1 s with Norm z _ => Norm z s' | Thrown x _ => Thrown x s' | Undef r => Undef r | Ill => Ill end) ->
    (forall s s' : St, (forall x, mentions x e2 = true -> lookup x (s_frames s') = lookup x (s_frames s)) -> s_statics s' = s_statics s ->
      eval call ltr e2 s' = match eval call ltr e2 s with Norm z _ => Norm z s' | Thrown x _ => Thrown x s' | Undef r => Undef r | Ill => Ill end) ->
    (forall x, mentions x e1 || mentions x e2 = true -> lookup x (s_frames s') = lookup x (s_frames s)) -> s_statics s' = s_statics s ->
    both ltr (eval call ltr e1) (eval call ltr e2) (fun a b t => Norm (f a b) t) s' =
    match both ltr (eval call ltr e1) (eval call ltr e2) (fun a b t => Norm (f a b) t) s with
    | Norm z _ => Norm z s' | Thrown x _ => Thrown x s' | Undef r => Undef r | Ill => Ill end).
  { intros e1 e2 f s s' H1 H2 Hl Hs. unfold both.
    assert (L1 : forall x, mentions x e1 = true -> lookup x (s_frames s') = lookup x (s_frames s)) by (intros x Hx; apply Hl; now rewrite Hx).
    assert (L2 : forall x, mentions x e2 = true -> lookup x (s_frames s') = lookup x (s_frames s)) by (intros x Hx; apply Hl; rewrite Hx; apply orb_true_r).
    assert (R1 : eval call ltr e1 s = match eval call ltr e1 s with Norm z _ => Norm z s | Thrown x _ => Thrown x s | Undef r => Undef r | Ill => Ill end) by (apply H1; auto).
    assert (R2 : eval call ltr e2 s = match eval call ltr e2 s with Norm z _ => Norm z s | Thrown x _ => Thrown x s | Undef r => Undef r | Ill => Ill end) by (apply H2; auto).
    destruct ltr.
    - rewrite (H1 s s' L1 Hs). destruct (eval call true e1 s) as [a t|x t|r|]; cbn [obind]; try reflexivity.
      inversion R1; subst t. rewrite (H2 s s' L2 Hs). destruct (eval call true e2 s) as [b t|x t|r|]; reflexivity.
    - rewrite (H2 s s' L2 Hs). destruct (eval call false e2 s) as [a t|x t|r|]; cbn [obind]; try reflexivity.
      inversion R2; subst t. rewrite (H1 s s' L1 Hs). destruct (eval call false e1 s) as [b t|x t|r|]; reflexivity. }
  induction e; cbn [arithmetic mentions]; intros Ha s s' Hl Hs; try discriminate; cbn [eval].
  - reflexivity.
  - unfold read_var. rewrite Hl by apply String.eqb_refl. rewrite Hs.
    destruct (lookup _ _) as [[]|]; try reflexivity. destruct (s_statics s _); reflexivity.
  - rewrite (IHe Ha s s' Hl Hs). destruct (eval call ltr e s); reflexivity.
  - rewrite (IHe Ha s s' Hl Hs). destruct (eval call ltr e s); reflexivity.
  - apply andb_prop in Ha as [H1 H2].
    assert (L1 : forall x, mentions x e1 = true -> lookup x (s_frames s') = lookup x (s_frames s)) by (intros x Hx; apply Hl; now rewrite Hx).
    assert (L2 : forall x, mentions x e2 = true -> lookup x (s_frames s') = lookup x (s_frames s)) by (intros x Hx; apply Hl; rewrite Hx; apply orb_true_r).
    assert (R1 := IHe1 H1 s s (fun _ _ => eq_refl) eq_refl).
    rewrite (IHe1 H1 s s' L1 Hs). destruct (eval call ltr e1 s) as [a t|x t|r|]; cbn [obind]; try reflexivity.
    inversion R1; subst t. destruct (truth a); [|reflexivity].
    rewrite (IHe2 H2 s s' L2 Hs). destruct (eval call ltr e2 s); reflexivity.
  - apply andb_prop in Ha as [H1 H2]. apply (Hboth e1 e2 (fun a b => b2z (compare_vals c a b))); auto.
  - apply andb_prop in Ha as [H1 H2]. apply (Hboth e1 e2 (fun a b => a - b)); auto.
  - rewrite (IHe Ha s s' Hl Hs). destruct (eval call ltr e s); reflexivity.
Qed.
Lemma arithmetic_value e z (s s' : St) : arithmetic e = true -> value1 call ltr e s = Some z ->
  (forall x, mentions x e = true -> lookup x (s_frames s') = lookup x (s_frames s)) -> s_statics s' = s_statics s ->
  eval call ltr e s' = Norm z s'.
Proof.
  intros Ha Hv Hl Hs. rewrite (arithmetic_eval e Ha s s' Hl Hs). unfold value1 in Hv.
  destruct (eval call ltr e s); try discriminate. inversion Hv. reflexivity.
Qed.

Definition unchanged (s s' : St) : Prop := s_statics s' = s_statics s /\ s_world s' = s_world s.
Lemma compare_exec l t1 t2 x v f (s : St) : lookup cF (s_frames s) = Some (CVal f) -> f + 1 < 2 ^ 31 ->
  exists s', exec call ltr (HELPER_TEST_COMPARE l t1 t2 (ELit x) CEq (ELit v)) s = Norm tt s' /\
    s_frames s' = (if x =? v then s_frames s else assign cF (CVal (f + 1)) (s_frames s)) /\ unchanged s s'.
Proof.
  intros Hf Hb. destruct s as [F st o e w]. cbn [s_frames] in Hf.
  assert (Hb' : (f + 1 <? 2 ^ 31) = true) by now apply Z.ltb_lt.
  unfold HELPER_TEST_COMPARE, brace, seqs, cout, cerr, count_failure, unchanged, p_error, p_loc, both.
  destruct (x =? v) eqn:E.
  - eexists. split; [|split; [|split]].
    + cbn -[int_text chars Z.add Z.ltb Z.pow]. destruct ltr; cbn -[int_text chars Z.add Z.ltb Z.pow]; rewrite E; cbn -[int_text chars Z.add Z.ltb Z.pow]; reflexivity.
    + reflexivity. + reflexivity. + reflexivity.
  - eexists. split; [|split; [|split]].
    + cbn -[int_text chars Z.add Z.ltb Z.pow]. destruct ltr; cbn -[int_text chars Z.add Z.ltb Z.pow]; rewrite E; cbn -[int_text chars Z.add Z.ltb Z.pow];
      unfold read_var; cbn -[int_text chars Z.add Z.ltb Z.pow]; rewrite Hf; cbn -[int_text chars Z.add Z.ltb Z.pow]; rewrite Hb';
      unfold write_var; cbn -[int_text chars Z.add Z.ltb Z.pow]; rewrite Hf; cbn -[int_text chars Z.add Z.ltb Z.pow]; reflexivity.
    + reflexivity. + reflexivity. + reflexivity.
Qed.

Lemma comment_exec ps t (s : St) : ps = [PStr t] -> exists s', exec call ltr (HELPER_PRINT_TEST_COMMENT ps) s = Norm tt s' /\
  s_frames s' = s_frames s /\ unchanged s s'.
Proof. intros ->. eexists. split; [reflexivity|]. repeat split. Qed.

Section Number.
Context (n : expr) (z : Z) (s0 : St).
Hypothesis Hn : arithmetic n = true.
Hypothesis Hout : keeps_out n.
Hypothesis Hz : value1 call ltr n s0 = Some z.
Definition like (s : St) : Prop := (forall x, ~ In x tree_locals -> lookup x (s_frames s) = lookup x (s_frames s0)) /\ s_statics s = s_statics s0.
Lemma number s : like s -> eval call ltr n s = Norm z s.
Proof.
  intros [Hl Hs]. apply (arithmetic_value n z s0 s); auto. intros x Hx. apply Hl. intros Hi. rewrite (Hout x Hi) in Hx. discriminate.
Qed.
Lemma like_push f s : (forall x, ~ In x tree_locals -> find_in x f = None) -> like s -> like (push f s).
Proof. intros Hf [Hl Hs]. split; [|exact Hs]. intros x Hx. cbn. rewrite Hf by exact Hx. now apply Hl. Qed.
Lemma like_assign y c s s' : In y tree_locals -> s_frames s' = assign y c (s_frames s) -> s_statics s' = s_statics s -> like s -> like s'.
Proof.
  intros Hy HF HS [Hl Hs]. split; [|congruence]. intros x Hx. rewrite HF, lookup_assign_other; [now apply Hl|]. intros ->. contradiction.
Qed.
Lemma like_frames s s' : s_frames s' = s_frames s -> s_statics s' = s_statics s -> like s -> like s'.
Proof. intros HF HS [Hl Hs]. split; [|congruence]. rewrite HF. exact Hl. Qed.

Lemma out_eqb x y : ~ In x tree_locals -> In y tree_locals -> String.eqb x y = false.
Proof. intros Hx Hy. apply String.eqb_neq. intros ->. contradiction. Qed.
Ltac likes H := split; [intros x Hx; rewrite <- (proj1 H x Hx); cbn -[String.eqb assign];
  rewrite ?(out_eqb x "ok" Hx), ?(out_eqb x cE Hx), ?(out_eqb x "it" Hx), ?(out_eqb x "end" Hx) by (cbn; tauto);
  try (apply lookup_assign_other; intros E'; subst x; apply Hx; cbn; tauto); reflexivity | exact (proj2 H)].
Ltac go := cbn -[int_text chars Z.add Z.ltb Z.pow both].
Lemma equal_exec l t1 t2 k f F (s : St) : s_frames s = [(cE, CVal k)] :: F -> like s -> lookup cF F = Some (CVal f) -> f + 1 < 2 ^ 31 ->
  exists s', exec call ltr (HELPER_TEST_EQUAL l t1 t2 (EVar cE) n) s = Norm tt s' /\
    s_frames s' = [(cE, CVal k)] :: (if k =? z then F else assign cF (CVal (f + 1)) F) /\ unchanged s s'.
Proof.
  intros HF HL Hf Hb. destruct s as [F0 st o e w]. cbn [s_frames] in HF. subst F0.
  assert (Hb' : (f + 1 <? 2 ^ 31) = true) by now apply Z.ltb_lt.
  unfold HELPER_TEST_EQUAL, brace, seqs, cout, cerr, count_failure, unchanged, p_error, p_loc, p_two, p_both, ctrue.
  destruct (k =? z) eqn:E.
  - eexists. split; [|split; [|split]].
    + go. rewrite (both_norm _ _ _ _ _ k z) by (first [reflexivity | apply number; likes HL]). go. rewrite E. go. reflexivity.
    + reflexivity. + reflexivity. + reflexivity.
  - eexists. split; [|split; [|split]].
    + go. rewrite (both_norm _ _ _ _ _ k z) by (first [reflexivity | apply number; likes HL]). go.
      rewrite E; go; unfold read_var; go; rewrite Hf; go; rewrite Hb'; unfold write_var; go; rewrite Hf; go;
      repeat match goal with |- context [eval ?c ?l n ?s] => rewrite (number s) by likes HL; go end; reflexivity.
    + reflexivity. + reflexivity. + reflexivity.
Qed.

Definition iters : frame := [("it", CUndeduced); ("end", CUndeduced)]%string.
Context (l : loc) (expected : list (option Z)) (ntxt : text).
Definition step_wrong (k : nat) (v : Z) : Z :=
  if Z.of_nat k <? z then match nth_error expected k with Some (Some x) => if x =? v then 0 else 1 | _ => 0 end else 0.
Fixpoint wrong_from (k : nat) (items : list Z) : Z :=
  match items with [] => 0 | v :: r => step_wrong k v + wrong_from (S k) r end.

Lemma assign_0 f F : lookup cF F = Some (CVal f) -> assign cF (CVal (f + 0)) F = F.
Proof. intros H. rewrite Z.add_0_r. now apply assign_same. Qed.
Lemma item_exec k v f F (s : St) : s_frames s = iters :: [(cE, CVal (Z.of_nat k))] :: F -> like s ->
  lookup cF F = Some (CVal f) -> f + 1 < 2 ^ 31 -> (Z.of_nat k < z -> exists x, nth_error expected k = Some (Some x)) ->
  exists s', item_body call ltr l expected n v s = Norm tt s' /\
    s_frames s' = iters :: [(cE, CVal (Z.of_nat k))] :: assign cF (CVal (f + step_wrong k v)) F /\ unchanged s s'.
Proof.
  intros HF HL Hf Hb He. unfold item_body, step_wrong. cbn [eval].
  rewrite (both_norm _ _ _ _ _ (Z.of_nat k) z).
  2: { unfold read_var. cbn [push with_frames s_frames]. rewrite HF. reflexivity. }
  2: { apply number. apply like_push; [reflexivity|exact HL]. }
  cbn [obind compare_vals]. destruct (Z.of_nat k <? z) eqn:E.
  - apply Z.ltb_lt in E. destruct (He E) as [x Hx]. rewrite Hx. cbn [b2z truth]. cbn [negb Z.eqb].
    match goal with |- context [exec call ltr (HELPER_PRINT_TEST_COMMENT ?p) ?t] =>
      destruct (comment_exec p _ t eq_refl) as (s1 & -> & F1 & U1a & U1b) end.
    cbn [obind]. unfold compare_item.
    assert (R1 : read_var cE s1 = Norm (Z.of_nat k) s1).
    { unfold read_var. rewrite F1. cbn [push with_frames s_frames]. rewrite HF. reflexivity. }
    rewrite R1. cbn [obind]. rewrite Nat2Z.id, Hx.
    match goal with |- context [exec call ltr (HELPER_TEST_COMPARE _ ?a ?b _ _ _) s1] =>
      destruct (compare_exec l a b x v f s1) as (s2 & -> & F2 & U2a & U2b) end.
    { rewrite F1. cbn [push with_frames s_frames]. rewrite HF. exact Hf. }
    { exact Hb. }
    cbn [leave]. eexists. split; [reflexivity|]. split.
    + cbn [pop with_frames s_frames tl]. rewrite F2, F1. cbn [push with_frames s_frames]. rewrite HF.
      destruct (x =? v); [|reflexivity]. cbn. now rewrite assign_0.
    + split; cbn [push pop with_frames s_statics s_world] in *; congruence.
  - cbn [b2z truth]. cbn [negb Z.eqb leave]. eexists. split; [reflexivity|]. split; [|split; reflexivity].
    cbn [pop push with_frames s_frames tl]. rewrite HF. now rewrite assign_0.
Qed.
Lemma next_exec k F (s : St) : s_frames s = iters :: [(cE, CVal (Z.of_nat k))] :: F -> Z.of_nat (S k) < 2 ^ 64 ->
  exists s', next_item s = Norm tt s' /\ s_frames s' = iters :: [(cE, CVal (Z.of_nat (S k)))] :: F /\ unchanged s s'.
Proof.
  intros HF Hk. unfold next_item, read_var. rewrite HF. cbn [lookup iters find_in]. cbn -[wrap64 Z.of_nat Z.add]. unfold write_var. rewrite HF.
  cbn -[wrap64 Z.of_nat Z.add]. eexists. split; [reflexivity|]. split; [|split; reflexivity]. cbn -[wrap64 Z.of_nat Z.add].
  replace (wrap64 (Z.of_nat k + 1)) with (Z.of_nat (S k)); [reflexivity|]. unfold wrap64. rewrite Z.mod_small; lia.
Qed.
Lemma step_wrong_range k v : 0 <= step_wrong k v <= 1.
Proof. unfold step_wrong. destruct (_ <? _); [|lia]. destruct (nth_error expected k) as [[x|]|]; try lia. destruct (x =? v); lia. Qed.
Lemma loop_exec items : forall k f F (s : St), s_frames s = iters :: [(cE, CVal (Z.of_nat k))] :: F -> like s ->
  lookup cF F = Some (CVal f) -> f + Z.of_nat (List.length items) < 2 ^ 31 -> Z.of_nat (k + List.length items) < 2 ^ 64 ->
  (forall i, (i < List.length items)%nat -> Z.of_nat (k + i) < z -> exists x, nth_error expected (k + i) = Some (Some x)) ->
  exists s', items_loop call ltr l expected n items s = Norm tt s' /\
    s_frames s' = iters :: [(cE, CVal (Z.of_nat (k + List.length items)))] :: assign cF (CVal (f + wrong_from k items)) F /\ unchanged s s'.
Proof.
  induction items as [|v items IH]; intros k f F s HF HL Hf Hb Hk He; cbn [items_loop wrong_from List.length].
  - exists s. rewrite Nat.add_0_r, assign_0 by exact Hf. repeat split. exact HF.
  - cbn [List.length] in Hb, Hk, He. rewrite Nat2Z.inj_succ in Hb.
    destruct (item_exec k v f F s HF HL Hf) as (s1 & -> & F1 & U1a & U1b).
    { lia. }
    { intros E. destruct (He 0%nat) as [x Hx]; [lia|now rewrite Nat.add_0_r|]. rewrite Nat.add_0_r in Hx. eauto. }
    cbn [obind]. destruct (next_exec k _ s1 F1) as (s2 & -> & F2 & U2a & U2b); [lia|]. cbn [obind].
    pose proof (step_wrong_range k v).
    destruct (IH (S k) (f + step_wrong k v) _ s2 F2) as (s3 & -> & F3 & U3a & U3b).
    + split; [|rewrite U2a, U1a; apply HL]. intros x Hx. rewrite F2, <- (proj1 HL x Hx), HF. cbn -[String.eqb assign].
      rewrite ?(out_eqb x cE Hx), ?(out_eqb x "it" Hx), ?(out_eqb x "end" Hx) by (cbn; tauto).
      apply lookup_assign_other. intros E'; subst x; apply Hx; cbn; tauto.
    + apply lookup_assign. congruence.
    + lia.
    + lia.
    + intros i Hi. specialize (He (S i)). replace (S k + i)%nat with (k + S i)%nat by lia. intros E. apply He; [lia|exact E].
    + exists s3. split; [reflexivity|]. split; [|split; congruence]. rewrite F3, assign_twice.
      replace (S k + List.length items)%nat with (k + S (List.length items))%nat by lia.
      now rewrite Z.add_assoc.
Qed.
Lemma wrong_from_range k items : 0 <= wrong_from k items <= Z.of_nat (List.length items).
Proof.
  revert k; induction items as [|v r IH]; intros k; cbn [wrong_from List.length]; [lia|].
  pose proof (step_wrong_range k v). specialize (IH (S k)). lia.
Qed.
Lemma check_exec items f : lookup cF (s_frames s0) = Some (CVal f) -> 0 <= f -> f + Z.of_nat (List.length items) + 1 < 2 ^ 31 ->
  (forall i, (i < List.length items)%nat -> Z.of_nat i < z -> exists x, nth_error expected i = Some (Some x)) ->
  exists s', subpaving_check call ltr l expected ntxt n (Object items) s0 = Norm tt s' /\
    s_frames s' = assign cF (CVal (f + wrong_from 0 items + (if Z.of_nat (List.length items) =? z then 0 else 1))) (s_frames s0) /\
    unchanged s0 s'.
Proof.
  intros Hf Hf0 Hb He. unfold subpaving_check.
  set (s1 := push [("it", CUndeduced); ("end", CUndeduced)]%string (push [(cE, CVal 0)] s0)).
  assert (HL : like s1).
  { split; [|reflexivity]. intros x Hx. unfold s1. cbn -[String.eqb].
    rewrite ?(out_eqb x cE Hx), ?(out_eqb x "it" Hx), ?(out_eqb x "end" Hx) by (cbn; tauto). reflexivity. }
  destruct (loop_exec items 0 f (s_frames s0) s1 eq_refl HL Hf) as (s2 & -> & F2 & U2a & U2b); [lia|cbn [Nat.add]; lia|exact He|].
  cbn [leave obind seqs exec].
  match goal with |- context [exec call ltr (HELPER_PRINT_TEST_COMMENT ?p) ?t] =>
    destruct (comment_exec p _ t eq_refl) as (s3 & -> & F3 & U3a & U3b) end.
  cbn [obind]. cbn [pop with_frames s_frames s_statics s_world] in F3, U3a, U3b. rewrite F2 in F3. cbn [tl Nat.add] in F3.
  set (F' := assign cF (CVal (f + wrong_from 0 items)) (s_frames s0)) in *.
  pose proof (wrong_from_range 0 items).
  destruct (equal_exec l (chars cE) ntxt (Z.of_nat (List.length items)) (f + wrong_from 0 items) F' s3 F3) as (s4 & E4 & F4 & U4a & U4b).
  { split; [|rewrite U3a, U2a; reflexivity]. intros x Hx. rewrite F3. cbn -[String.eqb F'].
    rewrite ?(out_eqb x cE Hx) by (cbn; tauto). apply lookup_assign_other. intros E'; subst x; apply Hx; cbn; tauto. }
  { apply lookup_assign. congruence. }
  { lia. }
  rewrite E4. cbn [obind leave]. eexists. split; [reflexivity|]. split; [|unfold s1 in *; split; cbn [push pop with_frames s_statics s_world] in *; congruence].
  cbn [pop with_frames s_frames]. rewrite F4. cbn [tl]. unfold F'. destruct (_ =? z); [now rewrite Z.add_0_r|apply assign_twice].
Qed.
Lemma item_missing k v F (s : St) : s_frames s = iters :: [(cE, CVal (Z.of_nat k))] :: F -> like s ->
  Z.of_nat k < z -> (forall x, nth_error expected k <> Some (Some x)) ->
  exists r, item_body call ltr l expected n v s = Undef r.
Proof.
  intros HF HL E He. unfold item_body. cbn [eval].
  rewrite (both_norm _ _ _ _ _ (Z.of_nat k) z).
  2: { unfold read_var. cbn [push with_frames s_frames]. rewrite HF. reflexivity. }
  2: { apply number. apply like_push; [reflexivity|exact HL]. }
  cbn [obind compare_vals]. apply Z.ltb_lt in E. rewrite E. cbn [b2z truth]. cbn [negb Z.eqb].
  match goal with |- context [exec call ltr (HELPER_PRINT_TEST_COMMENT ?p) ?t] =>
    destruct (comment_exec p _ t eq_refl) as (s1 & -> & F1 & U1a & U1b) end.
  cbn [obind]. unfold compare_item.
  assert (R1 : read_var cE s1 = Norm (Z.of_nat k) s1).
  { unfold read_var. rewrite F1. cbn [push with_frames s_frames]. rewrite HF. reflexivity. }
  rewrite R1. cbn [obind]. rewrite Nat2Z.id.
  destruct (nth_error expected k) as [[x|]|] eqn:Hx; [destruct (He x eq_refl)| |]; eexists; reflexivity.
Qed.
Lemma loop_missing items : forall k f F (s : St), s_frames s = iters :: [(cE, CVal (Z.of_nat k))] :: F -> like s ->
  lookup cF F = Some (CVal f) -> f + Z.of_nat (List.length items) < 2 ^ 31 -> Z.of_nat (k + List.length items) < 2 ^ 64 ->
  (exists i, (i < List.length items)%nat /\ Z.of_nat (k + i) < z /\ forall x, nth_error expected (k + i) <> Some (Some x)) ->
  exists r, items_loop call ltr l expected n items s = Undef r.
Proof.
  induction items as [|v items IH]; intros k f F s HF HL Hf Hb Hk (i & Hi & Hz' & He); cbn [items_loop List.length] in *; [lia|].
  rewrite Nat2Z.inj_succ in Hb.
  assert (Hd : (exists x, nth_error expected k = Some (Some x)) \/ forall x, nth_error expected k <> Some (Some x)).
  { destruct (nth_error expected k) as [[x|]|]; [left; eauto| |]; right; intros y; discriminate. }
  destruct Hd as [Hx|Hx].
  - destruct (item_exec k v f F s HF HL Hf) as (s1 & -> & F1 & U1a & U1b); [lia|intros _; exact Hx|].
    cbn [obind]. destruct (next_exec k _ s1 F1) as (s2 & -> & F2 & U2a & U2b); [lia|]. cbn [obind].
    pose proof (step_wrong_range k v).
    apply (IH (S k) (f + step_wrong k v) _ s2 F2).
    + split; [|rewrite U2a, U1a; apply HL]. intros x Hx'. rewrite F2, <- (proj1 HL x Hx'), HF. cbn -[String.eqb assign].
      rewrite ?(out_eqb x cE Hx'), ?(out_eqb x "it" Hx'), ?(out_eqb x "end" Hx') by (cbn; tauto).
      apply lookup_assign_other. intros E'; subst x; apply Hx'; cbn; tauto.
    + apply lookup_assign. congruence.
    + lia.
    + lia.
    + destruct i as [|i].
      * exfalso. rewrite Nat.add_0_r in He. destruct Hx as [x Hx]. exact (He x Hx).
      * exists i. replace (S k + i)%nat with (k + S i)%nat by lia. split; [lia|]. split; [exact Hz'|exact He].
  - destruct (item_missing k v F s HF HL) as [r ->]; [lia|exact Hx|]. cbn [obind]. eauto.
Qed.
Lemma check_missing items f : lookup cF (s_frames s0) = Some (CVal f) -> f + Z.of_nat (List.length items) + 1 < 2 ^ 31 -> 0 <= f ->
  (exists i, (i < List.length items)%nat /\ Z.of_nat i < z /\ forall x, nth_error expected i <> Some (Some x)) ->
  exists r, subpaving_check call ltr l expected ntxt n (Object items) s0 = Undef r.
Proof.
  intros Hf Hb Hf0 He. unfold subpaving_check.
  set (s1 := push [("it", CUndeduced); ("end", CUndeduced)]%string (push [(cE, CVal 0)] s0)).
  assert (HL : like s1).
  { split; [|reflexivity]. intros x Hx. unfold s1. cbn -[String.eqb].
    rewrite ?(out_eqb x cE Hx), ?(out_eqb x "it" Hx), ?(out_eqb x "end" Hx) by (cbn; tauto). reflexivity. }
  destruct (loop_missing items 0 f (s_frames s0) s1 eq_refl HL Hf) as [r ->]; [lia|cbn [Nat.add]; lia|exact He|].
  cbn [leave obind]. eauto.
Qed.
End Number.
End Tree.

(** ** The count in terms of the sequences *)
Lemma wrong_from_spec expected z items : 0 <= z -> forall k pre, List.length pre = k ->
  wrong_from z expected k items =
  Z.of_nat (List.length (filter (differ expected (pre ++ items)) (seq k (Nat.min (Z.to_nat z) (k + List.length items) - k)))).
Proof.
  intros Hz. induction items as [|v items IH]; intros k pre Hp; cbn [wrong_from List.length].
  - replace (Nat.min (Z.to_nat z) (k + 0) - k)%nat with 0%nat by lia. reflexivity.
  - rewrite (IH (S k) (pre ++ [v])) by (rewrite app_length; cbn; lia). rewrite <- app_assoc. cbn [app]. unfold step_wrong.
    destruct (Z.of_nat k <? z) eqn:E.
    + apply Z.ltb_lt in E.
      replace (Nat.min (Z.to_nat z) (k + S (List.length items)) - k)%nat
        with (S (Nat.min (Z.to_nat z) (S k + List.length items) - S k)) by lia.
      cbn [seq filter]. unfold differ at 2.
      replace (nth_error (pre ++ v :: items) k) with (Some v)
        by (rewrite nth_error_app2 by lia; rewrite Hp, Nat.sub_diag; reflexivity).
      destruct (nth_error expected k) as [[x|]|]; try lia. destruct (x =? v); cbn [negb List.length]; lia.
    + apply Z.ltb_ge in E.
      replace (Nat.min (Z.to_nat z) (S k + List.length items) - S k)%nat with 0%nat by lia.
      replace (Nat.min (Z.to_nat z) (k + S (List.length items)) - k)%nat with 0%nat by lia. reflexivity.
Qed.
Lemma wrong_total expected z items : 0 <= z ->
  wrong_from z expected 0 items + (if Z.of_nat (List.length items) =? z then 0 else 1) = wrong_items expected items (Z.to_nat z).
Proof.
  intros Hz. unfold wrong_items. rewrite (wrong_from_spec expected z items Hz 0 [] eq_refl). cbn [app Nat.add]. rewrite Nat.sub_0_r.
  f_equal. destruct (Z.eqb_spec (Z.of_nat (List.length items)) z), (Nat.eqb_spec (List.length items) (Z.to_nat z)); lia.
Qed.
Lemma no_difference expected items m : (forall i, (i < m)%nat -> differ expected items i = false) ->
  filter (differ expected items) (seq 0 m) = [].
Proof.
  intros H. destruct (filter _ _) as [|i r] eqn:E; [reflexivity|]. exfalso.
  assert (Hi : In i (filter (differ expected items) (seq 0 m))) by (rewrite E; now left).
  apply filter_In in Hi as [Hi Hd]. apply in_seq in Hi. rewrite H in Hd; [discriminate|lia].
Qed.
Lemma nothing_wrong expected items m : provided expected items m ->
  (wrong_items expected items m = 0 <-> firstn m expected = map Some items /\ List.length items = m).
Proof.
  intros Hp. unfold wrong_items. split.
  - intros H. assert (Hlen : List.length items = m) by (destruct (Nat.eqb_spec (List.length items) m); lia).
    split; [|exact Hlen].
    assert (Hd : filter (differ expected items) (seq 0 (Nat.min m (List.length items))) = [])
      by (destruct (filter _ _); [reflexivity|cbn [List.length] in H; destruct (_ =? _)%nat; lia]).
    rewrite Hlen, Nat.min_id in Hd. subst m.
    assert (Hall : forall i v, nth_error items i = Some v -> nth_error expected i = Some (Some v)).
    { intros i v Hv. assert (Hi : (i < List.length items)%nat) by (apply nth_error_Some; congruence).
      destruct (Hp i Hi Hi) as [x Hx]. rewrite Hx. f_equal. f_equal.
      assert (Hf : differ expected items i = false).
      { destruct (differ expected items i) eqn:E; [|reflexivity]. exfalso.
        assert (Hin : In i (filter (differ expected items) (seq 0 (List.length items)))) by (apply filter_In; split; [apply in_seq; lia|exact E]).
        rewrite Hd in Hin. destruct Hin. }
      unfold differ in Hf. rewrite Hx, Hv in Hf. apply negb_false_iff, Z.eqb_eq in Hf. exact Hf. }
    clear - Hall. revert expected Hall. induction items as [|v items IH]; intros expected Hall; [reflexivity|].
    destruct expected as [|e expected]; [discriminate (Hall 0%nat v eq_refl)|].
    pose proof (Hall 0%nat v eq_refl) as H0. cbn in H0. inversion H0; subst. cbn [List.length firstn map]. f_equal.
    apply IH. intros i w Hw. exact (Hall (S i) w Hw).
  - intros [He Hlen]. rewrite Hlen, Nat.eqb_refl, Nat.min_id. rewrite no_difference; [reflexivity|].
    intros i Hi. unfold differ.
    assert (Hn : nth_error expected i = nth_error (map Some items) i).
    { rewrite <- He. rewrite <- (firstn_skipn m expected) at 1.
      apply nth_error_app1. rewrite He, map_length. lia. }
    rewrite Hn, nth_error_map. destruct (nth_error items i) as [v|]; [|reflexivity]. cbn. now rewrite Z.eqb_refl.
Qed.
Lemma wrong_items_nonneg expected items m : 0 <= wrong_items expected items m.
Proof. unfold wrong_items. destruct (_ =? _)%nat; lia. Qed.

Section Capture.
Context {W : Type} (call : nat -> list Z -> W -> callres W) (ltr : bool).
Notation St := (st W).
Lemma counting_check l expected ntxt n z items (s : St) f :
  arithmetic n = true -> keeps_out n -> value1 call ltr n s = Some z -> 0 <= z -> provided expected items (Z.to_nat z) ->
  counter cF s f -> 0 <= f -> f + Z.of_nat (List.length items) + 1 < 2 ^ 31 ->
  exists s', subpaving_check call ltr l expected ntxt n (Object items) s = Norm tt s' /\
    s_frames s' = assign cF (CVal (f + wrong_items expected items (Z.to_nat z))) (s_frames s) /\
    s_statics s' = s_statics s /\ s_world s' = s_world s.
Proof.
  intros Hn Ho Hv Hz Hp Hf Hf0 Hb.
  destruct (check_exec call ltr n z s Hn Ho Hv l expected ntxt items f Hf Hf0 Hb) as (s' & E & F & U).
  { intros i Hi Hiz. apply Hp; [lia|exact Hi]. }
  exists s'. split; [exact E|]. split; [|exact U]. rewrite F. rewrite <- (wrong_total expected z items Hz). do 2 f_equal. lia.
Qed.

Lemma missing_check l expected ntxt n z items (s : St) f i :
  arithmetic n = true -> keeps_out n -> value1 call ltr n s = Some z -> 0 <= z ->
  (i < Z.to_nat z)%nat -> (i < List.length items)%nat -> (forall x, nth_error expected i <> Some (Some x)) ->
  counter cF s f -> 0 <= f -> f + Z.of_nat (List.length items) + 1 < 2 ^ 31 ->
  exists r, subpaving_check call ltr l expected ntxt n (Object items) s = Undef r.
Proof.
  intros Hn Ho Hv Hz Hi Hl Hm Hf Hf0 Hb.
  apply (check_missing call ltr n z s Hn Ho Hv l expected ntxt items f Hf Hb Hf0).
  exists i. split; [exact Hl|]. split; [lia|exact Hm].
Qed.

Lemma captured_loop l expected items : forall k F (s : St), s_frames s = iters :: [(cE, CVal k)] :: F ->
  exists k' s', items_loop call ltr l expected (EVar cE) items s = Norm tt s' /\ s_frames s' = iters :: [(cE, CVal k')] :: F /\ unchanged s s'.
Proof.
  induction items as [|v items IH]; intros k F s HF; cbn [items_loop].
  - exists k, s. repeat split. exact HF.
  - assert (Hbody : item_body call ltr l expected (EVar cE) v s = Norm tt s).
    { unfold item_body. cbn [eval].
      rewrite (both_norm ltr _ _ _ (push [] s) k k) by (unfold read_var; cbn [push with_frames s_frames]; rewrite HF; reflexivity).
      cbn [obind compare_vals]. rewrite Z.ltb_irrefl. destruct s; reflexivity. }
    rewrite Hbody. cbn [obind]. unfold next_item, read_var. rewrite HF. cbn -[wrap64 Z.add]. unfold write_var. rewrite HF. cbn -[wrap64 Z.add items_loop].
    match goal with |- context [items_loop _ _ _ _ _ _ ?t] => destruct (IH (wrap64 (k + 1)) F t eq_refl) as (k' & s' & -> & F' & U') end.
    exists k', s'. split; [reflexivity|]. split; [exact F'|exact U'].
Qed.
Lemma captured_check l expected ntxt items (s : St) : exists s',
  subpaving_check call ltr l expected ntxt (EVar cE) (Object items) s = Norm tt s' /\ s_frames s' = s_frames s.
Proof.
  unfold subpaving_check.
  match goal with |- context [items_loop _ _ _ _ _ _ ?t] =>
    destruct (captured_loop l expected items 0 (s_frames s) t eq_refl) as (k & s1 & -> & F1 & _) end.
  destruct s1 as [fr st o e w]. cbn [s_frames] in F1. subst fr. cbn [leave obind pop with_frames s_frames tl seqs exec].
  unfold HELPER_TEST_EQUAL, ctrue. cbn -[int_text chars Z.add Z.ltb Z.pow both Z.eqb].
  rewrite (both_norm ltr _ _ _ _ k k) by reflexivity. cbn -[int_text chars Z.add Z.ltb Z.pow both Z.eqb]. rewrite Z.eqb_refl.
  eexists. split; reflexivity.
Qed.
End Capture.
