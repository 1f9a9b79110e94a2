(** LogProofs.v -- the texts written by the macros of test.hpp. *)
From Verif Require Import Base StreamModel MacroModel MacroSpec MacroProofs TestModel TestSpec TestProofs TestEval LogSpec.
From Coq Require Import String.
Open Scope list_scope.
Open Scope Z_scope.

Section L.
Context {W : Type} (call : nat -> list Z -> W -> callres W) (ltr : bool).
Notation St := (st W).
Notation eval := (eval call ltr).
Notation exec := (exec call ltr).
Notation insert := (insert call ltr).
Notation steady := (steady call ltr).

Definition outer : list name := locals ++ counters.
(** [s1] is [s] but for output and the names of the macros *)
Definition near (s s1 : St) : Prop :=
  s_world s1 = s_world s /\ s_statics s1 = s_statics s /\ forall x, ~ In x outer -> lookup x (s_frames s1) = lookup x (s_frames s).
Lemma steady_near s e z s1 : steady s e z -> own e -> near s s1 -> eval e s1 = Norm z s1.
Proof.
  intros H Hc (A & B & C). apply H; auto. intros x Hx. apply C. intros Hi. rewrite (Hc x Hi) in Hx. discriminate.
Qed.
Lemma near_out s s1 o e : near s s1 -> near s (after s1 false 0 o e).
Proof. intros (A & B & C). repeat split; auto. Qed.
Context (v : expr -> Z) (Hv : forall z, v (ELit z) = z).
Definition ptext (p : part) : text := match p with PStr t => t | PExp e => int_text (v e) | PWhat _ => [] end.
Definition msg_text (ps : list part) : text := List.concat (map ptext ps).
Definition pok (s : St) (p : part) : Prop :=
  match p with PStr _ => True | PExp e => own e /\ steady s e (v e) | PWhat _ => False end.
Definition on (k : sink) (t : text) (s : St) : St := match k with Cout => add_out t s | _ => add_err t s end.
Lemma near_on s s1 k t : near s s1 -> near s (on k t s1).
Proof. intros (A & B & C). destruct k; repeat split; auto. Qed.
Lemma put_on k t (s : St) : is_std_sink k -> put k t s = Norm tt (on k t s).
Proof. destruct k; cbn; try contradiction; reflexivity. Qed.
Lemma on_app k t u (s : St) : on k u (on k t s) = on k (t ++ u) s.
Proof. destruct k; cbn; unfold add_out, add_err; cbn; now rewrite app_assoc. Qed.
Lemma insert_text k s ps : is_std_sink k -> Forall (pok s) ps -> forall s1, near s s1 -> insert k ps s1 = Norm tt (on k (msg_text ps) s1).
Proof.
  intros Hk H. induction H as [|p ps Hp _ IH]; intros s1 Hs.
  - cbn. destruct s1, k; cbn; unfold add_out, add_err; cbn; now rewrite app_nil_r.
  - destruct p as [t|e|x]; cbn in Hp; [| |contradiction]; cbn [MacroModel.insert].
    + rewrite put_on by exact Hk. cbn [obind]. rewrite IH by now apply near_on. rewrite on_app. reflexivity.
    + destruct Hp as [Hc Hst]. rewrite (steady_near _ _ _ _ Hst Hc Hs). cbn [obind]. rewrite put_on by exact Hk. cbn [obind].
      rewrite IH by now apply near_on. rewrite on_app. reflexivity.
Qed.
Definition cout_text (l : list (sink * list part)) : text := List.concat (map (fun q => match fst q with Cout => msg_text (snd q) | _ => [] end) l).
Definition cerr_text (l : list (sink * list part)) : text := List.concat (map (fun q => match fst q with Cout => [] | _ => msg_text (snd q) end) l).
Definition mok (s : St) (q : sink * list part) : Prop := is_std_sink (fst q) /\ Forall (pok s) (snd q).
Lemma inserts_text s l : Forall (mok s) l -> forall s1, near s s1 ->
  exec (seqs (inserts l)) s1 = Norm tt (after s1 false 0 (cout_text l) (cerr_text l)).
Proof.
  intros H. induction H as [|[k ps] l [Hk Hp] _ IH]; intros s1 Hs.
  - cbn. unfold after. destruct s1; cbn. now rewrite !app_nil_r.
  - unfold inserts. cbn [map fst snd]. rewrite exec_seqs_cons. cbn [MacroModel.exec]. cbn [fst snd] in Hk, Hp.
    rewrite (insert_text k s ps Hk Hp s1 Hs). cbn [obind]. fold (inserts l). rewrite IH by now apply near_on.
    f_equal. destruct k; cbn in Hk; try contradiction; unfold after, cout_text, cerr_text; cbn; unfold add_out, add_err; cbn; now rewrite <- ?app_assoc.
Qed.
Lemma branch_text s n b l : Forall (mok s) l -> forall s1, near s s1 -> counter "HELPER_TEST_FAILURES" s1 n -> n + 1 < 2 ^ 31 ->
  exec (branch b l) s1 = Norm tt (after s1 b (n + 1) (cout_text l) (cerr_text l)).
Proof.
  intros H s1 Hs Hn Hb. unfold branch. destruct b; cbn [app].
  - rewrite exec_seqs_cons. cbn [MacroModel.exec count_failure MacroModel.eval]. unfold read_var, write_var, counter in *. rewrite Hn. cbn [obind].
    replace (n + 1 <? 2 ^ 31) with true by (symmetry; now apply Z.ltb_lt). cbn [obind].
    rewrite Hn. cbn [obind]. rewrite inserts_text with (s := s); [reflexivity|exact H|].
    destruct Hs as (A & B & C). repeat split; auto. intros x Hx. cbn. rewrite lookup_assign_other; [now apply C|].
    intros <-. apply Hx. cbn. auto.
  - now apply inserts_text with (s := s).
Qed.
Lemma check1_text s n pre auto x cond b1 l1 b2 l2 z extra :
  In x locals -> mentions x cond = false -> over1 x l1 -> over1 x l2 ->
  Forall (pok s) pre -> Forall (mok s) l1 -> Forall (mok s) l2 ->
  counter "HELPER_TEST_FAILURES" s n -> n + 1 < 2 ^ 31 ->
  (forall s1, near s s1 -> eval cond s1 = Norm z (add_out extra s1)) ->
  exec (check1 pre auto x cond b1 l1 b2 l2) s =
  Norm tt (after s (if truth z then b1 else b2) (n + 1)
    (msg_text pre ++ extra ++ (if truth z then cout_text l1 else cout_text l2)) (if truth z then cerr_text l1 else cerr_text l2)).
Proof.
  intros Hx Hm H1 H2 Hp M1 M2 Hn Hb Hc. rewrite check1_exact by assumption.
  assert (Hs : near s s) by (repeat split; auto).
  rewrite (insert_text Cout s pre I Hp s Hs). cbn [obind on].
  rewrite Hc by (now apply (near_on s s Cout)). cbn [obind].
  destruct (truth z).
  - rewrite branch_text with (s := s) (n := n); auto. unfold after. cbn. now rewrite <- !app_assoc.
  - rewrite branch_text with (s := s) (n := n); auto. unfold after. cbn. now rewrite <- !app_assoc.
Qed.

(** ** Values of conditions *)
Lemma add_nil (s : St) : add_out [] s = s.
Proof. destruct s. unfold add_out. cbn. now rewrite app_nil_r. Qed.
Lemma cmp_value s c e x : own e -> own x -> steady s e (v e) -> steady s x (v x) ->
  forall s1, near s s1 -> eval (ECmp c e x) s1 = Norm (b2z (compare_vals c (v e) (v x))) (add_out [] s1).
Proof.
  intros Ce Cx He Hx s1 Hs. rewrite add_nil. cbn [MacroModel.eval]. unfold both.
  pose proof (steady_near _ _ _ _ He Ce Hs) as E1. pose proof (steady_near _ _ _ _ Hx Cx Hs) as E2.
  destruct ltr; rewrite ?E1, ?E2; cbn [obind]; rewrite ?E1, ?E2; reflexivity.
Qed.
Lemma check_value s e x : own e -> own x -> steady s e (v e) -> steady s x (v x) ->
  forall s1, near s s1 -> eval (ECheck e x) s1 = Norm (b2z (v e =? v x)) (add_out (int_text (v e)) s1).
Proof.
  intros Ce Cx He Hx s1 Hs. cbn [MacroModel.eval]. unfold both.
  pose proof (steady_near _ _ _ _ He Ce Hs) as E1. pose proof (steady_near _ _ _ _ Hx Cx Hs) as E2.
  destruct ltr; rewrite ?E1, ?E2; cbn [obind]; rewrite ?E1, ?E2; reflexivity.
Qed.
Lemma sub_value s e x : own e -> own x -> steady s e (v e) -> steady s x (v x) ->
  forall s1, near s s1 -> eval (EAbs (ESub e x)) s1 = Norm (Z.abs (v e - v x)) s1.
Proof.
  intros Ce Cx He Hx s1 Hs. cbn [MacroModel.eval]. unfold both.
  pose proof (steady_near _ _ _ _ He Ce Hs) as E1. pose proof (steady_near _ _ _ _ Hx Cx Hs) as E2.
  destruct ltr; rewrite ?E1, ?E2; cbn [obind]; rewrite ?E1, ?E2; reflexivity.
Qed.
Lemma plain_value s e : own e -> steady s e (v e) -> forall s1, near s s1 -> eval e s1 = Norm (v e) (add_out [] s1).
Proof. intros Ce He s1 Hs. rewrite add_nil. now apply (steady_near s). Qed.
Lemma bool_value s e : own e -> steady s e (v e) -> forall s1, near s s1 -> eval (EBool e) s1 = Norm (b2z (truth (v e))) (add_out [] s1).
Proof. intros Ce He s1 Hs. rewrite add_nil. cbn [MacroModel.eval]. now rewrite (steady_near _ _ _ _ He Ce Hs). Qed.
Lemma clean_call2 f a b : own a -> own b -> own (ECall2 f a b).
Proof. intros A B x Hx. cbn. now rewrite A, B. Qed.
Lemma clean_call1 f a : own a -> own (ECall1 f a).
Proof. intros A x Hx. cbn. now rewrite A. Qed.
Lemma clean_locals e : own e -> forall x, In x locals -> mentions x e = false.
Proof. intros H x Hx. apply H. apply in_or_app. now left. Qed.

Lemma op_holds_is c a b : op_holds c a b = compare_vals c a b.
Proof.
  destruct c; cbn.
  - destruct (Z.eq_dec a b), (Z.eqb_spec a b); congruence.
  - destruct (Z.eq_dec a b), (Z.eqb_spec a b); cbn; congruence.
  - destruct (Z_lt_dec a b), (Z.ltb_spec a b); lia.
  - destruct (Z_le_dec a b), (Z.leb_spec a b); lia.
  - destruct (Z_gt_dec a b), (Z.ltb_spec b a); lia.
  - destruct (Z_ge_dec a b), (Z.leb_spec b a); lia.
Qed.
Lemma op_text_is c : op_text c = cmp_text c.
Proof. destruct c; reflexivity. Qed.
Ltac in_locals := cbn; tauto.
Ltac avoid := cbn [mentions]; repeat match goal with H : forall x, In x locals -> mentions x ?e = false |- context [mentions ?y ?e] =>
  rewrite (H y) by in_locals end; reflexivity.
Ltac solve_over := unfold over1; repeat first [ apply Forall_nil | apply Forall_cons; [split; [exact I|cbn [snd msg_mentions existsb part_mentions lit nl nl2 endl]; avoid]|] ].
Ltac solve_pok := repeat first [ apply Forall_nil | apply Forall_cons; [first [exact I | split; assumption | split; [exact I|cbn [snd]] | split; [intros ? ?; reflexivity|intros ? ? ? ?; rewrite Hv; reflexivity]]|] ].
Ltac texts := unfold rc_pass, rc_fail, within_fail, cout_text, cerr_text, announces, confirms, complains, report_of, p_two, p_both, p_one, p_line, p_error, p_loc;
  cbn beta iota; repeat first [rewrite <- app_comm_cons | rewrite app_nil_l]; cbn [map fst snd]; unfold msg_text; cbn [map List.concat].
Ltac same_text := unfold indented, line, quoted, heading, pair_of, lit, nl, nl2, endl, newline; cbn [ptext]; repeat rewrite op_text_is; change (chars "") with (@nil Ascii.ascii); repeat rewrite Hv; repeat rewrite <- app_assoc; repeat rewrite app_nil_l; repeat rewrite app_nil_r; repeat first [rewrite <- app_comm_cons | rewrite app_nil_l]; reflexivity.
Ltac finish b := destruct b; cbn [b2z negb orb warns truth Z.eqb]; f_equal; unfold after; f_equal; texts; same_text.
Ltac show_check1 := match goal with |- _ = ?r => let R := fresh "R" in let HR := fresh "HR" in remember r as R eqn:HR end;
  unfold_check; cbn beta iota;
  lazymatch goal with |- MacroModel.exec _ _ ?c _ = _ => let d := as_check1 c in change c with d end.
Ltac by_check1 s n H := show_check1;
  erewrite (check1_text s n); [ subst; cbn [passed] | in_locals | cbn [mentions]; avoid | solve_over | solve_over | solve_pok | solve_pok | solve_pok | eassumption | eassumption | exact H ].
Theorem check_log l k s n :
  (forall e, In e (check_args k) -> own e) -> (forall e, In e (judged k) -> steady s e (v e)) ->
  counter "HELPER_TEST_FAILURES" s n -> n + 1 < 2 ^ 31 ->
  exec (check_stmt l k) s =
  Norm tt (after s (negb (passed v k || warns k)) (n + 1)
    (announces v k ++ (if passed v k then confirms v k else complains v l k)) (if passed v k then [] else report_of v l k)).
Proof.
  intros Hc Hj Hn Hb.
  destruct k; unfold judged in Hj; cbn [check_args app] in Hc, Hj.
  all: repeat match type of Hc with forall e0, In e0 (?a :: ?r) -> _ =>
         let H := fresh "Hc" in pose proof (Hc a (or_introl eq_refl)) as H; pose proof (clean_locals _ H);
         assert (Hc' : forall e0, In e0 r -> own e0) by (intros ? ?; apply Hc; right; assumption);
         clear Hc; rename Hc' into Hc end; clear Hc.
  all: repeat match type of Hj with forall e0, In e0 (?a :: ?r) -> _ =>
         let H := fresh "Hj" in pose proof (Hj a (or_introl eq_refl)) as H;
         assert (Hj' : forall e0, In e0 r -> steady s e0 (v e0)) by (intros ? ?; apply Hj; right; assumption);
         clear Hj; rename Hj' into Hj end; clear Hj.
  - by_check1 s n (plain_value s e Hc0 Hj0). cbn [passed]. finish (truth (v e)).
  - by_check1 s n (check_value s e x Hc0 Hc1 Hj0 Hj1). cbn [passed]. finish (v e =? v x).
  - by_check1 s n (check_value s e x Hc0 Hc1 Hj0 Hj1). cbn [passed]. finish (v e =? v x).
  - by_check1 s n (bool_value s _ (clean_call2 f e x Hc0 Hc1) Hj2). cbn [passed]. finish (truth (v (ECall2 f e x))).
  - by_check1 s n (bool_value s _ (clean_call2 f e x Hc0 Hc1) Hj2). cbn [passed]. finish (truth (v (ECall2 f e x))).
  - by_check1 s n (cmp_value s CEq e x Hc0 Hc1 Hj0 Hj1). cbn [passed compare_vals]. finish (v e =? v x).
  - by_check1 s n (cmp_value s CEq e x Hc0 Hc1 Hj0 Hj1). cbn [passed compare_vals]. finish (v e =? v x).
  - by_check1 s n (cmp_value s CEq e x Hc0 Hc1 Hj0 Hj1). cbn [passed compare_vals]. finish (v e =? v x).
  - change (check_stmt l (KWithin t1 t2 e x tol)) with (HELPER_TEST_WITHIN l t1 t2 e x tol). rewrite within_exact by assumption.
    assert (Hs : near s s) by (repeat split; auto).
    rewrite (insert_text Cout s _ I) by (solve_pok || exact Hs). cbn [obind].
    match goal with |- context [on Cout ?t s] => set (m := t); assert (Hs1 : near s (on Cout m s)) by (now apply near_on) end.
    rewrite (sub_value s e x Hc0 Hc1 Hj0 Hj1 _ Hs1). cbn [obind].
    rewrite (steady_near _ _ _ _ Hj2 Hc2 Hs1). cbn [obind compare_vals passed].
    destruct (Z.abs (v e - v x) <=? v tol); (rewrite (branch_text s n); [|unfold within_fail, p_error, p_loc; cbn [app]; solve_pok|exact Hs1|exact Hn|exact Hb]);
      subst m; unfold after; cbn [on add_out s_out s_err s_frames s_statics s_world warns negb orb]; f_equal; f_equal; texts; same_text.
  - by_check1 s n (cmp_value s CLt e x Hc0 Hc1 Hj0 Hj1). cbn [passed compare_vals]. finish (v e <? v x).
  - by_check1 s n (bool_value s _ (clean_call1 p a Hc0) Hj1). cbn [passed]. finish (truth (v (ECall1 p a))).
  - by_check1 s n (bool_value s _ (clean_call2 p a b Hc0 Hc1) Hj2). cbn [passed]. finish (truth (v (ECall2 p a b))).
  - by_check1 s n (cmp_value s c e x Hc0 Hc1 Hj0 Hj1). cbn [passed]. rewrite op_holds_is. finish (compare_vals c (v e) (v x)).
  - change (check_stmt l (KResultCompare t1 t2 e c x)) with (HELPER_TEST_RESULT_COMPARE l t1 t2 e c x). rewrite result_compare_exact by assumption.
    assert (Hs : near s s) by (repeat split; auto).
    rewrite (steady_near _ _ _ _ Hj0 Hc0 Hs). cbn [obind].
    rewrite (insert_text Cout s _ I) by (solve_pok || exact Hs). cbn [obind].
    match goal with |- context [on Cout ?t s] => set (m := t); assert (Hs1 : near s (on Cout m s)) by (now apply near_on) end.
    rewrite (steady_near _ _ _ _ Hj1 Hc1 Hs1). cbn [obind passed]. rewrite op_holds_is.
    destruct (compare_vals c (v e) (v x)); (rewrite (branch_text s n); [|unfold rc_pass, rc_fail, p_error, p_loc; cbn [app]; solve_pok|exact Hs1|exact Hn|exact Hb]);
      subst m; unfold after; cbn [on add_out s_out s_err s_frames s_statics s_world warns negb orb]; f_equal; f_equal; texts; same_text.
  - show_check1.
  erewrite (check1_text s n) with (z := b2z b) (extra := []); [ | in_locals | cbn [mentions]; avoid | solve_over | solve_over | solve_pok | solve_pok | solve_pok | eassumption | eassumption | ].
  + subst; cbn [passed]. finish b.
  + intros s1 _. now rewrite add_nil.
Qed.
Ltac show_static := match goal with |- _ = ?r => let R := fresh "R" in let HR := fresh "HR" in remember r as R eqn:HR end;
  unfold HELPER_TEST_STATIC_ASSERT, HELPER_TEST_CONCEPT, HELPER_TEST_SAME_TYPE, HELPER_TEST_EQUIVALENT_TYPE; unfold_check;
  lazymatch goal with |- MacroModel.exec _ _ ?c _ = _ => let d := as_check1 c in change c with d end.
Ltac by_static s n b := show_static;
  erewrite (check1_text s n) with (z := b2z b) (extra := []);
  [ subst; destruct b; cbn [b2z negb truth Z.eqb]; f_equal; unfold static_after, after; f_equal; texts; same_text
  | in_locals | cbn [mentions]; avoid | solve_over | solve_over | solve_pok | solve_pok | solve_pok | eassumption | eassumption
  | intros ? _; now rewrite add_nil ].
Lemma static_assert_log l cls txt b s n : counter "HELPER_TEST_FAILURES" s n -> n + 1 < 2 ^ 31 ->
  exec (HELPER_TEST_STATIC_ASSERT l cls txt b) s =
  Norm tt (static_after l cls txt (chars "Static assertion " ++ quoted txt ++ chars " failed.") b n s).
Proof. intros Hn Hb. by_static s n b. Qed.
Lemma concept_log l cls txt b s n : counter "HELPER_TEST_FAILURES" s n -> n + 1 < 2 ^ 31 ->
  exec (HELPER_TEST_CONCEPT l cls txt b) s =
  Norm tt (static_after l cls txt (chars "Concept " ++ quoted txt ++ chars " failed.") b n s).
Proof. intros Hn Hb. by_static s n b. Qed.
Lemma same_type_log l cls txt first b s n : counter "HELPER_TEST_FAILURES" s n -> n + 1 < 2 ^ 31 ->
  exec (HELPER_TEST_SAME_TYPE l cls txt first b) s =
  Norm tt (static_after l cls (chars "Same<" ++ txt ++ chars ">")
    (chars "Static assertion " ++ quoted (chars "Same<" ++ txt ++ chars ">") ++ chars " failed. First type is " ++ first) b n s).
Proof. intros Hn Hb. by_static s n b. Qed.
Lemma equivalent_type_log l cls txt first b s n : counter "HELPER_TEST_FAILURES" s n -> n + 1 < 2 ^ 31 ->
  exec (HELPER_TEST_EQUIVALENT_TYPE l cls txt first b) s =
  Norm tt (static_after l cls (chars "IsEquivalent<" ++ txt ++ chars ">")
    (chars "Static assertion " ++ quoted (chars "IsEquivalent<" ++ txt ++ chars ">") ++ chars " failed. First type is " ++ first) b n s).
Proof. intros Hn Hb. by_static s n b. Qed.
End L.
