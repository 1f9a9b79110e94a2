(** TestEval.v -- the exact effects of the checks of test.hpp, with all their evaluations. *)
From Verif Require Import Base StreamModel MacroModel MacroSpec MacroProofs TestModel TestSpec TestProofs.
From Coq Require Import String.
Open Scope list_scope.
Open Scope Z_scope.

(** the expressions printed by a message *)
Definition part_exprs (p : part) : list expr := match p with PExp e => [e] | _ => [] end.
Definition msg_exprs (ps : list part) : list expr := flat_map part_exprs ps.
Definition msgs_exprs (l : list (sink * list part)) : list expr := flat_map (fun q => msg_exprs (snd q)) l.
Definition printable (p : part) : Prop := match p with PWhat _ => False | _ => True end.
Definition printables (l : list (sink * list part)) : Prop :=
  Forall (fun q => is_std_sink (fst q) /\ Forall printable (snd q)) l.

Section E.
Context {W : Type} (call : nat -> list Z -> W -> callres W) (ltr : bool).
Notation St := (st W).
Notation eval := (eval call ltr).
Notation exec := (exec call ltr).
Notation insert := (insert call ltr).
Notation evals := (evals call ltr).

(** ** Leaving out a scope *)
(** [p] in a scope [f] is [p'] outside *)
Definition closes (f : frame) (p p' : part) : Prop :=
  (p' = p /\ forall x, part_mentions x p = true -> find_in x f = None) \/
  (exists y v, p = PExp (EVar y) /\ find_in y f = Some (CVal v) /\ p' = PExp (ELit v)).
Lemma read_val f y v (s : St) : find_in y f = Some (CVal v) -> read_var y (push f s) = Norm v (push f s).
Proof. intros H. unfold read_var; cbn. now rewrite H. Qed.
Lemma put_push k t f (s : St) : is_std_sink k -> put k t (push f s) = omap (push f) (put k t s).
Proof. destruct k; cbn; [reflexivity|reflexivity|contradiction]. Qed.
Lemma eval_push f e (s : St) : avoids mentions e f -> eval e (push f s) = omap (push f) (eval e s).
Proof. intros H. exact (eval_ins call ltr 0 f e H s). Qed.
Lemma insert_close k f ps ps' : is_std_sink k -> Forall2 (closes f) ps ps' ->
  forall s : St, insert k ps (push f s) = omap (push f) (insert k ps' s).
Proof.
  intros Hk H. induction H as [|p p' ps ps' Hp _ IH]; intros s; [reflexivity|].
  destruct Hp as [[-> Ha]|(y & v & -> & Hy & ->)].
  - destruct p as [t|e|x]; cbn [MacroModel.insert].
    + rewrite put_push by exact Hk. apply omap_obind. intros. apply IH.
    + rewrite eval_push by exact Ha. apply omap_obind. intros z s1 _.
      rewrite put_push by exact Hk. apply omap_obind. intros. apply IH.
    + assert (Hx : find_in x f = None) by (apply Ha; cbn; apply String.eqb_refl).
      pose proof (what_of_ins 0 f x s Hx) as E. rewrite insS_0 in E. rewrite E. change (insS 0 f) with (@push W f).
      apply omap_obind. intros z s1 _. rewrite put_push by exact Hk. apply omap_obind. intros. apply IH.
  - cbn [MacroModel.insert MacroModel.eval obind]. rewrite (read_val f y v s Hy). cbn [obind].
    rewrite put_push by exact Hk. apply omap_obind. intros. apply IH.
Qed.
Definition closes_msgs (f : frame) : list (sink * list part) -> list (sink * list part) -> Prop :=
  Forall2 (fun q q' => fst q' = fst q /\ is_std_sink (fst q) /\ Forall2 (closes f) (snd q) (snd q')).
Lemma inserts_close f l l' : closes_msgs f l l' ->
  forall s : St, exec (seqs (inserts l)) (push f s) = omap (push f) (exec (seqs (inserts l')) s).
Proof.
  intros H. induction H as [|[k ps] [k' ps'] l l' (Hk & Hs & Hp) _ IH]; intros s; [reflexivity|].
  cbn [fst snd] in *. subst k'. unfold inserts. cbn [map fst snd]. rewrite !exec_seqs_cons. cbn [MacroModel.exec].
  rewrite (insert_close k f ps ps' Hs Hp). apply omap_obind. intros. apply IH.
Qed.
Lemma branch_close b f l l' : closes_msgs f l l' -> find_in "HELPER_TEST_FAILURES" f = None ->
  forall s : St, exec (branch b l) (push f s) = omap (push f) (exec (branch b l') s).
Proof.
  intros H Hf s. unfold branch. destruct b; cbn [app].
  - rewrite !exec_seqs_cons. cbn [MacroModel.exec count_failure].
    rewrite eval_push by (intros x Hx; cbn in Hx; apply String.eqb_eq in Hx as ->; exact Hf).
    rewrite !(fun m k => match m as m' return obind (obind m' k) _ = _ with _ => eq_refl end) || idtac.
    destruct (eval (EIncr "HELPER_TEST_FAILURES") s) as [z s1|x s1|r|]; cbn [omap obind]; try reflexivity.
    now apply inserts_close.
  - now apply inserts_close.
Qed.
Lemma closes_nil ps : Forall2 (closes []) ps ps.
Proof. induction ps; constructor; auto. left. split; [reflexivity|]. reflexivity. Qed.
Lemma closes_msgs_nil l : Forall (fun q => is_std_sink (fst q)) l -> closes_msgs [] l l.
Proof. intros H. induction H as [|[k ps] l Hk _ IH]; constructor; auto. repeat split; auto. apply closes_nil. Qed.
Lemma tail_close x z f b1 l1 l1' b2 l2 l2' (s : St) :
  let g := (x, CVal z) :: f in
  closes_msgs g l1 l1' -> closes_msgs g l2 l2' -> find_in "HELPER_TEST_FAILURES" g = None ->
  exec (SIf (EVar x) (branch b1 l1) (branch b2 l2)) (push g s)
  = omap (push g) (exec (if truth z then branch b1 l1' else branch b2 l2') s).
Proof.
  intros g H1 H2 Hf. cbn [MacroModel.exec MacroModel.eval].
  rewrite (read_val g x z s) by (cbn; now rewrite String.eqb_refl). cbn [obind].
  assert (Hs : forall l l', closes_msgs g l l' -> closes_msgs [] l l).
  { intros l l' H. apply closes_msgs_nil. induction H as [|q q' l l' (_ & Hq & _) _ IH]; constructor; auto. }
  destruct (truth z).
  - rewrite (branch_close b1 [] l1 l1 (Hs _ _ H1) eq_refl (push g s)), leave_push. now apply branch_close.
  - rewrite (branch_close b2 [] l2 l2 (Hs _ _ H2) eq_refl (push g s)), leave_push. now apply branch_close.
Qed.
(** a declaration; [m] is the evaluation of the initialiser outside the scope *)
Lemma decl_close {A} auto x cond f (m : St -> outc St Z) (k : unit -> St -> outc St A) k' (s : St) :
  find_in x f = None ->
  (forall i, eval cond (push ((x, i) :: f) s) = omap (push ((x, i) :: f)) (m s)) ->
  (forall z s1, leave (k tt (push ((x, CVal z) :: f) s1)) = k' z s1) ->
  leave (obind (exec (SDecl auto x cond) (push f s)) k) = obind (m s) k'.
Proof.
  intros Hx Hc Hk. cbn [MacroModel.exec].
  set (i := if auto then CUndeduced else CIndet).
  replace (declare x i (push f s)) with (Norm tt (push ((x, i) :: f) s) : outc St unit)
    by (unfold declare; cbn; now rewrite Hx).
  cbn [obind]. rewrite Hc. destruct (m s) as [z s1|e s1|r|]; cbn [omap obind leave]; try reflexivity.
  - rewrite push_define. apply Hk.
  - now rewrite pop_push.
Qed.
Lemma leave_omap_obind {A B} f (m : outc St A) (k : A -> St -> outc St B) :
  leave (obind (omap (push f) m) k) = obind m (fun a s => leave (k a (push f s))).
Proof. destruct m; cbn; rewrite ?pop_push; reflexivity. Qed.

(** ** Checks with one declaration *)
Definition over1 (x : name) (l : list (sink * list part)) : Prop :=
  Forall (fun q => is_std_sink (fst q) /\ msg_mentions x (snd q) = false) l.
Lemma over1_closes x c l : over1 x l -> closes_msgs [(x, c)] l l.
Proof.
  intros H. induction H as [|[k ps] l [Hk Hm] _ IH]; constructor; auto. cbn [fst snd] in *. repeat split; auto.
  clear -Hm. unfold msg_mentions in Hm. induction ps as [|p ps IH]; constructor.
  - cbn in Hm. apply orb_false_iff in Hm as [Hp _]. left. split; [reflexivity|]. intros y Hy. cbn.
    destruct (String.eqb y x) eqn:E; [|reflexivity]. apply String.eqb_eq in E as ->. congruence.
  - apply IH. cbn in Hm. now apply orb_false_iff in Hm as [_ Hp].
Qed.
Lemma check1_exact pre auto x cond b1 l1 b2 l2 (s : St) :
  In x locals -> mentions x cond = false -> over1 x l1 -> over1 x l2 ->
  exec (check1 pre auto x cond b1 l1 b2 l2) s
  = obind (insert Cout pre s) (fun _ s0 => obind (eval cond s0) (fun z s1 =>
      exec (if truth z then branch b1 l1 else branch b2 l2) s1)).
Proof.
  intros Hx Hm H1 H2. unfold check1, brace, cout. cbn [seqs].
  change (exec (SBlock (SSeq (SInsert Cout pre) (SSeq (SDecl auto x cond) (SIf (EVar x) (branch b1 l1) (branch b2 l2))))) s)
    with (leave (obind (insert Cout pre (push [] s)) (fun _ s' =>
            obind (exec (SDecl auto x cond) s') (fun _ s2 => exec (SIf (EVar x) (branch b1 l1) (branch b2 l2)) s2)))).
  rewrite (insert_close Cout [] pre pre I (closes_nil pre)), leave_omap_obind.
  destruct (insert Cout pre s) as [[] s0|e s0|r|]; cbn [obind]; try reflexivity.
  apply (decl_close auto x cond [] (eval cond)); [reflexivity| |].
  - intros i. apply eval_push. now apply avoids_one.
  - intros z s1. rewrite (tail_close x z [] b1 l1 l1 b2 l2 l2); auto using over1_closes.
    + apply leave_push.
    + cbn. destruct Hx as [<-|[<-|[<-|[]]]]; reflexivity.
Qed.
(** ** Checks with two declarations *)
(** [p] does not mention the locals [y] and ok, or is [y] itself *)
Definition names_free (y : name) (p : part) : Prop := part_mentions y p = false /\ part_mentions "ok" p = false.
Definition inst (y : name) (a : Z) (p : part) : part :=
  match p with PExp (EVar x) => if String.eqb x y then PExp (ELit a) else p | _ => p end.
Definition free_or (y : name) (p : part) : Prop := names_free y p \/ p = PExp (EVar y).
Lemma closes_inst y a z g p : y <> "ok"%string -> free_or y p -> In g [[(y, CVal a)]; [("ok"%string, CVal z); (y, CVal a)]] ->
  closes g p (inst y a p).
Proof.
  intros Hy H Hg.
  assert (Hyo : String.eqb y "ok" = false) by now apply String.eqb_neq.
  assert (Hg1 : find_in y g = Some (CVal a)).
  { destruct Hg as [<-|[<-|[]]]; cbn; rewrite ?Hyo, String.eqb_refl; reflexivity. }
  destruct H as [[H1 H2]| ->].
  - left. split.
    + destruct p as [t|[]|]; try reflexivity. cbn in H1. cbn. rewrite String.eqb_sym, H1. reflexivity.
    + intros x Hx. destruct (String.eqb x y) eqn:E1; [apply String.eqb_eq in E1 as ->; congruence|].
      destruct (String.eqb x "ok") eqn:E2; [apply String.eqb_eq in E2 as ->; congruence|].
      destruct Hg as [<-|[<-|[]]]; cbn; rewrite ?E1, ?E2; reflexivity.
  - right. exists y, a. cbn. rewrite String.eqb_refl. auto.
Qed.
Definition free_msgs (y : name) (l : list (sink * list part)) : Prop :=
  Forall (fun q => is_std_sink (fst q) /\ Forall (free_or y) (snd q)) l.
Definition inst_msgs (y : name) (a : Z) (l : list (sink * list part)) : list (sink * list part) :=
  map (fun q => (fst q, map (inst y a) (snd q))) l.
Lemma closes_inst_list y a z g ps : y <> "ok"%string -> Forall (free_or y) ps ->
  In g [[(y, CVal a)]; [("ok"%string, CVal z); (y, CVal a)]] -> Forall2 (closes g) ps (map (inst y a) ps).
Proof. intros Hy H Hg. induction H; cbn; constructor; auto. now apply closes_inst with (z := z). Qed.
Lemma closes_inst_msgs y a z g l : y <> "ok"%string -> free_msgs y l ->
  In g [[(y, CVal a)]; [("ok"%string, CVal z); (y, CVal a)]] -> closes_msgs g l (inst_msgs y a l).
Proof.
  intros Hy H Hg. induction H as [|[k ps] l [Hk Hp] _ IH]; cbn; constructor; auto. cbn [fst snd] in *. repeat split; auto.
  now apply closes_inst_list with (z := z).
Qed.
(** the second declaration compares the first variable with [x], on one side or the other *)
Lemma second_exact y a c x b1 l1 b2 l2 (s : St) : y <> "ok"%string -> In y locals ->
  mentions y x = false -> mentions "ok" x = false -> free_msgs y l1 -> free_msgs y l2 ->
  leave (obind (exec (SDecl false "ok" (ECmp c (EVar y) x)) (push [(y, CVal a)] s))
               (fun _ s' => exec (SIf (EVar "ok") (branch b1 l1) (branch b2 l2)) s'))
  = obind (eval x s) (fun b s2 => exec (if compare_vals c a b then branch b1 (inst_msgs y a l1) else branch b2 (inst_msgs y a l2)) s2).
Proof.
  intros Hy HL Hx1 Hx2 H1 H2. set (f := [(y, CVal a)]).
  assert (Hyo : String.eqb y "ok" = false) by now apply String.eqb_neq.
  set (K := fun (z : Z) (s2 : St) => exec (if truth z then branch b1 (inst_msgs y a l1) else branch b2 (inst_msgs y a l2)) s2).
  transitivity (obind (obind (eval x s) (fun b s2 => Norm (b2z (compare_vals c a b)) s2)) K).
  2:{ destruct (eval x s); cbn [obind]; try reflexivity. unfold K. now rewrite truth_b2z. }
  apply (decl_close false "ok" (ECmp c (EVar y) x) f (fun s => obind (eval x s) (fun b s2 => Norm (b2z (compare_vals c a b)) s2))).
  - unfold f; cbn [find_in]. now rewrite String.eqb_sym, Hyo.
  - intros i. cbn [MacroModel.eval]. unfold both.
    assert (Ex : forall u, eval x (push (("ok"%string, i) :: f) u) = omap (push (("ok"%string, i) :: f)) (eval x u)).
    { intros u. apply eval_push. intros z Hz. cbn. destruct (String.eqb z "ok") eqn:E1; [apply String.eqb_eq in E1 as ->; congruence|].
      destruct (String.eqb z y) eqn:E2; [apply String.eqb_eq in E2 as ->; congruence|reflexivity]. }
    assert (Er : forall u : St, read_var y (push (("ok"%string, i) :: f) u) = Norm a (push (("ok"%string, i) :: f) u)).
    { intros u. apply read_val. cbn. rewrite Hyo, String.eqb_refl. reflexivity. }
    destruct ltr.
    + rewrite Er. cbn [obind]. rewrite Ex. apply omap_obind. reflexivity.
    + rewrite Ex. apply omap_obind. intros b s2 _. rewrite Er. reflexivity.
  - intros z s2. rewrite (tail_close "ok" z f b1 l1 (inst_msgs y a l1) b2 l2 (inst_msgs y a l2)).
    + apply leave_push.
    + apply closes_inst_msgs with (z := z); cbn; auto.
    + apply closes_inst_msgs with (z := z); cbn; auto.
    + destruct HL as [<-|[<-|[<-|[]]]]; reflexivity.
Qed.
Ltac solve_free H := repeat first [ apply Forall_nil
  | apply Forall_cons; [first [split; [exact I|] | left; split; first [reflexivity | cbn; apply H; cbn; tauto] | right; reflexivity]|] ].

Definition rc_pass (c : cmp) (x : expr) : list (sink * list part) :=
  [(Cout, [lit " "; PStr (cmp_text c); lit " "; PExp x; nl ""; endl])].
Definition rc_fail (l : loc) (t1 t2 : text) (c : cmp) (r x : expr) : list (sink * list part) :=
  [(Cout, [nl2 "ERROR: expected: "; PStr t1; PStr (cmp_text c); PStr t2; endl]);
   (Cerr, p_error l ++ [lit "Comparison `"; PStr t1; PStr (cmp_text c); PStr t2; lit "' failed; "; PStr t1; lit "="; PExp r; lit "; "; PStr t2; lit "="; PExp x; endl])].
Lemma inst_free y a e : mentions y e = false -> inst y a (PExp e) = PExp e.
Proof. destruct e; try reflexivity. cbn. intros H. rewrite String.eqb_sym, H. reflexivity. Qed.
Lemma result_compare_exact l t1 t2 e c x (s : St) :
  (forall z, In z locals -> mentions z e = false) -> (forall z, In z locals -> mentions z x = false) ->
  exec (HELPER_TEST_RESULT_COMPARE l t1 t2 e c x) s
  = obind (eval e s) (fun a s0 => obind (insert Cout [PStr t1; lit ": "; PExp (ELit a)] s0) (fun _ s1 =>
      obind (eval x s1) (fun b s2 =>
      exec (if compare_vals c a b then branch false (rc_pass c x) else branch true (rc_fail l t1 t2 c (ELit a) x)) s2))).
Proof.
  intros He Hx. unfold HELPER_TEST_RESULT_COMPARE, brace, cout, cerr, count_failure. cbn [seqs].
  match goal with |- exec (SBlock (SSeq ?d ?r)) s = _ =>
    change (exec (SBlock (SSeq d r)) s) with (leave (obind (exec d (push [] s)) (fun _ s' => exec r s'))) end.
  apply (decl_close false "result" e [] (eval e)); [reflexivity| |].
  { intros i. apply eval_push, avoids_one. apply He. cbn; auto. }
  intros a s0.
  match goal with |- leave (exec (SSeq (SInsert Cout ?ps) ?r) ?u) = _ =>
    change (exec (SSeq (SInsert Cout ps) r) u) with (obind (insert Cout ps u) (fun _ s' => exec r s')) end.
  rewrite (insert_close Cout [("result"%string, CVal a)] _ (map (inst "result" a) [PStr t1; lit ": "; PExp (EVar "result")]) I), leave_omap_obind.
  2:{ apply closes_inst_list with (z := 0); [discriminate| |cbn; auto]. solve_free Hx. }
  cbn [map inst String.eqb Ascii.eqb Bool.eqb]. change (inst "result" a (lit ": ")) with (lit ": ").
  destruct (insert Cout [PStr t1; lit ": "; PExp (ELit a)] s0) as [[] s1|e1 s1|r|]; cbn [obind]; try reflexivity.
  change (leave (obind (exec (SDecl false "ok" (ECmp c (EVar "result") x)) (push [("result"%string, CVal a)] s1))
               (fun _ s' => exec (SIf (EVar "ok") (branch false (rc_pass c x)) (branch true (rc_fail l t1 t2 c (EVar "result") x))) s'))
    = obind (eval x s1) (fun b s2 => exec (if compare_vals c a b then branch false (rc_pass c x) else branch true (rc_fail l t1 t2 c (ELit a) x)) s2)).
  rewrite second_exact.
  - unfold rc_pass, rc_fail, inst_msgs, p_error, p_loc, lit, nl, nl2, endl.
    cbn [map fst snd app].
    rewrite inst_free by (apply Hx; cbn; auto). reflexivity.
  - discriminate.
  - cbn; auto.
  - apply Hx; cbn; auto.
  - apply Hx; cbn; auto.
  - unfold free_msgs, rc_pass. solve_free Hx.
  - unfold free_msgs, rc_fail, p_error, p_loc. cbn [app]. solve_free Hx.
Qed.

Definition within_fail (l : loc) (t1 t2 : text) (e x d tol : expr) : list (sink * list part) :=
  [(Cout, [nl2 "ERROR: "; PStr t1; PStr (chars ":" ++ newline ++ chars "           ")%list; PExp e;
                          nl2 "     : "; PStr t2; PStr (chars ":" ++ newline ++ chars "           ")%list; PExp x;
                          nl2 "     : error: "; PExp d; nl2 "     : tolerance "; PExp tol; endl]);
   (Cerr, p_error l ++ [lit "ApproximateTag equality `"; PStr t1; lit " ~ "; PStr t2; lit "' failed; ";
                          PStr t1; lit "="; PExp e; lit "; "; PStr t2; lit "="; PExp x;
                          lit "; error="; PExp d; lit "; tolerance="; PExp tol; endl])].
Lemma within_exact l t1 t2 e x tol (s : St) :
  (forall z, In z locals -> mentions z e = false) -> (forall z, In z locals -> mentions z x = false) ->
  (forall z, In z locals -> mentions z tol = false) ->
  exec (HELPER_TEST_WITHIN l t1 t2 e x tol) s
  = obind (insert Cout [PStr t1; lit " ~ "; PStr t2; lit ": "] s) (fun _ s0 => obind (eval (EAbs (ESub e x)) s0) (fun a s1 =>
      obind (eval tol s1) (fun b s2 =>
      exec (if compare_vals CLe a b then branch false [(Cout, [nl "true"; endl])] else branch true (within_fail l t1 t2 e x (ELit a) tol)) s2))).
Proof.
  intros He Hx Ht. unfold HELPER_TEST_WITHIN, brace, cout, cerr, count_failure. cbn [seqs].
  match goal with |- exec (SBlock (SSeq (SInsert Cout ?ps) (SSeq ?d ?r))) s = _ =>
    change (exec (SBlock (SSeq (SInsert Cout ps) (SSeq d r))) s)
      with (leave (obind (insert Cout ps (push [] s)) (fun _ s' => obind (exec d s') (fun _ s' => exec r s')))) end.
  rewrite (insert_close Cout [] _ _ I (closes_nil _)), leave_omap_obind.
  destruct (insert Cout [PStr t1; lit " ~ "; PStr t2; lit ": "] s) as [[] s0|e1 s0|r|]; cbn [obind]; try reflexivity.
  apply (decl_close true "error" (EAbs (ESub e x)) [] (eval (EAbs (ESub e x)))); [reflexivity| |].
  { intros i. apply eval_push, avoids_one. cbn. rewrite He, Hx by (cbn; auto). reflexivity. }
  intros a s1.
  change (leave (obind (exec (SDecl false "ok" (ECmp CLe (EVar "error") tol)) (push [("error"%string, CVal a)] s1))
               (fun _ s' => exec (SIf (EVar "ok") (branch false [(Cout, [nl "true"; endl])]) (branch true (within_fail l t1 t2 e x (EVar "error") tol))) s'))
    = obind (eval tol s1) (fun b s2 => exec (if compare_vals CLe a b then branch false [(Cout, [nl "true"; endl])] else branch true (within_fail l t1 t2 e x (ELit a) tol)) s2)).
  rewrite second_exact.
  - unfold within_fail, inst_msgs, p_error, p_loc, lit, nl, nl2, endl.
    cbn [map fst snd app].
    rewrite (inst_free "error" a e) by (apply He; cbn; auto). rewrite (inst_free "error" a x) by (apply Hx; cbn; auto).
    rewrite (inst_free "error" a tol) by (apply Ht; cbn; auto). reflexivity.
  - discriminate.
  - cbn; auto.
  - apply Ht; cbn; auto.
  - apply Ht; cbn; auto.
  - unfold free_msgs. solve_free Hx.
  - unfold free_msgs, within_fail, p_error, p_loc. cbn [app].
    repeat first [ apply Forall_nil
      | apply Forall_cons; [first [split; [exact I|] | left; split; first [reflexivity | cbn; first [apply He; cbn; tauto | apply Hx; cbn; tauto | apply Ht; cbn; tauto]] | right; reflexivity]|] ].
Qed.

(** ** Forgetting the output *)
Notation oeq := (oeqv (@eq (list frame))).
Notation seq := (eqv_by (@eq (list frame))).
Lemma good_eq : good_rel (@eq (list frame)).
Proof. split; intros; congruence. Qed.
Lemma oeq_agree {A} (m m' : outc St A) : oeq m m' -> agree m m'.
Proof.
  destruct m, m'; cbn; auto; intros [-> (A1 & A2 & A3)]; repeat split; congruence.
Qed.
Lemma put_silent k t (s : St) : is_std_sink k -> exists s', put k t s = Norm tt s' /\ seq s' s.
Proof. destruct k; cbn; [| |contradiction]; intros _; eexists; repeat split. Qed.
Lemma insert_silent k ps : is_std_sink k -> Forall printable ps ->
  forall s s' : St, seq s s' -> oeq (insert k ps s) (evals (msg_exprs ps) s').
Proof.
  intros Hk H. induction H as [|p ps Hp _ IH]; intros s s' Hs; [split; [reflexivity|exact Hs]|].
  assert (Hput : forall t (u u' : St), seq u u' -> oeq (obind (put k t u) (fun _ s2 => insert k ps s2)) (evals (msg_exprs ps) u')).
  { intros t u u' Hu. destruct (put_silent k t u Hk) as (u1 & -> & (A1 & A2 & A3)). cbn [obind]. apply IH.
    destruct Hu as (B1 & B2 & B3). repeat split; congruence. }
  destruct p as [t|e|x]; [| |contradiction].
  - apply Hput, Hs.
  - cbn [MacroModel.insert]. 
    assert (E : oeq (obind (eval e s) (fun z s1 => obind (put k (int_text z) s1) (fun _ s2 => insert k ps s2)))
                    (obind (eval e s') (fun _ s1 => evals (msg_exprs ps) s1))).
    { apply obind_eqv; [apply eval_eqv; [exact good_eq|exact Hs]|]. intros. apply Hput. assumption. }
    exact E.
Qed.
Lemma evals_app l1 l2 (s : St) : evals (l1 ++ l2) s = obind (evals l1 s) (fun _ s' => evals l2 s').
Proof.
  revert s. induction l1 as [|e l IH]; intros s; [reflexivity|]. cbn [app TestSpec.evals].
  destruct (eval e s); cbn [obind]; auto.
Qed.
Lemma inserts_silent l : printables l -> forall s s' : St, seq s s' -> oeq (exec (seqs (inserts l)) s) (evals (msgs_exprs l) s').
Proof.
  intros H. induction H as [|[k ps] l [Hk Hp] _ IH]; intros s s' Hs; [split; [reflexivity|exact Hs]|].
  unfold inserts. cbn [map]. rewrite exec_seqs_cons. cbn [MacroModel.exec fst snd]. unfold msgs_exprs. cbn [flat_map]. rewrite evals_app.
  apply obind_eqv; [now apply insert_silent|]. intros [] s1 s1' H1. now apply IH.
Qed.
Lemma branch_silent b l (s s' : St) : printables l -> seq s s' ->
  oeq (exec (branch b l) s)
      (obind (if b then eval (EIncr "HELPER_TEST_FAILURES") s' else Norm 0 s') (fun _ s2 => evals (msgs_exprs l) s2)).
Proof.
  intros H Hs. unfold branch. destruct b; cbn [app].
  - rewrite exec_seqs_cons. cbn [MacroModel.exec count_failure].
    pose proof (eval_eqv call ltr _ good_eq (EIncr "HELPER_TEST_FAILURES") s s' Hs) as E.
    destruct (eval (EIncr "HELPER_TEST_FAILURES") s) as [z s1|x s1|r|], (eval (EIncr "HELPER_TEST_FAILURES") s') as [z' s1'|x' s1'|r'|];
      cbn in E; try contradiction; cbn [obind]; try exact E. destruct E as [_ E]. now apply inserts_silent.
  - cbn [obind]. now apply inserts_silent.
Qed.

Lemma oeq_refl {A} (m : outc St A) : oeq m m.
Proof. destruct m; cbn; repeat split. Qed.
Lemma oeq_trans {A} (m1 m2 m3 : outc St A) : oeq m1 m2 -> oeq m2 m3 -> oeq m1 m3.
Proof.
  destruct m1, m2; cbn; try contradiction; destruct m3; cbn; auto; try congruence;
    intros [-> (A1 & A2 & A3)] [-> (B1 & B2 & B3)]; repeat split; congruence.
Qed.
Lemma evals_eqv l : forall s s' : St, seq s s' -> oeq (evals l s) (evals l s').
Proof.
  induction l as [|e l IH]; intros s s' H; cbn [TestSpec.evals]; [split; [reflexivity|exact H]|].
  apply obind_eqv; [apply eval_eqv; [exact good_eq|exact H]|]. intros; now apply IH.
Qed.
(** evaluating constants has no effect *)
Definition strip1 (e : expr) : list expr := match e with ELit _ => [] | _ => [e] end.
Definition strip (l : list expr) : list expr := flat_map strip1 l.
Lemma evals_strip l : forall s : St, evals (strip l) s = evals l s.
Proof.
  induction l as [|e l IH]; intros s; [reflexivity|]. unfold strip in *. cbn [flat_map]. rewrite evals_app.
  destruct e; cbn [strip1 TestSpec.evals obind]; try (rewrite IH; reflexivity);
    match goal with |- context [MacroModel.eval call ltr ?e s] => destruct (MacroModel.eval call ltr e s) end; cbn [obind]; auto.
Qed.
Lemma evals_msgs m l : strip m = strip l -> forall s : St, evals m s = evals l s.
Proof. intros H s. now rewrite <- (evals_strip m), <- (evals_strip l), H. Qed.
Lemma seq_refl (s : St) : seq s s.
Proof. repeat split. Qed.
(** a condition [cond] with value [f v] *)
Lemma check1_effects pre auto x cond b1 l1 b2 l2 dec f be pa fa (cnt : St -> outc St Z) exp (s : St) :
  In x locals -> mentions x cond = false -> over1 x l1 -> over1 x l2 ->
  Forall printable pre -> printables l1 -> printables l2 ->
  (forall u, oeq (eval cond u) (obind (dec u) (fun v u1 => Norm (f v) u1))) ->
  (forall v, truth (f v) = truth v) ->
  strip (msg_exprs pre) = strip be ->
  strip (msgs_exprs (if exp : bool then l1 else l2)) = strip pa -> strip (msgs_exprs (if exp then l2 else l1)) = strip fa ->
  (if exp then b1 else b2) = false ->
  (forall u, cnt u = if (if exp then b2 else b1) then eval (EIncr "HELPER_TEST_FAILURES") u else Norm 0 u) ->
  agree (exec (check1 pre auto x cond b1 l1 b2 l2) s)
    (obind (evals be s) (fun _ s0 => obind (dec s0) (fun v s1 =>
       if Bool.eqb (truth v) exp then evals pa s1 else obind (cnt s1) (fun _ s2 => evals fa s2)))).
Proof.
  intros Hx Hm H1 H2 Hp P1 P2 Hd Ht Ebe Epa Efa Hb Hc. rewrite check1_exact by assumption. apply oeq_agree.
  rewrite <- (evals_msgs _ _ Ebe).
  apply obind_eqv; [apply insert_silent; [exact I|exact Hp|apply seq_refl]|]. intros [] s0 s0' H0.
  assert (E : oeq (eval cond s0) (obind (dec s0') (fun v u1 => Norm (f v) u1))).
  { pose proof (eval_eqv call ltr _ good_eq cond s0 s0' H0) as E1. specialize (Hd s0').
    destruct (eval cond s0), (eval cond s0'); cbn in E1; try contradiction;
      destruct (obind (dec s0') (fun v u1 => Norm (f v) u1)); cbn in Hd; try contradiction; cbn; auto; try congruence;
      destruct E1 as [-> (A1 & A2 & A3)], Hd as [-> (B1 & B2 & B3)]; repeat split; congruence. }
  destruct (dec s0') as [v s1'|e s1'|r|]; cbn [obind] in E; destruct (eval cond s0) as [z s1|e' s1|r'|]; cbn in E; try contradiction; cbn [obind]; auto.
  destruct E as [-> HE]. rewrite Ht.
  assert (B : forall b l, printables l -> oeq (exec (branch b l) s1)
     (obind (if b then eval (EIncr "HELPER_TEST_FAILURES") s1' else Norm 0 s1') (fun _ s2 => evals (msgs_exprs l) s2))).
  { intros. now apply branch_silent. }
  rewrite <- (evals_msgs _ _ Epa), Hc.
  assert (F : forall m, oeq m (obind (if if exp then b2 else b1 then eval (EIncr "HELPER_TEST_FAILURES") s1' else Norm 0 s1') (fun _ s2 => evals (msgs_exprs (if exp then l2 else l1)) s2)) ->
     oeq m (obind (if if exp then b2 else b1 then eval (EIncr "HELPER_TEST_FAILURES") s1' else Norm 0 s1') (fun _ s2 => evals fa s2))).
  { intros m H. eapply oeq_trans; [exact H|]. apply obind_eqv; [apply oeq_refl|]. intros ? u u' Hu. rewrite (evals_msgs _ _ Efa). now apply evals_eqv. }
  destruct (truth v), exp; cbn [Bool.eqb] in *.
  - pose proof (B b1 l1 P1) as E. rewrite Hb in *. exact E.
  - exact (F _ (B b1 l1 P1)).
  - exact (F _ (B b2 l2 P2)).
  - pose proof (B b2 l2 P2) as E. rewrite Hb in *. exact E.
Qed.

Lemma dec_id c (u : St) : oeq (eval c u) (obind (eval c u) (fun v u1 => Norm ((fun z => z) v) u1)).
Proof. destruct (eval c u); cbn; repeat split. Qed.
Lemma dec_bool c (u : St) : oeq (eval (EBool c) u) (obind (eval c u) (fun v u1 => Norm (b2z (truth v)) u1)).
Proof. cbn [MacroModel.eval]. destruct (eval c u); cbn; repeat split. Qed.
Lemma dec_check e x (u : St) : oeq (eval (ECheck e x) u) (obind (eval (ECmp CEq e x) u) (fun v u1 => Norm ((fun z => z) v) u1)).
Proof.
  cbn [MacroModel.eval]. generalize (eval e), (eval x). intros m1 m2. unfold both. destruct ltr.
  - destruct (m1 u) as [a u1| | |]; cbn [obind]; try (cbn; repeat split; fail).
    destruct (m2 u1) as [b u2| | |]; cbn; repeat split.
  - destruct (m2 u) as [a u1| | |]; cbn [obind]; try (cbn; repeat split; fail).
    destruct (m1 u1) as [b u2| | |]; cbn; repeat split.
Qed.
Lemma truth_bool v : truth (b2z (truth v)) = truth v.
Proof. apply truth_b2z. Qed.

Ltac in_locals := cbn; tauto.
Ltac use_check1 :=
  unfold_check; cbn beta iota;
  lazymatch goal with |- agree (MacroModel.exec _ _ ?c _) _ =>
    let d := as_check1 c in change c with d end.
Ltac solve_over H := unfold over1;
  repeat first [ apply Forall_nil | apply Forall_cons; [split; [exact I|cbn; rewrite ?H by in_locals; reflexivity]|] ].
Ltac solve_printable := unfold printables; cbn [fst snd];
  repeat first [ apply Forall_nil | apply Forall_cons; [first [split; [exact I|] | exact I]|] ].
Ltac avoid := repeat match goal with H : forall x, In x locals -> mentions x ?e = false |- context [mentions ?y ?e] =>
  rewrite (H y) by in_locals end; reflexivity.
Ltac solve_over' := unfold over1; repeat first [ apply Forall_nil | apply Forall_cons; [split; [exact I|cbn [snd msg_mentions existsb part_mentions lit nl nl2 endl]; avoid]|] ].
Ltac go d h := use_check1;
  eapply (check1_effects _ _ _ _ _ _ _ _ d);
  [ in_locals | cbn [mentions]; avoid | solve_over' | solve_over' | solve_printable | solve_printable | solve_printable | exact h
  | first [reflexivity | exact truth_bool] | reflexivity | reflexivity | reflexivity | reflexivity | reflexivity ].
Theorem check_effects l k (s : St) :
  (forall e, In e (check_args k) -> forall x, In x locals -> mentions x e = false) ->
  agree (exec (check_stmt l k) s) (effects call ltr k s).
Proof.
  intros Hm.
  assert (Hs : forall t1 t2 e c x, k = KResultCompare t1 t2 e c x \/ (exists tol, k = KWithin t1 t2 e x tol) ->
    agree (exec (check_stmt l k) s) (effects call ltr k s)).
  { intros t1 t2 e c x [->|[tol ->]]; cbn [check_stmt check_args] in *.
    - assert (He : forall z, In z locals -> mentions z e = false) by (apply Hm; cbn; auto).
      assert (Hx : forall z, In z locals -> mentions z x = false) by (apply Hm; cbn; auto).
      rewrite result_compare_exact by assumption. apply oeq_agree. unfold effects. cbn [before TestSpec.evals obind decides].
      destruct (eval e s) as [a s0|? ?|?|]; cbn [obind]; try (cbn; repeat split; fail).
      destruct (insert Cout [PStr t1; lit ": "; PExp (ELit a)] s0) as [[] s1|? ?|?|] eqn:E; cbn in E; try discriminate.
      injection E as <-. cbn [obind].
      match goal with |- context [eval x ?u] => assert (H0 : seq u s0) by repeat split;
        pose proof (eval_eqv call ltr _ good_eq x u s0 H0) as E; destruct (eval x u) as [b s2|? ?|?|] end;
      destruct (eval x s0) as [b' s2'|? ?|?|]; cbn in E; try contradiction; cbn [obind]; try exact E.
      destruct E as [<- E]. rewrite truth_b2z. cbn [expected].
      destruct (compare_vals c a b); cbn [Bool.eqb].
      + eapply oeq_trans; [apply branch_silent; [solve_printable|exact E]|].
        cbn [obind]. rewrite (evals_msgs _ [x]) by reflexivity. apply oeq_refl.
      + eapply oeq_trans; [apply branch_silent; [unfold rc_fail, p_error, p_loc; cbn [app]; solve_printable|exact E]|].
        cbn [count when_failed]. apply obind_eqv; [apply oeq_refl|]. intros ? u u' Hu.
        rewrite (evals_msgs _ [x]) by reflexivity. apply evals_eqv, Hu.
    - assert (He : forall z, In z locals -> mentions z e = false) by (apply Hm; cbn; auto).
      assert (Hx : forall z, In z locals -> mentions z x = false) by (apply Hm; cbn; auto).
      assert (Ht : forall z, In z locals -> mentions z tol = false) by (apply Hm; cbn; auto).
      rewrite within_exact by assumption. apply oeq_agree. unfold effects. cbn [before TestSpec.evals obind decides].
      destruct (insert Cout [PStr t1; lit " ~ "; PStr t2; lit ": "] s) as [[] s1|? ?|?|] eqn:E; cbn in E; try discriminate.
      injection E as <-. cbn [obind].
      match goal with |- context [eval (EAbs (ESub e x)) ?u] => assert (H0 : seq u s) by repeat split;
        pose proof (eval_eqv call ltr _ good_eq (ESub e x) u s H0) as E; change (eval (EAbs (ESub e x)) u) with (obind (eval (ESub e x) u) (fun z s' => Norm (Z.abs z) s'));
        destruct (eval (ESub e x) u) as [d s1|? ?|?|] end;
      destruct (eval (ESub e x) s) as [d' s1'|? ?|?|]; cbn in E; try contradiction; cbn [obind]; try exact E.
      destruct E as [<- E1].
      pose proof (eval_eqv call ltr _ good_eq tol s1 s1' E1) as E. destruct (eval tol s1) as [b s2|? ?|?|];
      destruct (eval tol s1') as [b' s2'|? ?|?|]; cbn in E; try contradiction; cbn [obind]; try exact E.
      destruct E as [<- E]. rewrite truth_b2z. cbn [expected compare_vals].
      destruct (Z.abs d <=? b); cbn [Bool.eqb].
      + eapply oeq_trans; [apply branch_silent; [solve_printable|exact E]|]. apply oeq_refl.
      + eapply oeq_trans; [apply branch_silent; [unfold within_fail, p_error, p_loc; cbn [app]; solve_printable|exact E]|].
        cbn [count when_failed]. apply obind_eqv; [apply oeq_refl|]. intros ? u u' Hu.
        rewrite (evals_msgs _ [e; x; tol; e; x; tol]) by reflexivity. apply evals_eqv, Hu. }
  destruct k; cbn [check_args] in Hm; try (eapply (Hs _ _ _ CEq); eauto; fail); try (eapply Hs; eauto; fail); clear Hs.
  all: repeat match type of Hm with forall e0, In e0 (?a :: ?r) -> _ =>
         let H := fresh "Ha" in pose proof (Hm a (or_introl eq_refl)) as H;
         assert (Hm' : forall e0, In e0 r -> forall x, In x locals -> mentions x e0 = false) by (intros ? ?; apply Hm; right; assumption);
         clear Hm; rename Hm' into Hm end; clear Hm.
  - go (eval e) (dec_id e).
  - go (eval (ECmp CEq e x)) (dec_check e x).
  - go (eval (ECmp CEq e x)) (dec_check e x).
  - go (eval (ECall2 f e x)) (dec_bool (ECall2 f e x)).
  - go (eval (ECall2 f e x)) (dec_bool (ECall2 f e x)).
  - go (eval (ECmp CEq e x)) (dec_id (ECmp CEq e x)).
  - go (eval (ECmp CEq e x)) (dec_id (ECmp CEq e x)).
  - go (eval (ECmp CEq e x)) (dec_id (ECmp CEq e x)).
  - go (eval (ECmp CLt e x)) (dec_id (ECmp CLt e x)).
  - go (eval (ECall1 p a)) (dec_bool (ECall1 p a)).
  - go (eval (ECall2 p a b)) (dec_bool (ECall2 p a b)).
  - go (eval (ECmp c e x)) (dec_id (ECmp c e x)).
  - use_check1. eapply (check1_effects _ _ _ _ _ _ _ _ (fun s : St => Norm (b2z b) s : outc St Z) (fun z => z)); try reflexivity.
    + in_locals.
    + solve_over'.
    + solve_over'.
    + solve_printable.
    + solve_printable.
    + solve_printable.
    + intros u. split; [reflexivity|apply seq_refl].
Qed.

(** ** What is written to cerr *)
Lemma both_err {A} (m1 m2 : St -> outc St Z) (k : Z -> Z -> St -> outc St A) :
  (forall s z s', m1 s = Norm z s' -> s_err s' = s_err s) -> (forall s z s', m2 s = Norm z s' -> s_err s' = s_err s) ->
  (forall a b s z s', k a b s = Norm z s' -> s_err s' = s_err s) ->
  forall s z s', both ltr m1 m2 k s = Norm z s' -> s_err s' = s_err s.
Proof.
  intros H1 H2 Hk s z s'. unfold both. destruct ltr.
  - destruct (m1 s) as [a s1| | |] eqn:E1; try discriminate. cbn [obind]. destruct (m2 s1) as [b s2| | |] eqn:E2; try discriminate.
    cbn [obind]. intros H. rewrite (Hk _ _ _ _ _ H), (H2 _ _ _ E2). eauto.
  - destruct (m2 s) as [a s1| | |] eqn:E1; try discriminate. cbn [obind]. destruct (m1 s1) as [b s2| | |] eqn:E2; try discriminate.
    cbn [obind]. intros H. rewrite (Hk _ _ _ _ _ H), (H1 _ _ _ E2). eauto.
Qed.
Lemma call_err f l (s : St) z s' : do_call call f l s = Norm z s' -> s_err s' = s_err s.
Proof. unfold do_call. destruct (call f l (s_world s)); intros H; inversion H; reflexivity. Qed.
Lemma read_err x (s : St) z s' : read_var x s = Norm z s' -> s_err s' = s_err s.
Proof.
  unfold read_var. destruct (lookup x (s_frames s)) as [[]|]; try discriminate; [|destruct (s_statics s site); try discriminate];
    intros H; inversion H; reflexivity.
Qed.
Lemma write_err x v (s : St) z s' : write_var x v s = Norm z s' -> s_err s' = s_err s.
Proof. unfold write_var. destruct (lookup x (s_frames s)) as [[]|]; try discriminate; intros H; inversion H; reflexivity. Qed.
Lemma eval_err e : forall (s : St) z s', eval e s = Norm z s' -> s_err s' = s_err s.
Proof.
  induction e; intros s z' s' H; cbn [MacroModel.eval] in H.
  - now inversion H.
  - eapply read_err, H.
  - destruct (eval e s) eqn:E; inversion H; subst; eauto.
  - destruct (eval e s) eqn:E; inversion H; subst; eauto.
  - destruct (eval e1 s) as [a s1| | |] eqn:E; try discriminate. cbn [obind] in H. destruct (truth a).
    + destruct (eval e2 s1) eqn:E2; inversion H; subst. rewrite (IHe2 _ _ _ E2). eauto.
    + inversion H; subst; eauto.
  - eapply both_err; [exact IHe1|exact IHe2| |exact H]. intros ? ? ? ? ? Hk; inversion Hk; reflexivity.
  - eapply both_err; [exact IHe1|exact IHe2| |exact H]. intros ? ? ? ? ? Hk; inversion Hk; reflexivity.
  - destruct (eval e s) eqn:E; inversion H; subst; eauto.
  - destruct (eval e s) as [a s1| | |] eqn:E; try discriminate. cbn [obind] in H. rewrite (call_err _ _ _ _ _ H). eauto.
  - eapply both_err; [exact IHe1|exact IHe2| |exact H]. intros ? ? ? ? ? Hk; eapply call_err, Hk.
  - destruct (eval e s) as [a s1| | |] eqn:E; try discriminate. cbn [obind] in H. rewrite (write_err _ _ _ _ _ H). eauto.
  - destruct (read_var x s) as [a s1| | |] eqn:E; try discriminate. cbn [obind] in H.
    destruct (a + 1 <? 2 ^ 31); [|discriminate]. rewrite (write_err _ _ _ _ _ H). eapply read_err, E.
  - eapply both_err; [exact IHe1|exact IHe2| |exact H]. intros ? ? ? ? ? Hk; inversion Hk; reflexivity.
Qed.
(** the text of a message whose expressions have some values *)
Inductive renders : list part -> text -> Prop :=
| r_nil : renders [] []
| r_str t ps u : renders ps u -> renders (PStr t :: ps) (t ++ u)
| r_lit z ps u : renders ps u -> renders (PExp (ELit z) :: ps) (int_text z ++ u)
| r_exp e z ps u : (forall v, e <> ELit v) -> renders ps u -> renders (PExp e :: ps) (int_text z ++ u).
Definition to_cerr (l : list (sink * list part)) : list part :=
  flat_map (fun q => match fst q with Cerr => snd q | _ => [] end) l.
Lemma insert_err k ps : is_std_sink k -> Forall printable ps -> forall (s s' : St), insert k ps s = Norm tt s' ->
  match k with Cerr => exists u, renders ps u /\ s_err s' = s_err s ++ u | _ => s_err s' = s_err s end.
Proof.
  intros Hk H. induction H as [|p ps Hp _ IH]; intros s s' E.
  - injection E as <-. destruct k; auto. exists []. split; [constructor|]. now rewrite app_nil_r.
  - destruct p as [t|e|x]; [| |contradiction].
    + destruct k; cbn in E; try contradiction; apply IH in E.
      * exact E.
      * destruct E as (u & Hu & ->). exists (t ++ u). split; [now constructor|]. cbn. now rewrite app_assoc.
    + cbn [MacroModel.insert] in E. destruct (eval e s) as [z s1| | |] eqn:Ee; try discriminate. pose proof (eval_err _ _ _ _ Ee) as E1.
      destruct k; cbn in E; try contradiction; apply IH in E.
      * cbn in E. congruence.
      * destruct E as (u & Hu & ->). exists (int_text z ++ u). cbn. rewrite E1, app_assoc. split; [|reflexivity].
        destruct e; try (apply r_exp; [discriminate|exact Hu]). cbn in Ee. injection Ee as -> _. now apply r_lit.
Qed.
Lemma renders_app a b u v : renders a u -> renders b v -> renders (a ++ b) (u ++ v).
Proof. induction 1; intros Hb; cbn; rewrite <- ?app_assoc; auto; constructor; auto. Qed.
Lemma inserts_err l : printables l -> forall s s' : St, exec (seqs (inserts l)) s = Norm tt s' ->
  exists u, renders (to_cerr l) u /\ s_err s' = s_err s ++ u.
Proof.
  intros H. induction H as [|[k ps] l [Hk Hp] _ IH]; intros s s' E.
  - injection E as <-. exists []. split; [constructor|]. now rewrite app_nil_r.
  - unfold inserts in E. cbn [map] in E. rewrite exec_seqs_cons in E. cbn [MacroModel.exec fst snd] in *.
    destruct (insert k ps s) as [[] s1| | |] eqn:E1; try discriminate. cbn [obind] in E.
    apply IH in E as (u & Hu & E). apply (insert_err k ps Hk Hp) in E1. unfold to_cerr in *. cbn [flat_map fst snd].
    destruct k; try contradiction.
    + exists u. split; [exact Hu|]. congruence.
    + destruct E1 as (v & Hv & E1). exists (v ++ u). split; [now apply renders_app|]. now rewrite E, E1, app_assoc.
Qed.
Lemma branch_err b l : printables l -> forall s s' : St, exec (branch b l) s = Norm tt s' ->
  exists u, renders (to_cerr l) u /\ s_err s' = s_err s ++ u.
Proof.
  intros H s s' E. unfold branch in E. destruct b; cbn [app] in E.
  - rewrite exec_seqs_cons in E. cbn [MacroModel.exec count_failure] in E.
    destruct (eval (EIncr "HELPER_TEST_FAILURES") s) as [z s1| | |] eqn:E1; try discriminate. cbn [obind] in E.
    apply eval_err in E1. apply inserts_err in E as (u & Hu & E); [|exact H]. exists u. split; [exact Hu|]. congruence.
  - now apply inserts_err in E.
Qed.
Lemma renders_nil u : renders [] u -> u = [].
Proof. intros H. now inversion H. Qed.
Lemma renders_str t ps u : renders (PStr t :: ps) u -> exists v, u = t ++ v /\ renders ps v.
Proof. intros H. inversion H; subst; eauto. Qed.
Lemma renders_lit z ps u : renders (PExp (ELit z) :: ps) u -> exists v, u = int_text z ++ v /\ renders ps v.
Proof. intros H. inversion H; subst; eauto. exfalso. eapply H2. reflexivity. Qed.
Lemma renders_snoc ps t u : renders (ps ++ [PStr t]) u -> exists v, u = v ++ t.
Proof.
  revert u. induction ps as [|p ps IH]; intros u H; cbn in H.
  - apply renders_str in H as (v & -> & H). apply renders_nil in H as ->. exists []. now rewrite app_nil_r.
  - inversion H; subst; match goal with R : renders (ps ++ [PStr t]) _ |- _ => apply IH in R as (w & ->) end;
      eexists; rewrite app_assoc; reflexivity.
Qed.
Lemma renders_heading word l t0 ps u : renders ([lit word] ++ p_loc l ++ PStr (chars ": " ++ t0) :: ps ++ [endl]) u ->
  exists v, u = heading word l ++ v ++ newline.
Proof.
  unfold p_loc. cbn [app]. intros H.
  apply renders_str in H as (u1 & -> & H). apply renders_str in H as (u2 & -> & H). apply renders_str in H as (u3 & -> & H).
  apply renders_lit in H as (u4 & -> & H). apply renders_str in H as (u5 & -> & H). apply renders_str in H as (u6 & -> & H).
  apply renders_str in H as (u7 & -> & H). apply renders_snoc in H as (v & ->). exists (t0 ++ v).
  unfold heading. now rewrite <- !app_assoc.
Qed.
(** what a check with the decision [dec], made after [be], writes to cerr *)
Definition reported (be : list expr) (dec : St -> outc St Z) (ps1 ps2 : list part) (s s' : St) : Prop :=
  exists s0 v s1 u, evals be s = Norm tt s0 /\ dec s0 = Norm v s1 /\
    renders (if truth v then ps1 else ps2) u /\ s_err s' = s_err s ++ u.
Lemma check1_err pre auto x cond b1 l1 b2 l2 dec f be (s s' : St) :
  In x locals -> mentions x cond = false -> over1 x l1 -> over1 x l2 ->
  Forall printable pre -> printables l1 -> printables l2 ->
  (forall u, oeq (eval cond u) (obind (dec u) (fun v u1 => Norm (f v) u1))) ->
  (forall v, truth (f v) = truth v) -> strip (msg_exprs pre) = strip be ->
  exec (check1 pre auto x cond b1 l1 b2 l2) s = Norm tt s' -> reported be dec (to_cerr l1) (to_cerr l2) s s'.
Proof.
  intros Hx Hm H1 H2 Hp P1 P2 Hd Ht Ebe E. rewrite check1_exact in E by assumption.
  pose proof (insert_silent Cout pre I Hp s s (seq_refl s)) as E0.
  destruct (insert Cout pre s) as [[] s0|e s0|r|] eqn:Ei; cbn [obind] in E; try discriminate.
  pose proof (insert_err Cout pre I Hp s s0 Ei) as Er0. cbn beta iota in Er0.
  rewrite (evals_msgs _ _ Ebe) in E0. destruct (evals be s) as [[] s0'| | |] eqn:Eb; cbn in E0; try contradiction.
  destruct E0 as [_ E0]. pose proof (eval_eqv call ltr _ good_eq cond s0 s0' E0) as E1. specialize (Hd s0').
  destruct (eval cond s0) as [z s1|? ?|?|] eqn:Ec; cbn [obind] in E; try discriminate.
  destruct (eval cond s0') as [z' s1'|? ?|?|]; cbn in E1; try contradiction. destruct E1 as [-> E1].
  destruct (dec s0') as [v sv|? ?|?|] eqn:Ed; cbn in Hd; try contradiction. destruct Hd as [-> Hd].
  rewrite Ht in E. apply eval_err in Ec.
  assert (B : exists u, renders (to_cerr (if truth v then l1 else l2)) u /\ s_err s' = s_err s1 ++ u).
  { destruct (truth v); eapply branch_err; eauto. }
  destruct B as (u & Hu & Ee). exists s0', v, sv, u. repeat split; auto.
  - destruct (truth v); exact Hu.
  - congruence.
Qed.
Definition word (k : check) : String.string := match k with KCheckWarn _ _ _ _ => "WARNING: " | _ => "ERROR: " end.
Lemma reported_reports l k ps1 ps2 w t0 ps (s s' : St) :
  (if expected k then ps1 else ps2) = [] ->
  (if expected k then ps2 else ps1) = [lit w] ++ p_loc l ++ PStr (chars ": " ++ t0) :: ps ++ [endl] -> word k = w ->
  reported (before k) (decides call ltr k) ps1 ps2 s s' -> reports call ltr l k s s'.
Proof.
  intros H1 H2 <- (s0 & v & s1 & u & E0 & E1 & Hu & Ee). unfold reports. exists s0, v, s1. repeat split; auto.
  assert (Hh : forall b, renders (if b : bool then ps1 else ps2) u ->
     if Bool.eqb b (expected k) then u = [] else exists t, u = heading (word k) l ++ t ++ newline).
  { intros b Hb. destruct b, (expected k); cbn [Bool.eqb]; first [rewrite H1 in Hb; now apply renders_nil in Hb | rewrite H2 in Hb; now apply renders_heading in Hb]. }
  specialize (Hh _ Hu). destruct (Bool.eqb (truth v) (expected k)).
  - rewrite Hh, app_nil_r in Ee. exact Ee.
  - destruct Hh as (t & ->). exists t. exact Ee.
Qed.

Ltac use_err h :=
  unfold_check; cbn beta iota;
  lazymatch goal with |- MacroModel.exec _ _ ?c _ = _ -> _ =>
    let d := as_check1 c in change c with d end;
  let E := fresh in intros E;
  eapply check1_err in E;
  [ | in_locals | cbn [mentions]; avoid | solve_over' | solve_over' | solve_printable | solve_printable | solve_printable | exact h
    | first [reflexivity | exact truth_bool] | reflexivity ];
  revert E.
Ltac report' k l t0 :=
  let E := fresh in intros E;
  match type of E with reported _ _ ?a ?b _ _ =>
    let ps := constr:(if expected k then b else a) in
    let ps := eval cbv [expected] in ps in
    let ps := eval cbn [to_cerr flat_map fst snd app p_error p_both p_line] in ps in
    let w := constr:(word k) in
    eapply (reported_reports l k a b w t0 (removelast (skipn 7 ps)));
    [ reflexivity | reflexivity | reflexivity | exact E ] end.
Ltac report k l := report' k l (@nil Ascii.ascii).
Theorem check_reports l k (s s' : St) :
  (forall e, In e (check_args k) -> forall x, In x locals -> mentions x e = false) ->
  exec (check_stmt l k) s = Norm tt s' -> reports call ltr l k s s'.
Proof.
  intros Hm.
  destruct k; cbn [check_args] in Hm.
  all: repeat match type of Hm with forall e0, In e0 (?a :: ?r) -> _ =>
         let H := fresh "Ha" in pose proof (Hm a (or_introl eq_refl)) as H;
         assert (Hm' : forall e0, In e0 r -> forall x, In x locals -> mentions x e0 = false) by (intros ? ?; apply Hm; right; assumption);
         clear Hm; rename Hm' into Hm end; clear Hm.
  - use_err (dec_id e). report (KAssert t e) l.
  - use_err (dec_check e x). report' (KCheckWarn t1 t2 e x) l (chars "Check `").
  - use_err (dec_check e x). report (KCheck t1 t2 e x) l.
  - use_err (dec_bool (ECall2 f e x)). report (KSame f t1 t2 e x) l.
  - use_err (dec_bool (ECall2 f e x)). report (KSameAs f t1 t2 e x) l.
  - use_err (dec_id (ECmp CEq e x)). report (KEqual t1 t2 e x) l.
  - use_err (dec_id (ECmp CEq e x)). report (KNotEqual t1 t2 e x) l.
  - use_err (dec_id (ECmp CEq e x)). report (KEquals t1 t2 e x) l.
  - cbn [check_stmt]. rewrite within_exact by assumption. intros E.
    destruct (insert Cout [PStr t1; lit " ~ "; PStr t2; lit ": "] s) as [[] s0|? ?|?|] eqn:Ei; cbn [obind] in E; try discriminate.
    pose proof (insert_err Cout [PStr t1; lit " ~ "; PStr t2; lit ": "] I ltac:(solve_printable) s s0 Ei) as Er. cbn beta iota in Er.
    assert (H0 : seq s0 s) by (cbn in Ei; injection Ei as <-; repeat split).
    change (eval (EAbs (ESub e x)) s0) with (obind (eval (ESub e x) s0) (fun z s' => Norm (Z.abs z) s')) in E.
    pose proof (eval_eqv call ltr _ good_eq (ESub e x) s0 s H0) as E1.
    destruct (eval (ESub e x) s0) as [d s1|? ?|?|] eqn:Ea; cbn [obind] in E; try discriminate.
    destruct (eval (ESub e x) s) as [d' s1'|? ?|?|] eqn:Ea'; cbn in E1; try contradiction. destruct E1 as [<- E1].
    pose proof (eval_eqv call ltr _ good_eq tol s1 s1' E1) as E2.
    destruct (eval tol s1) as [b s2|? ?|?|] eqn:Eb; cbn [obind] in E; try discriminate.
    destruct (eval tol s1') as [b' s2'|? ?|?|] eqn:Eb'; cbn in E2; try contradiction. destruct E2 as [<- E2].
    assert (R : reported (before (KWithin t1 t2 e x tol)) (decides call ltr (KWithin t1 t2 e x tol))
      (to_cerr [(Cout, [nl "true"; endl])]) (to_cerr (within_fail l t1 t2 e x (ELit (Z.abs d)) tol)) s s').
    { cbn [compare_vals] in E.
      assert (B : exists u, renders (to_cerr (if Z.abs d <=? b then [(Cout, [nl "true"; endl])] else within_fail l t1 t2 e x (ELit (Z.abs d)) tol)) u /\ s_err s' = s_err s2 ++ u).
      { destruct (Z.abs d <=? b); eapply branch_err; try exact E; [|unfold within_fail, p_error, p_loc; cbn [app]]; solve_printable. }
      destruct B as (u & Hu & Ee). exists s, (b2z (Z.abs d <=? b)), s2', u.
      cbn [before TestSpec.evals decides]. rewrite Ea'. cbn [obind]. rewrite Eb'. cbn [obind]. rewrite truth_b2z. repeat split.
      - destruct (Z.abs d <=? b); exact Hu.
      - apply eval_err in Ea, Eb. congruence. }
    revert R. unfold within_fail, p_error, p_loc. cbn [app]. report (KWithin t1 t2 e x tol) l.
  - use_err (dec_id (ECmp CLt e x)). report (KLess t1 t2 e x) l.
  - use_err (dec_bool (ECall1 p a)). report (KUnary p pt t a) l.
  - use_err (dec_bool (ECall2 p a b)). report (KBinary p pt t1 t2 a b) l.
  - use_err (dec_id (ECmp c e x)). report (KCompare t1 t2 e c x) l.
  - cbn [check_stmt]. rewrite result_compare_exact by assumption. intros E.
    destruct (eval e s) as [a s0|? ?|?|] eqn:Ea; cbn [obind] in E; try discriminate.
    destruct (insert Cout [PStr t1; lit ": "; PExp (ELit a)] s0) as [[] s1|? ?|?|] eqn:Ei; cbn [obind] in E; try discriminate.
    pose proof (insert_err Cout [PStr t1; lit ": "; PExp (ELit a)] I ltac:(solve_printable) s0 s1 Ei) as Er. cbn beta iota in Er.
    assert (H0 : seq s1 s0) by (cbn in Ei; injection Ei as <-; repeat split).
    pose proof (eval_eqv call ltr _ good_eq x s1 s0 H0) as E1.
    destruct (eval x s1) as [b s2|? ?|?|] eqn:Eb; cbn [obind] in E; try discriminate.
    destruct (eval x s0) as [b' s2'|? ?|?|] eqn:Eb'; cbn in E1; try contradiction. destruct E1 as [<- E1].
    assert (R : reported (before (KResultCompare t1 t2 e c x)) (decides call ltr (KResultCompare t1 t2 e c x))
      (to_cerr (rc_pass c x)) (to_cerr (rc_fail l t1 t2 c (ELit a) x)) s s').
    { assert (B : exists u, renders (to_cerr (if compare_vals c a b then rc_pass c x else rc_fail l t1 t2 c (ELit a) x)) u /\ s_err s' = s_err s2 ++ u).
      { destruct (compare_vals c a b); eapply branch_err; try exact E; [|unfold rc_fail, p_error, p_loc; cbn [app]]; solve_printable. }
      destruct B as (u & Hu & Ee). exists s, (b2z (compare_vals c a b)), s2', u.
      cbn [before TestSpec.evals decides]. rewrite Ea. cbn [obind]. rewrite Eb'. cbn [obind]. rewrite truth_b2z. repeat split.
      - destruct (compare_vals c a b); exact Hu.
      - apply eval_err in Ea, Eb. congruence. }
    revert R. unfold rc_fail, p_error, p_loc. cbn [app]. report (KResultCompare t1 t2 e c x) l.
  - use_err (dec_id (ELit (b2z b))). report (KStatic cls head failed b) l.
Qed.
End E.
