(** TestConstruct.v -- the construction macros and the static checks of test.hpp. *)
From Verif Require Import Base StreamModel MacroModel MacroSpec MacroProofs TestModel TestSpec TestProofs TestEval.
From Coq Require Import String.
Open Scope list_scope.
Open Scope Z_scope.

Section C.
Context {W : Type} (call : nat -> list Z -> W -> callres W) (ltr : bool).
Notation St := (st W).
Notation eval := (eval call ltr).
Notation exec := (exec call ltr).
Notation insert := (insert call ltr).
Notation oeq := (oeqv (@eq (list frame))).
Notation seq := (eqv_by (@eq (list frame))).

(** parts that print the same in every state with the innermost scope [f] *)
Definition fixed (f : frame) (p : part) : Prop :=
  match p with
  | PStr _ | PExp (ELit _) => True
  | PWhat x => exists c t, find_in x f = Some (CExn (XStd c t))
  | _ => False
  end.
Lemma seq_sym (s s' : St) : seq s s' -> seq s' s.
Proof. intros (A & B & C). repeat split; congruence. Qed.
Lemma seq_trans (s1 s2 s3 : St) : seq s1 s2 -> seq s2 s3 -> seq s1 s3.
Proof. intros (A & B & C) (A' & B' & C'). repeat split; congruence. Qed.
Lemma insert_fixed k f ps : is_std_sink k -> Forall (fixed f) ps ->
  forall s : St, exists s', insert k ps (push f s) = Norm tt (push f s') /\ seq s' s.
Proof.
  intros Hk H. induction H as [|p ps Hp _ IH]; intros s; [exists s; split; [reflexivity|repeat split]|].
  assert (Hput : forall t, exists s', obind (put k t (push f s)) (fun _ s2 => insert k ps s2) = Norm tt (push f s') /\ seq s' s).
  { intros t. rewrite put_push by exact Hk. destruct (put_silent k t s Hk) as (u & -> & Hu). cbn [omap obind].
    destruct (IH u) as (s' & -> & Hs). exists s'. split; [reflexivity|]. eapply seq_trans; eauto. }
  destruct p as [t|e|x]; cbn in Hp.
  - apply Hput.
  - destruct e; try contradiction. cbn [MacroModel.insert MacroModel.eval obind]. apply Hput.
  - destruct Hp as (c & t & Hx). cbn [MacroModel.insert]. unfold what_of. cbn [push with_frames s_frames lookup].
    rewrite Hx. cbn [obind]. apply Hput.
Qed.
Lemma inserts_fixed f l : Forall (fun q => is_std_sink (fst q) /\ Forall (fixed f) (snd q)) l ->
  forall s : St, exists s', exec (seqs (inserts l)) (push f s) = Norm tt (push f s') /\ seq s' s.
Proof.
  intros H. induction H as [|[k ps] l [Hk Hp] _ IH]; intros s; [exists s; split; [reflexivity|repeat split]|].
  unfold inserts. cbn [map]. rewrite exec_seqs_cons. cbn [MacroModel.exec fst snd] in *.
  destruct (insert_fixed k f ps Hk Hp s) as (s1 & -> & H1). cbn [obind]. destruct (IH s1) as (s2 & E & H2).
  exists s2. split; [exact E|]. eapply seq_trans; eauto.
Qed.
Definition failures : expr := EIncr "HELPER_TEST_FAILURES".
Lemma branch_fixed f l : Forall (fun q => is_std_sink (fst q) /\ Forall (fixed f) (snd q)) l ->
  find_in "HELPER_TEST_FAILURES" f = None ->
  forall s : St, oeq (leave (exec (branch true l) (push f s))) (obind (eval failures s) (fun _ s2 => Norm tt s2)).
Proof.
  intros H Hf s. unfold branch. cbn [app]. rewrite exec_seqs_cons. cbn [MacroModel.exec count_failure]. fold failures.
  rewrite (eval_push call ltr f failures s) by (intros x Hx; cbn in Hx; apply String.eqb_eq in Hx as ->; exact Hf).
  destruct (eval failures s) as [z s1|x s1|r|]; cbn [omap obind leave]; try reflexivity.
  - destruct (inserts_fixed f l H s1) as (s2 & -> & H2). cbn [leave]. rewrite pop_push. split; [reflexivity|exact H2].
  - rewrite pop_push. split; [reflexivity|repeat split].
Qed.

(** [try { body } HELPER_TEST_CATCH(msg)] counts one failure if the body is left by an exception *)
Definition caught (m : outc St unit) : outc St unit :=
  match m with Thrown _ s => obind (eval failures s) (fun _ s2 => Norm tt s2) | m => m end.
Lemma try_catch_exact body l msg (s : St) :
  Forall (fun p => match p with PStr _ => True | _ => False end) msg ->
  oeq (exec (try_catch body l msg) s) (caught (leave (exec body (push [] s)))).
Proof.
  intros Hm. unfold try_catch. cbn [MacroModel.exec].
  assert (Hf : forall f, Forall (fixed f) msg) by (intros f; eapply Forall_impl; [|exact Hm]; intros []; cbn; auto; contradiction).
  destruct (leave (exec body (push [] s))) as [[] s1|x s1|r|]; cbn [caught].
  - apply oeq_refl.
  - destruct (is_std x) eqn:Ex.
    + destruct x as [c t|]; [|discriminate]. cbn [bound].
      change (oeq (leave (exec (branch true
        [(Cout, [lit "exception: """; PWhat "except"; nl """"; endl]);
         (Cerr, (p_error l ++ msg ++ [lit " throwed """; PWhat "except"; lit """."; endl])%list)])
         (push [("except"%string, CExn (XStd c t))] s1))) (obind (eval failures s1) (fun _ s2 => Norm tt s2))).
      apply branch_fixed; [|reflexivity].
      assert (He : exists c0 t0, find_in "except" [("except"%string, CExn (XStd c t))] = Some (CExn (XStd c0 t0))) by (eexists _, _; reflexivity).
      repeat apply Forall_cons; try apply Forall_nil; (split; [exact I|]); cbn [snd].
      * repeat apply Forall_cons; try apply Forall_nil; first [exact I|exact He].
      * unfold p_error, p_loc. cbn [app]. repeat (apply Forall_cons; [exact I|]). apply Forall_app. split; [apply Hf|].
        repeat apply Forall_cons; try apply Forall_nil; first [exact I|exact He].
    + cbn [any bound].
      change (oeq (leave (exec (branch true
        [(Cout, [nl "unknown exception"; endl]);
         (Cerr, (p_error l ++ msg ++ [lit " throwed an unknown exception."; endl])%list)])
         (push [] s1))) (obind (eval failures s1) (fun _ s2 => Norm tt s2))).
      apply branch_fixed; [|reflexivity].
      repeat apply Forall_cons; try apply Forall_nil; (split; [exact I|]); cbn [snd].
      * repeat apply Forall_cons; try apply Forall_nil; exact I.
      * unfold p_error, p_loc. cbn [app]. repeat (apply Forall_cons; [exact I|]). apply Forall_app. split; [apply Hf|].
        repeat apply Forall_cons; try apply Forall_nil; exact I.
  - reflexivity.
  - exact I.
Qed.

(** the declaration of [x] followed by its printing, in a scope of its own *)
Lemma trial_body x c (s : St) : mentions x c = false ->
  oeq (leave (exec (SSeq (SDecl false x c) (cout [lit x; lit "=="; PExp (EVar x); nl ""; endl])) (push [] s)))
      (obind (eval c s) (fun _ s1 => Norm tt s1)).
Proof.
  intros Hx.
  change (oeq (leave (obind (exec (SDecl false x c) (push [] s)) (fun _ s' => insert Cout [lit x; lit "=="; PExp (EVar x); nl ""; endl] s')))
      (obind (eval c s) (fun _ s1 => Norm tt s1))).
  rewrite (decl_close call ltr false x c [] (eval c) _ (fun z s1 => insert Cout [lit x; lit "=="; PExp (ELit z); nl ""; endl] s1) s).
  - apply obind_eqv; [apply eval_eqv; [exact good_eq|repeat split]|]. intros z u u' Hu.
    eapply (oeq_trans _ (Norm tt u)); [|split; [reflexivity|exact Hu]].
    apply (insert_silent call ltr Cout [lit x; lit "=="; PExp (ELit z); nl ""; endl] I); [|repeat split].
    repeat apply Forall_cons; try apply Forall_nil; exact I.
  - reflexivity.
  - intros i. apply eval_push. intros y Hy. cbn. destruct (String.eqb y x) eqn:E; [|reflexivity]. apply String.eqb_eq in E as ->. congruence.
  - intros z s1. rewrite (insert_close call ltr Cout [(x, CVal z)] _ [lit x; lit "=="; PExp (ELit z); nl ""; endl] I).
    + apply leave_push.
    + repeat apply Forall2_cons; try apply Forall2_nil; try (left; split; [reflexivity|]; intros y Hy; discriminate).
      right. exists x, z. cbn. rewrite String.eqb_refl. auto.
Qed.
Lemma caught_eqv (m m' : outc St unit) : oeq m m' -> oeq (caught m) (caught m').
Proof.
  destruct m as [[] s|x s|r|], m' as [[] s'|x' s'|r'|]; cbn [oeqv caught]; try contradiction; auto.
  intros [-> H]. apply obind_eqv; [apply eval_eqv; [exact good_eq|exact H]|]. intros. split; auto.
Qed.
Lemma block_pre ps c (s : St) (m : St -> outc St unit) :
  Forall (fun p => match p with PStr _ => True | _ => False end) ps ->
  (forall u, oeq (exec c u) (m u)) -> (forall u u', seq u u' -> oeq (m u) (m u')) ->
  (forall u, oeq (leave (m (push [] u))) (m u)) ->
  oeq (exec (brace [cout ps; c]) s) (m s).
Proof.
  intros Hp Hc Hm Hl. unfold brace. cbn [seqs].
  change (oeq (leave (obind (insert Cout ps (push [] s)) (fun _ s' => exec c s'))) (m s)).
  destruct (insert_fixed Cout [] ps I) with (s := s) as (s' & -> & Hs).
  { eapply Forall_impl; [|exact Hp]. intros []; cbn; auto; contradiction. }
  cbn [obind].
  assert (Hlv : forall (a b : outc St unit), oeq a b -> oeq (leave a) (leave b)).
  { intros [[] a|x a|r|] [[] b|y b|r'|]; cbn; try contradiction; auto; intros [E (A & B & C)]; (split; [exact E|]);
      unfold pop, with_frames; repeat split; cbn; congruence. }
  eapply oeq_trans; [apply Hlv, Hc|]. eapply oeq_trans; [apply Hl|]. apply Hm. exact Hs.
Qed.

(** the trial construction *)
Definition trial (c : expr) (s : St) : outc St unit := caught (obind (eval c s) (fun _ s1 => Norm tt s1)).
Lemma trial_eqv c (u u' : St) : seq u u' -> oeq (trial c u) (trial c u').
Proof.
  intros H. apply caught_eqv. apply obind_eqv; [apply eval_eqv; [exact good_eq|exact H]|]. intros; split; auto.
Qed.
Lemma eval_push_nil e (s : St) : eval e (push [] s) = omap (push []) (eval e s).
Proof. apply eval_push. intros x _. reflexivity. Qed.
Lemma trial_push c (u : St) : leave (trial c (push [] u)) = trial c u.
Proof.
  unfold trial. rewrite eval_push_nil. destruct (eval c u) as [z s1|x s1|r|]; cbn [omap obind caught leave]; try reflexivity.
  - now rewrite pop_push.
  - rewrite eval_push_nil. destruct (eval failures s1); cbn [omap obind leave]; try rewrite pop_push; reflexivity.
Qed.
Lemma trial_exact ps x c l msg (s : St) : mentions x c = false ->
  Forall (fun p => match p with PStr _ => True | _ => False end) ps ->
  Forall (fun p => match p with PStr _ => True | _ => False end) msg ->
  oeq (exec (brace [cout ps; try_catch (SSeq (SDecl false x c) (cout [lit x; lit "=="; PExp (EVar x); nl ""; endl])) l msg]) s) (trial c s).
Proof.
  intros Hx Hp Hm. apply (block_pre ps _ s (trial c) Hp).
  - intros u. eapply oeq_trans; [apply try_catch_exact, Hm|]. apply caught_eqv. now apply trial_body.
  - apply trial_eqv.
  - intros u. rewrite trial_push. apply oeq_refl.
Qed.
Lemma decl_eqv x c (u u' : St) : seq u u' -> oeq (exec (SDecl false x c) u) (exec (SDecl false x c) u').
Proof.
  intros H. cbn [MacroModel.exec]. apply obind_eqv.
  - destruct H as (A & B & C). unfold declare. rewrite A. destruct (s_frames u') as [|f fs]; [exact I|].
    destruct (find_in x f); [exact I|]. repeat split; assumption.
  - intros [] s1 s1' H1. apply obind_eqv; [apply eval_eqv; [exact good_eq|exact H1]|].
    intros z s2 s2' (A & B & C). split; [reflexivity|]. unfold define, with_frames. repeat split; cbn; congruence.
Qed.
Lemma construct_exact ps x c l msg (s : St) : mentions x c = false ->
  Forall (fun p => match p with PStr _ => True | _ => False end) ps ->
  Forall (fun p => match p with PStr _ => True | _ => False end) msg ->
  oeq (exec (SSeq (brace [cout ps; try_catch (SSeq (SDecl false x c) (cout [lit x; lit "=="; PExp (EVar x); nl ""; endl])) l msg])
                  (SDecl false x c)) s)
      (obind (trial c s) (fun _ s1 => exec (SDecl false x c) s1)).
Proof.
  intros Hx Hp Hm.
  match goal with |- oeq (exec (SSeq ?a ?b) s) _ => change (exec (SSeq a b) s) with (obind (exec a s) (fun _ s' => exec b s')) end.
  apply obind_eqv; [now apply trial_exact|]. intros [] u u' H. now apply decl_eqv.
Qed.
(** a declared name stays declared *)
Lemma eval_keeps x e : forall (s : St) z s', eval e s = Norm z s' -> lookup x (s_frames s) <> None -> lookup x (s_frames s') <> None.
Proof.
  assert (Hr : forall y (s : St) z s', read_var y s = Norm z s' -> s' = s).
  { intros y s z s'. unfold read_var. destruct (lookup y (s_frames s)) as [[]|]; try discriminate; [congruence|].
    destruct (s_statics s site); congruence. }
  assert (Hw : forall y v (s : St) z s', write_var y v s = Norm z s' -> lookup x (s_frames s) <> None -> lookup x (s_frames s') <> None).
  { intros y v s z s' H HL.
    assert (G : lookup x (assign y (CVal v) (s_frames s)) <> None).
    { destruct (String.eqb y x) eqn:E.
      - apply String.eqb_eq in E as ->. rewrite lookup_assign by exact HL. discriminate.
      - apply String.eqb_neq in E. rewrite lookup_assign_other by exact E. exact HL. }
    unfold write_var in H. destruct (lookup y (s_frames s)) as [[]|]; try discriminate; inversion H; subst; auto. }
  assert (Hc : forall f l (s : St) z s', do_call call f l s = Norm z s' -> s_frames s' = s_frames s).
  { intros f l s z s'. unfold do_call. destruct (call f l (s_world s)); [|discriminate]. intros H; inversion H; reflexivity. }
  assert (Hb : forall (m1 m2 : St -> outc St Z) (k : Z -> Z -> St -> outc St Z),
    (forall s z s', m1 s = Norm z s' -> lookup x (s_frames s) <> None -> lookup x (s_frames s') <> None) ->
    (forall s z s', m2 s = Norm z s' -> lookup x (s_frames s) <> None -> lookup x (s_frames s') <> None) ->
    (forall a b s z s', k a b s = Norm z s' -> lookup x (s_frames s) <> None -> lookup x (s_frames s') <> None) ->
    forall s z s', both ltr m1 m2 k s = Norm z s' -> lookup x (s_frames s) <> None -> lookup x (s_frames s') <> None).
  { intros m1 m2 k H1 H2 Hk s z s'. unfold both. destruct ltr.
    - destruct (m1 s) as [a s1| | |] eqn:E1; cbn [obind]; try discriminate.
      destruct (m2 s1) as [b s2| | |] eqn:E2; cbn [obind]; try discriminate. eauto.
    - destruct (m2 s) as [a s1| | |] eqn:E1; cbn [obind]; try discriminate.
      destruct (m1 s1) as [b s2| | |] eqn:E2; cbn [obind]; try discriminate. eauto. }
  induction e; intros s z' s'; cbn [MacroModel.eval];
    try (destruct (eval e s) as [a s1| | |] eqn:E1; cbn [obind]; try discriminate;
         try (intros H; inversion H; subst; eauto; fail)).
  - intros H; inversion H; subst; auto.
  - intros H. apply Hr in H as ->. auto.
  - destruct (eval e1 s) as [a s1| | |] eqn:E1; cbn [obind]; try discriminate.
    destruct (truth a); [|intros H; inversion H; subst; eauto].
    destruct (eval e2 s1) as [b s2| | |] eqn:E2; cbn [obind]; try discriminate. intros H; inversion H; subst; eauto.
  - apply Hb; auto. intros a b u v u' H; inversion H; subst; auto.
  - apply Hb; auto. intros a b u v u' H; inversion H; subst; auto.
  - intros H HL. rewrite (Hc _ _ _ _ _ H). eauto.
  - apply Hb; auto. intros a b u v u' H HL. now rewrite (Hc _ _ _ _ _ H).
  - destruct (read_var x0 s) as [a s1| | |] eqn:E1; cbn [obind]; try discriminate. apply Hr in E1 as ->.
    destruct (a + 1 <? 2 ^ 31); [|discriminate]. apply Hw.
  - apply Hb; auto. intros a b u v u' H HL. inversion H; subst; auto.
Qed.
Lemma declared x c (s s' : St) : exec (SDecl false x c) s = Norm tt s' -> exists z, lookup x (s_frames s') = Some (CVal z).
Proof.
  cbn [MacroModel.exec]. unfold declare. destruct (s_frames s) as [|f fs] eqn:Ef; [discriminate|].
  destruct (find_in x f) eqn:Ex; [discriminate|]. cbn [obind].
  set (s1 := with_frames _ s).
  destruct (eval c s1) as [z s2|e s2|r|] eqn:Ev; cbn [obind]; try discriminate.
  intros H; inversion H; subst s'. exists z. unfold define; cbn [with_frames s_frames].
  apply lookup_assign. apply (eval_keeps x c s1 z s2 Ev). unfold s1; cbn. rewrite String.eqb_refl. discriminate.
Qed.
(** the macros without a trial: a declaration between two lines of output *)
Lemma plain_exact ps x c (s : St) :
  Forall (fun p => match p with PStr _ => True | _ => False end) ps ->
  oeq (exec (seqs [cout ps; SDecl false x c; cout [lit x; lit "=="; PExp (EVar x); nl ""; endl]]) s) (exec (SDecl false x c) s).
Proof.
  intros Hp. cbn [seqs].
  match goal with |- oeq (exec (SSeq (cout ps) (SSeq ?a (cout ?q))) s) _ =>
    change (exec (SSeq (cout ps) (SSeq a (cout q))) s)
      with (obind (insert Cout ps s) (fun _ s' => obind (exec a s') (fun _ s' => insert Cout q s'))) end.
  assert (H0 : oeq (insert Cout ps s) (Norm tt s)).
  { eapply (oeq_trans _ (evals call ltr (msg_exprs ps) s)); [apply insert_silent; [exact I| |repeat split]|].
    - eapply Forall_impl; [|exact Hp]. intros []; cbn; auto.
    - assert (E : msg_exprs ps = []) by (induction Hp as [|[] ? ? ? IH]; cbn; auto; contradiction). rewrite E. apply oeq_refl. }
  eapply (oeq_trans _ (obind (Norm tt s) (fun _ s' => obind (exec (SDecl false x c) s') (fun _ s' => Norm tt s')))).
  2:{ cbn [obind]. destruct (exec (SDecl false x c) s) as [[]| | |]; apply oeq_refl. }
  apply obind_eqv; [exact H0|]. intros [] u u' Hu.
  pose proof (decl_eqv x c u u' Hu) as E.
  destruct (exec (SDecl false x c) u) as [[] v|e v|r|] eqn:Ed, (exec (SDecl false x c) u') as [[] v'|e' v'|r'|];
    cbn [oeqv] in E; try contradiction; cbn [obind]; try exact E.
  destruct E as [_ E]. destruct (declared x c u v Ed) as (z & Hz).
  cbn [MacroModel.insert obind put]. unfold lit at 1. cbn [MacroModel.insert obind put]. unfold lit at 1. cbn [MacroModel.insert obind put].
  cbn [MacroModel.eval]. unfold read_var. cbn [add_out s_frames]. rewrite Hz. cbn [obind put]. unfold nl, endl. cbn. split; [reflexivity|]. exact E.
Qed.

(** ** The macros *)
Lemma trial_attempt c (s : St) : trial c s = attempt call ltr c s.
Proof. unfold trial, attempt. destruct (eval c s); reflexivity. Qed.
Ltac strs := repeat first [apply Forall_nil | apply Forall_cons; [exact I|]].
Lemma construction_macros l cls x txt c m (s : St) :
  In m [HELPER_TEST_DECLARE l cls x c; HELPER_TEST_NAMED_CONSTRUCT l cls x txt c; HELPER_TEST_ASSIGN_CONSTRUCT l cls x txt c] ->
  mentions x c = false ->
  agree (exec m s) (obind (attempt call ltr c s) (fun _ s1 => exec (SDecl false x c) s1)).
Proof.
  intros Hm Hx. apply oeq_agree. rewrite <- trial_attempt.
  destruct Hm as [<-|[<-|[<-|[]]]]; apply construct_exact; auto; strs.
Qed.
Lemma plain_macros cls x txt c m (s : St) :
  In m [HELPER_TEST_CONSTRUCT cls x txt c; HELPER_TEST_DEFAULT_CONSTRUCT cls x c] ->
  agree (exec m s) (exec (SDecl false x c) s).
Proof. intros [<-|[<-|[]]]; apply oeq_agree, plain_exact; strs. Qed.
Lemma construction_never_completes l cls x txt c m (s : St) :
  In m [HELPER_TEST_DECLARE l cls x c; HELPER_TEST_NAMED_CONSTRUCT l cls x txt c; HELPER_TEST_ASSIGN_CONSTRUCT l cls x txt c] ->
  mentions x c = false -> (forall s, exists e s', eval c s = Thrown e s') ->
  forall s', exec m s <> Norm tt s'.
Proof.
  intros Hm Hx Hc s' E. pose proof (construction_macros l cls x txt c m s Hm Hx) as A. rewrite E in A.
  destruct (attempt call ltr c s) as [[] s1| | |]; cbn [obind] in A; try contradiction.
  cbn [MacroModel.exec] in A. destruct (declare x CIndet s1) as [[] s2| | |]; cbn [obind] in A; try contradiction.
  destruct (Hc s2) as (e & s3 & Ev). rewrite Ev in A. exact A.
Qed.

(** ** Static checks *)
Definition text_part (p : part) : Prop := match p with PStr _ => True | _ => False end.
Definition flat (ps : list part) : text := List.concat (map (fun p => match p with PStr t => t | _ => [] end) ps).
Definition pass_msgs : list (sink * list part) := [(Cout, [nl "true"; endl])].
Definition fail_msgs (l : loc) (cls : text) (fl : list part) : list (sink * list part) :=
  [(Cout, [nl "false"; endl]);
   (Cout, (p_error l ++ [PStr cls; lit ": "] ++ fl ++ [nl ""; endl])%list);
   (Cerr, (p_error l ++ [PStr cls; lit ": "] ++ fl ++ [endl])%list)].
Lemma fail_fixed l cls fl : Forall text_part fl ->
  Forall (fun q => is_std_sink (fst q) /\ Forall (fixed []) (snd q)) (fail_msgs l cls fl).
Proof.
  intros Hf.
  assert (Hfx : forall f, Forall (fixed f) fl) by (intros f; eapply Forall_impl; [|exact Hf]; intros []; cbn; auto; contradiction).
  unfold fail_msgs, p_error, p_loc. cbn [app]. repeat apply Forall_cons; try apply Forall_nil; (split; [exact I|]); cbn [snd];
    repeat first [apply Forall_nil | apply Forall_cons; [exact I|] | apply Forall_app; split; [apply Hfx|]].
Qed.
Lemma static_run l cls head fl b (s : St) : Forall text_part fl ->
  exec (static_check l cls head fl b) s
  = obind (insert Cout [PStr head; lit ": "] s) (fun _ s1 =>
      exec (if b then branch false pass_msgs else branch true (fail_msgs l cls fl)) s1).
Proof.
  intros Hf.
  change (static_check l cls head fl b)
    with (check1 [PStr head; lit ": "] false "result" (ELit (b2z b)) false pass_msgs true (fail_msgs l cls fl)).
  rewrite check1_exact.
  - cbn [MacroModel.eval obind]. rewrite truth_b2z. reflexivity.
  - cbn; auto.
  - reflexivity.
  - unfold over1, pass_msgs. repeat constructor.
  - unfold over1. apply Forall_forall. intros q Hq. pose proof (fail_fixed l cls fl Hf) as H2.
    rewrite Forall_forall in H2. destruct (H2 q Hq) as [A B]. split; [exact A|].
    unfold msg_mentions. apply not_true_is_false. intros N. apply existsb_exists in N as (p & Hp & Hm).
    rewrite Forall_forall in B. specialize (B p Hp). destruct p as [|[]|]; cbn in B, Hm; try contradiction; try discriminate.
    destruct B as (? & ? & B); discriminate.
Qed.
Lemma static_exact l cls head fl b (s : St) : Forall text_part fl ->
  agree (exec (static_check l cls head fl b) s)
        (if b then Norm tt s else obind (eval failures s) (fun _ s' => Norm tt s')).
Proof.
  intros Hf. apply oeq_agree. rewrite static_run by exact Hf. unfold lit. cbn [MacroModel.insert obind put]. destruct b.
  - unfold branch, pass_msgs, inserts. cbn. split; [reflexivity|]. repeat split.
  - rewrite <- (leave_push [] (exec (branch true _) _)).
    rewrite <- (branch_close call ltr true [] (fail_msgs l cls fl) (fail_msgs l cls fl)).
    + eapply oeq_trans; [apply branch_fixed; [now apply fail_fixed|reflexivity]|].
      apply obind_eqv; [apply eval_eqv; [exact good_eq|repeat split]|]. intros; split; auto.
    + apply closes_msgs_nil. eapply Forall_impl; [|now apply (fail_fixed l cls fl)]. intros q [Hq _]; exact Hq.
    + reflexivity.
Qed.
(** several texts are written like one *)
Lemma insert_flat k a ps q (s : St) : is_std_sink k -> Forall text_part ps ->
  insert k (a ++ ps ++ q) s = insert k (a ++ [PStr (flat ps)] ++ q) s.
Proof.
  intros Hk Hp. revert s. induction a as [|p a IH]; intros s.
  - cbn [app]. revert s. induction Hp as [|p ps Hp _ IH]; intros s.
    + cbn [app MacroModel.insert flat map List.concat]. destruct k; try contradiction; cbn [put obind];
        unfold flat, add_out, add_err; cbn; rewrite app_nil_r; destruct s; reflexivity.
    + destruct p as [t| |]; try contradiction. cbn [app MacroModel.insert]. 
      destruct k; try contradiction; cbn [put obind]; rewrite IH; cbn [MacroModel.insert put obind]; unfold flat; cbn [map List.concat];
        unfold add_out, add_err; cbn; rewrite <- app_assoc; reflexivity.
  - destruct p as [t|e|x]; cbn [app MacroModel.insert].
    + destruct (put k t s); cbn [obind]; auto.
    + destruct (eval e s) as [z s1| | |]; cbn [obind]; auto. destruct (put k (int_text z) s1); cbn [obind]; auto.
    + destruct (what_of x s) as [z s1| | |]; cbn [obind]; auto. destruct (put k z s1); cbn [obind]; auto.
Qed.
Lemma static_flat l cls head fl b (s : St) : Forall text_part fl ->
  exec (static_check l cls head fl b) s = exec (check_stmt l (KStatic cls head (flat fl) b)) s.
Proof.
  intros Hf. cbn [check_stmt]. rewrite !static_run by (auto; repeat constructor).
  destruct (insert Cout [PStr head; lit ": "] s) as [[] s0| | |]; cbn [obind]; auto.
  destruct b; [reflexivity|].
  assert (E : forall k q (u : St), is_std_sink k ->
    insert k (p_error l ++ [PStr cls; lit ": "] ++ fl ++ q) u = insert k (p_error l ++ [PStr cls; lit ": "] ++ [PStr (flat fl)] ++ q) u).
  { intros k q u Hk. pose proof (insert_flat k (p_error l ++ [PStr cls; lit ": "]) fl q u Hk Hf) as E.
    rewrite <- !app_assoc in E. exact E. }
  assert (Hcons : forall c c' L L', (forall u, exec c u = exec c' u) -> (forall u, exec (seqs L) u = exec (seqs L') u) ->
    forall u, exec (seqs (c :: L)) u = exec (seqs (c' :: L')) u).
  { intros c c' L L' Hc HL u. rewrite !exec_seqs_cons, Hc. destruct (exec c' u); cbn [obind]; auto. }
  unfold branch, fail_msgs, inserts. cbn [map fst snd]. change ((if true then [count_failure] else [])) with [count_failure].
  repeat (apply Hcons); try reflexivity; intros u; [apply (E Cout _ u I)|apply (E Cerr _ u I)].
Qed.
Lemma static_macros l cls txt first b m (s : St) :
  In m [HELPER_TEST_STATIC_ASSERT l cls txt b; HELPER_TEST_CONCEPT l cls txt b;
        HELPER_TEST_SAME_TYPE l cls txt first b; HELPER_TEST_EQUIVALENT_TYPE l cls txt first b] ->
  agree (exec m s) (if b then Norm tt s else obind (eval failures s) (fun _ s' => Norm tt s')).
Proof. intros [<-|[<-|[<-|[<-|[]]]]]; apply static_exact; strs. Qed.
Lemma static_macros_err l cls txt first b m (s s' : St) :
  In m [HELPER_TEST_STATIC_ASSERT l cls txt b; HELPER_TEST_CONCEPT l cls txt b;
        HELPER_TEST_SAME_TYPE l cls txt first b; HELPER_TEST_EQUIVALENT_TYPE l cls txt first b] ->
  exec m s = Norm tt s' ->
  if b then s_err s' = s_err s
  else exists t, s_err s' = s_err s ++ heading "ERROR: " l ++ t ++ newline.
Proof.
  assert (G : forall head fl, Forall text_part fl -> exec (static_check l cls head fl b) s = Norm tt s' ->
    if b then s_err s' = s_err s else exists t, s_err s' = s_err s ++ heading "ERROR: " l ++ t ++ newline).
  { intros head fl Hf H. rewrite static_flat in H by exact Hf.
    pose proof (check_reports call ltr l (KStatic cls head (flat fl) b) s s' (fun e (F : In e []) => match F with end) H) as (s0 & v & s1 & A & B & C).
    cbn in A, B, C. inversion A; subst s0. inversion B; subst v s1. rewrite truth_b2z in C. destruct b; exact C. }
  intros [<-|[<-|[<-|[<-|[]]]]]; apply G; strs.
Qed.
End C.
