(** NamedProofs.v -- lemmas for NamedProps.v *)
From Verif Require Import Base StreamModel NamedModel NamedSpec.
Open Scope list_scope.

Lemma step_induction (P : step -> Prop) :
  (forall w h, P (Check w h)) -> (forall n l, Forall P l -> P (TestClass n l)) -> (forall l, Forall P l -> P (CallStd l)) ->
  (forall l, Forall P l -> P (TryAny l)) -> P ThrowStd -> P ThrowOther -> forall s, P s.
Proof.
  intros H1 H2 H3 H4 H5 H6. fix IH 1. intros [w h|n l|l|l| |].
  - apply H1.
  - apply H2. induction l; constructor; [apply IH|assumption].
  - apply H3. induction l; constructor; [apply IH|assumption].
  - apply H4. induction l; constructor; [apply IH|assumption].
  - exact H5.
  - exact H6.
Qed.

Definition right (s : step) : Prop := tidy s = true -> forall class current, (has_check s = true -> current = class) ->
  exists current', exec s current = (fst (blame class s), current', snd (blame class s)) /\ (has_class s = false -> current' = current).
Lemma right_list l : Forall right l -> tidy_list tidy l = true -> forall class current, (existsb has_check l = true -> current = class) ->
  exists current', exec_list exec l current = (fst (blame_list blame class l), current', snd (blame_list blame class l)) /\
                   (existsb has_class l = false -> current' = current).
Proof.
  induction 1 as [|s l Hs HF IH]; intros HT class current HC.
  - exists current. split; [reflexivity|auto].
  - cbn [tidy_list] in HT. apply andb_prop in HT as [HT Hn]. apply andb_prop in HT as [HT1 HT2]. cbn [existsb] in HC.
    destruct (Hs HT1 class current) as (c1 & E1 & K1). { intros E. apply HC. now rewrite E. }
    cbn [exec_list blame_list]. rewrite E1. destruct (blame class s) as [[] out]; cbn [fst snd].
    + destruct (IH HT2 class c1) as (c2 & E2 & K2).
      { intros E. destruct (has_class s) eqn:Ec. { rewrite E in Hn. discriminate Hn. } rewrite K1 by reflexivity. apply HC. rewrite E. apply orb_true_r. }
      rewrite E2. destruct (blame_list blame class l) as [e out']. exists c2. split; [reflexivity|]. cbn [existsb]. intros E.
      apply orb_false_iff in E as [Ea Eb]. rewrite (K2 Eb). auto.
    + exists c1. split; [reflexivity|]. cbn [existsb]. intros E. apply orb_false_iff in E as [Ea Eb]. auto.
    + exists c1. split; [reflexivity|]. cbn [existsb]. intros E. apply orb_false_iff in E as [Ea Eb]. auto.
Qed.
Lemma right_all s : right s.
Proof.
  induction s as [w h|n l IH|l IH|l IH| |] using step_induction; intros HT class current HC.
  - cbn in HC. rewrite (HC eq_refl). exists class. split; [destruct h; reflexivity|auto].
  - cbn [tidy] in HT. destruct (right_list l IH HT n n (fun _ => eq_refl)) as (c & E & _). exists c. cbn [exec blame]. split; [exact E|discriminate].
  - cbn [tidy has_check has_class] in *. destruct (right_list l IH HT class current HC) as (c & E & K). exists c. cbn [exec blame]. rewrite E.
    split; [|exact K]. destruct (blame_list blame class l) as [[] out]; reflexivity.
  - cbn [tidy has_check has_class] in *. destruct (right_list l IH HT class current HC) as (c & E & K). exists c. cbn [exec blame]. rewrite E.
    split; [|exact K]. reflexivity.
  - exists current. split; [reflexivity|auto].
  - exists current. split; [reflexivity|auto].
Qed.
Lemma tidy_right p : tidy_list tidy p = true -> run p = blames p.
Proof.
  intros H. unfold run, blames. destruct (right_list p (proj2 (Forall_forall right p) (fun s _ => right_all s)) H no_class no_class (fun _ => eq_refl)) as (c & E & _).
  now rewrite E.
Qed.

(** ** where the name stays *)
Definition quiet (s : step) : Prop := throws s = false -> forall class current,
  (exists out, exec s current = (Done, last_class current s, out)) /\ exists out, blame class s = (Done, out).
Lemma quiet_list l : Forall quiet l -> existsb throws l = false -> forall class current,
  (exists out, exec_list exec l current = (Done, fold_left last_class l current, out)) /\ exists out, blame_list blame class l = (Done, out).
Proof.
  induction 1 as [|s l Hs HF IH]; intros HT class current.
  - split; eexists; reflexivity.
  - cbn [existsb] in HT. apply orb_false_iff in HT as [H1 H2]. destruct (Hs H1 class current) as [[o1 E1] [o2 E2]].
    destruct (IH H2 class (last_class current s)) as [[o3 E3] [o4 E4]]. cbn [exec_list blame_list fold_left]. rewrite E1, E2, E3, E4.
    split; eexists; reflexivity.
Qed.
Lemma quiet_all s : quiet s.
Proof.
  induction s as [w h|n l IH|l IH|l IH| |] using step_induction; intros HT class current; try discriminate HT; cbn [throws] in HT.
  - split; eexists; reflexivity.
  - destruct (quiet_list l IH HT n n) as [[o1 E1] [o2 E2]]. cbn [exec blame last_class]. split; eexists; eassumption.
  - destruct (quiet_list l IH HT class current) as [[o1 E1] [o2 E2]]. cbn [exec blame last_class]. rewrite E1, E2. split; eexists; reflexivity.
  - destruct (quiet_list l IH HT class current) as [[o1 E1] [o2 E2]]. cbn [exec blame last_class]. rewrite E1, E2. split; eexists; reflexivity.
Qed.
Lemma all_quiet l : Forall quiet l.
Proof. apply Forall_forall. intros s _. apply quiet_all. Qed.
Lemma exec_app l l' c c1 out : exec_list exec l c = (Done, c1, out) ->
  exec_list exec (l ++ l') c = match exec_list exec l' c1 with (e, c2, out') => (e, c2, out ++ out') end.
Proof.
  revert c out. induction l as [|s l IH]; intros c out H; cbn [exec_list app] in *.
  - inversion H; subst. destruct (exec_list exec l' c1) as [[e c2] o]. reflexivity.
  - destruct (exec s c) as [[[] c'] o] eqn:E; try discriminate H. destruct (exec_list exec l c') as [[e c2] o'] eqn:El. inversion H; subst.
    rewrite (IH c' o' El). destruct (exec_list exec l' c1) as [[e c2] o2]. now rewrite app_assoc.
Qed.
Lemma blame_app l l' c out : blame_list blame c l = (Done, out) ->
  blame_list blame c (l ++ l') = match blame_list blame c l' with (e, out') => (e, out ++ out') end.
Proof.
  revert out. induction l as [|s l IH]; intros out H; cbn [blame_list app] in *.
  - inversion H; subst. destruct (blame_list blame c l') as [e o]. reflexivity.
  - destruct (blame c s) as [[] o] eqn:E; try discriminate H. destruct (blame_list blame c l) as [e o'] eqn:El. inversion H; subst.
    rewrite (IH o' eq_refl). destruct (blame_list blame c l') as [e o2]. now rewrite app_assoc.
Qed.
Lemma named_wrongly before outer pre what : existsb throws before = false -> existsb throws pre = false ->
  (exists m, run (before ++ [TestClass outer (pre ++ [Check what false])]) = m ++ [(fold_left last_class pre outer, what)]) /\
  (exists m, blames (before ++ [TestClass outer (pre ++ [Check what false])]) = m ++ [(outer, what)]).
Proof.
  intros Hb Hp. destruct (quiet_list before (all_quiet before) Hb no_class no_class) as [[o1 E1] [o2 E2]].
  destruct (quiet_list pre (all_quiet pre) Hp outer outer) as [[o3 E3] [o4 E4]]. split.
  - unfold run. rewrite (exec_app _ _ _ _ _ E1). cbn [exec_list exec]. rewrite (exec_app _ _ _ _ _ E3). cbn. eexists. rewrite app_nil_r, app_assoc. reflexivity.
  - unfold blames. rewrite (blame_app _ _ _ _ E2). cbn [blame_list blame]. rewrite (blame_app _ _ _ _ E4). cbn. eexists. rewrite app_nil_r, app_assoc. reflexivity.
Qed.
Lemma named_after pre what : existsb throws pre = false ->
  (exists m, run (pre ++ [Check what false]) = m ++ [(fold_left last_class pre no_class, what)]) /\
  (exists m, blames (pre ++ [Check what false]) = m ++ [(no_class, what)]).
Proof.
  intros Hp. destruct (quiet_list pre (all_quiet pre) Hp no_class no_class) as [[o3 E3] [o4 E4]]. split.
  - unfold run. rewrite (exec_app _ _ _ _ _ E3). cbn. eexists. reflexivity.
  - unfold blames. rewrite (blame_app _ _ _ _ E4). cbn. eexists. reflexivity.
Qed.
Lemma named_thrown outer inner what :
  run [TestClass outer [CallStd [TestClass inner [ThrowStd]]; Check what false]] = [(inner, what)] /\
  blames [TestClass outer [CallStd [TestClass inner [ThrowStd]]; Check what false]] = [(outer, what)].
Proof. split; reflexivity. Qed.
