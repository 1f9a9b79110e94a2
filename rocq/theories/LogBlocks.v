(** LogBlocks.v -- the log of a check for any values; the logs of the other macros of test.hpp. *)
From Verif Require Import Base StreamModel MacroModel MacroSpec MacroProofs TestModel TestSpec TestProofs TestEval LogSpec LogProofs.
From Coq Require Import String.
Open Scope list_scope.
Open Scope Z_scope.

Section B.
Context {W : Type} (call : nat -> list Z -> W -> callres W) (ltr : bool).
Notation St := (st W).
Notation eval := (eval call ltr).
Notation exec := (exec call ltr).
Notation insert := (insert call ltr).
Notation logs := (logs call ltr).

(** [v], corrected on literals *)
Definition lits (v : expr -> Z) (e : expr) : Z := match e with ELit z => z | _ => v e end.
Lemma steady_lits v s e : steady call ltr s e (v e) -> lits v e = v e.
Proof. destruct e; try reflexivity. intros H. specialize (H s eq_refl eq_refl (fun _ _ => eq_refl)). cbn in *. congruence. Qed.
Lemma check_log_any v l k s n :
  (forall e, In e (check_args k) -> own e) -> (forall e, In e (judged k) -> steady call ltr s e (v e)) ->
  counter "HELPER_TEST_FAILURES" s n -> n + 1 < 2 ^ 31 ->
  exec (check_stmt l k) s =
  Norm tt (after s (negb (passed v k || warns k)) (n + 1)
    (announces v k ++ (if passed v k then confirms v k else complains v l k)) (if passed v k then [] else report_of v l k)).
Proof.
  intros Hc Hj Hn Hb.
  assert (E : forall e, In e (judged k) -> lits v e = v e) by (intros e He; apply (steady_lits v s); auto).
  rewrite (check_log call ltr (lits v) (fun z => eq_refl) l k s n Hc); auto.
  2: { intros e He. rewrite (E e He). auto. }
  clear Hc Hj. destruct k; unfold judged in E; cbn [check_args app In] in E;
    unfold passed, announces, confirms, complains, report_of; rewrite ?E by tauto; reflexivity.
Qed.

(** ** Messages *)
Lemma sayable_pok v s c : sayable call ltr v s c -> Forall (pok call ltr v s) c.
Proof. intros H. apply Forall_forall. intros p Hp. exact (H p Hp). Qed.
Lemma text_pok v s t : pok call ltr v s (PStr t).
Proof. exact I. Qed.
Lemma near_refl (s : St) : near s s.
Proof. repeat split; auto. Qed.
Lemma near_push (s s1 : St) : near s s1 -> near s (push [] s1).
Proof. intros (A & B & C). repeat split; auto. Qed.
Lemma pop_on k t (s : St) : pop (on k t (push [] s)) = on k t s.
Proof. destruct k, s; reflexivity. Qed.
Lemma said_app v a b : msg_text v (a ++ b) = msg_text v a ++ msg_text v b.
Proof. unfold msg_text. now rewrite map_app, concat_app. Qed.
Lemma said_text v c : msg_text v c = said v c.
Proof. reflexivity. Qed.
Ltac msg := first [apply Forall_app; split; msg | apply Forall_cons; [apply text_pok|msg] | apply Forall_nil | apply sayable_pok; eassumption].
Ltac plain := repeat rewrite said_app; unfold framed, line, lit, nl, nl2, endl, stars, newline;
  unfold msg_text; cbn [map List.concat ptext]; change (chars "") with (@nil Ascii.ascii);
  repeat rewrite <- app_assoc; repeat rewrite app_nil_l; repeat rewrite app_nil_r; repeat first [rewrite <- app_comm_cons | rewrite app_nil_l]; reflexivity.

Lemma print1 v (s : St) c : Forall (pok call ltr v s) c -> exec (brace [cout c]) s = Norm tt (on Cout (msg_text v c) s).
Proof.
  intros H. unfold brace, cout. cbn [seqs MacroModel.exec].
  rewrite (insert_text call ltr v Cout s c I H _ (near_push _ _ (near_refl s))). cbn [leave]. now rewrite pop_on.
Qed.
Lemma print2 v (s : St) k1 k2 c d : is_std_sink k1 -> is_std_sink k2 -> Forall (pok call ltr v s) c -> Forall (pok call ltr v s) d ->
  exec (brace [SInsert k1 c; SInsert k2 d]) s = Norm tt (on k2 (msg_text v d) (on k1 (msg_text v c) s)).
Proof.
  intros K1 K2 H H'. unfold brace. cbn [seqs MacroModel.exec].
  rewrite (insert_text call ltr v k1 s c K1 H _ (near_push _ _ (near_refl s))). cbn [obind].
  rewrite (insert_text call ltr v k2 s d K2 H' _ (near_on _ _ _ _ (near_push _ _ (near_refl s)))). cbn [leave].
  f_equal. destruct k1, k2, s; reflexivity.
Qed.
Lemma comment_log v c s : sayable call ltr v s c ->
  exec (HELPER_PRINT_TEST_COMMENT c) s = Norm tt (after s false 0 (line (chars "* COMMENT: " ++ said v c)) []).
Proof.
  intros H. unfold HELPER_PRINT_TEST_COMMENT. rewrite (print1 v) by msg. unfold after, on, add_out. rewrite app_nil_r. do 2 f_equal.
  f_equal. plain.
Qed.
Lemma warn_log v c s : sayable call ltr v s c ->
  exec (HELPER_TEST_WARN c) s = Norm tt (after s false 0 (line (chars "WARNING: " ++ said v c)) (line (chars "WARNING: " ++ said v c))).
Proof.
  intros H. unfold HELPER_TEST_WARN, cout, cerr. rewrite (print2 v) by first [exact I|msg]. unfold after, on, add_out, add_err. cbn [s_frames s_statics s_out s_err s_world].
  do 2 f_equal; f_equal; plain.
Qed.
Lemma notify_log v c s : sayable call ltr v s c ->
  exec (HELPER_TEST_NOTIFY c) s = Norm tt (after s false 0 (line (chars "NOTIFICATION: " ++ said v c)) (line (chars "NOTIFICATION: " ++ said v c))).
Proof.
  intros H. unfold HELPER_TEST_NOTIFY, cout, cerr. rewrite (print2 v) by first [exact I|msg]. unfold after, on, add_out, add_err. cbn [s_frames s_statics s_out s_err s_world].
  do 2 f_equal; f_equal; plain.
Qed.
Lemma print_log v txt e s : own e -> steady call ltr s e (v e) ->
  exec (HELPER_TEST_PRINT txt e) s = Norm tt (after s false 0 (line (line (txt ++ chars " = " ++ int_text (v e)))) []).
Proof.
  intros Ho H. unfold HELPER_TEST_PRINT, cout, cerr. rewrite (print2 v); [|exact I|exact I|msg|].
  - unfold after, on, add_out. rewrite app_nil_r. cbn [s_frames s_statics s_out s_err s_world]. do 2 f_equal.
    plain.
  - repeat constructor; auto.
Qed.
Lemma title_log v c s n : sayable call ltr v s c -> counter "test_case_counter" s n -> n + 1 < 2 ^ 31 ->
  exec (HELPER_PRINT_TEST_CASE_TITLE c) s =
  Norm tt (mkSt (assign "test_case_counter" (CVal (n + 1)) (s_frames s)) (s_statics s)
                (s_out s ++ line (line (chars "*** " ++ int_text (n + 1) ++ chars ": " ++ said v c ++ chars " ***"))) (s_err s) (s_world s)).
Proof.
  intros H Hn Hb. unfold HELPER_PRINT_TEST_CASE_TITLE, brace, cout. cbn [seqs MacroModel.exec app].
  cbn [MacroModel.insert lit put obind MacroModel.eval]. unfold read_var. cbn [add_out push with_frames s_frames lookup find_in].
  unfold counter in Hn. rewrite Hn. cbn [obind].
  replace (n + 1 <? 2 ^ 31) with true by (symmetry; now apply Z.ltb_lt).
  unfold write_var. cbn [add_out push with_frames s_frames lookup find_in]. rewrite Hn. cbn [obind with_frames assign find_in s_frames].
  change (fix insert (k : sink) (ps : list part) (s : St) {struct ps} : outc St unit := _) with insert.
  rewrite (insert_text call ltr v Cout s _ I).
  - cbn [leave on]. unfold add_out, pop, with_frames. cbn [s_frames s_statics s_out s_err s_world tl]. do 2 f_equal. plain.
  - msg.
  - repeat split; auto. intros x Hx. cbn. rewrite lookup_assign_other; [reflexivity|]. intros <-. apply Hx. cbn. tauto.
Qed.

(** ** Blocks around a body *)
(** texts that depend on the caught exception [w] only *)
Definition wtext (w : text) (p : part) : text :=
  match p with PStr t => t | PExp (ELit z) => int_text z | PExp _ => [] | PWhat _ => w end.
Definition wmsg (w : text) (ps : list part) : text := List.concat (map (wtext w) ps).
Definition wok (f : frame) (w : text) (p : part) : Prop :=
  match p with PStr _ => True | PExp (ELit _) => True | PExp _ => False | PWhat x => exists c, find_in x f = Some (CExn (XStd c w)) end.
Lemma insert_what k f w ps : is_std_sink k -> Forall (wok f w) ps ->
  forall s : St, insert k ps (push f s) = Norm tt (on k (wmsg w ps) (push f s)).
Proof.
  intros Hk H. induction H as [|p ps Hp _ IH]; intros s.
  - cbn. destruct s, k; cbn; unfold add_out, add_err, push, with_frames; cbn; now rewrite app_nil_r.
  - assert (E : forall t, on k t (push f s) = push f (on k t s)) by (intros; destruct k; reflexivity).
    destruct p as [t|e|x]; cbn [wok] in Hp; cbn [MacroModel.insert].
    + rewrite put_on by exact Hk. cbn [obind]. rewrite E, IH, <- E, on_app. reflexivity.
    + destruct e; try contradiction. cbn [MacroModel.eval obind]. rewrite put_on by exact Hk. cbn [obind]. rewrite E, IH, <- E, on_app. reflexivity.
    + destruct Hp as [c Hx]. unfold what_of. cbn [push with_frames s_frames lookup]. rewrite Hx. cbn [obind].
      rewrite put_on by exact Hk. cbn [obind]. rewrite E, IH, <- E, on_app. reflexivity.
Qed.
Definition wout (w : text) (l : list (sink * list part)) : text := List.concat (map (fun q => match fst q with Cout => wmsg w (snd q) | _ => [] end) l).
Definition werr (w : text) (l : list (sink * list part)) : text := List.concat (map (fun q => match fst q with Cout => [] | _ => wmsg w (snd q) end) l).
Definition with_texts (o e : text) (s : St) : St := mkSt (s_frames s) (s_statics s) (s_out s ++ o) (s_err s ++ e) (s_world s).
Lemma inserts_what f w l : Forall (fun q => is_std_sink (fst q) /\ Forall (wok f w) (snd q)) l ->
  forall s : St, exec (seqs (inserts l)) (push f s) = Norm tt (push f (with_texts (wout w l) (werr w l) s)).
Proof.
  intros H. induction H as [|[k ps] l [Hk Hp] _ IH]; intros s.
  - cbn. unfold with_texts, push, with_frames. destruct s; cbn. now rewrite !app_nil_r.
  - unfold inserts. cbn [map fst snd]. rewrite exec_seqs_cons. cbn [MacroModel.exec]. cbn [fst snd] in Hk, Hp.
    rewrite (insert_what k f w ps Hk Hp s). cbn [obind]. fold (inserts l).
    replace (on k (wmsg w ps) (push f s)) with (push f (on k (wmsg w ps) s)) by (destruct k; reflexivity). rewrite IH.
    f_equal. destruct k; cbn in Hk; try contradiction; unfold with_texts, push, with_frames, wout, werr; cbn; unfold add_out, add_err; cbn; now rewrite <- ?app_assoc.
Qed.
Lemma count_at c (s : St) n : counter c s n -> n + 1 < 2 ^ 31 ->
  eval (EIncr c) s = Norm (n + 1) (with_frames (assign c (CVal (n + 1)) (s_frames s)) s).
Proof.
  intros Hn Hb. cbn [MacroModel.eval]. unfold read_var, write_var, counter in *. rewrite Hn. cbn [obind].
  replace (n + 1 <? 2 ^ 31) with true by (symmetry; now apply Z.ltb_lt). now rewrite Hn.
Qed.
(** a handler that counts a failure and writes messages, left *)
Lemma handler_log f w l : Forall (fun q => is_std_sink (fst q) /\ Forall (wok f w) (snd q)) l -> find_in "HELPER_TEST_FAILURES" f = None ->
  forall (s : St) n, counter "HELPER_TEST_FAILURES" s n -> n + 1 < 2 ^ 31 ->
  exec (branch true l) (push f s) = Norm tt (push f (after s true (n + 1) (wout w l) (werr w l))).
Proof.
  intros H Hf s n Hn Hb. unfold branch. cbn [app]. rewrite exec_seqs_cons. cbn [MacroModel.exec count_failure].
  rewrite (count_at _ _ n) by (unfold counter in *; cbn [push with_frames s_frames lookup]; rewrite ?Hf; assumption). cbn [obind].
  cbn [push with_frames s_frames assign]. rewrite Hf.
  exact (inserts_what f w l H (with_frames (assign "HELPER_TEST_FAILURES" (CVal (n + 1)) (s_frames s)) s)).
Qed.
Lemma pre_text ps (s : St) : Forall (fun p => match p with PStr _ => True | _ => False end) ps ->
  exec (cout ps) (push [] s) = Norm tt (push [] (add_out (wmsg [] ps) s)).
Proof.
  intros H. unfold cout. cbn [MacroModel.exec].
  apply (insert_what Cout [] []); [exact I|]. eapply Forall_impl; [|exact H]. intros [] K; cbn in *; auto; contradiction.
Qed.
(** a block: a text, then [c] *)
Lemma block_log ps t c (s : St) : Forall (fun p => match p with PStr _ => True | _ => False end) ps -> wmsg [] ps = t ->
  exec (brace [cout ps; c]) s = leave (exec c (push [] (add_out t s))).
Proof.
  intros H <-. unfold brace. cbn [seqs].
  change (leave (obind (exec (cout ps) (push [] s)) (fun _ s' => exec c s')) = leave (exec c (push [] (add_out (wmsg [] ps) s)))).
  now rewrite pre_text.
Qed.
Lemma block_log3 ps t c d (s : St) : Forall (fun p => match p with PStr _ => True | _ => False end) ps -> wmsg [] ps = t ->
  exec (brace [cout ps; c; d]) s = leave (obind (exec c (push [] (add_out t s))) (fun _ s1 => exec d s1)).
Proof. intros H E. exact (block_log ps t (SSeq c d) s H E). Qed.
Ltac strs := repeat first [apply Forall_cons; [exact I|] | apply Forall_nil].
Ltac flat := unfold wmsg, wout, werr; cbn [map fst snd List.concat]; unfold wmsg, p_error, p_loc; cbn [app map List.concat]; unfold lit, nl, nl2, endl, stars; cbn [wtext];
  unfold caught_out, caught_err, heading, framed, quoted, line; change (chars "") with (@nil Ascii.ascii);
  repeat rewrite app_nil_l; repeat rewrite app_nil_r; repeat rewrite <- app_assoc; repeat rewrite app_nil_l; repeat rewrite app_nil_r; reflexivity.
Ltac wf_msgs := repeat first [apply Forall_nil | apply Forall_cons; [first [exact I | split; [exact I|cbn [snd]; unfold p_error, p_loc; cbn [app]] | eexists; reflexivity]|]].
Lemma class_log t body s s2 : exec body (inside 1 (framed (chars "TESTING CLASS " ++ t)) s) = Norm tt s2 ->
  logs (HELPER_TEST_CLASS t body) s (s_out s2) (s_err s2).
Proof.
  intros H. unfold LogSpec.logs, HELPER_TEST_CLASS. rewrite (block_log _ (framed (chars "TESTING CLASS " ++ t))) by first [solve [strs]|flat].
  change (push [] (add_out ?u s)) with (inside 1 u s). rewrite H. exists (pop s2). repeat split.
Qed.
Lemma skip_log fn s n : counter "HELPER_TEST_SKIPPED" s n -> n + 1 < 2 ^ 31 ->
  exec (HELPER_TEST_SKIP fn) s =
  Norm tt (mkSt (assign "HELPER_TEST_SKIPPED" (CVal (n + 1)) (s_frames s)) (s_statics s)
                (s_out s ++ line (framed (chars "SKIPPING " ++ fn))) (s_err s) (s_world s)).
Proof.
  intros Hn Hb. unfold HELPER_TEST_SKIP. rewrite (block_log3 _ (framed (chars "SKIPPING " ++ fn))) by first [solve [strs]|flat].
  cbn [MacroModel.exec]. rewrite (count_at _ _ n) by first [exact Hb|exact Hn]. cbn [obind].
  unfold add_out, push, with_frames. cbn. unfold pop, with_frames, line, newline. cbn. now rewrite <- app_assoc.
Qed.
(** try without and with exception *)
Lemma try_ends c p1 x1 h1 p2 x2 h2 (s s2 : St) : exec c (push [] s) = Norm tt s2 -> exec (STry c p1 x1 h1 p2 x2 h2) s = Norm tt (pop s2).
Proof. intros H. cbn [MacroModel.exec]. now rewrite H. Qed.
Lemma try_first c p1 x1 h1 p2 x2 h2 (s s2 : St) x : exec c (push [] s) = Thrown x s2 -> p1 x = true ->
  exec (STry c p1 x1 h1 p2 x2 h2) s = leave (exec h1 (push (bound x1 x) (pop s2))).
Proof. intros H E. cbn [MacroModel.exec]. rewrite H. cbn [leave]. now rewrite E. Qed.
Lemma try_second c p1 x1 h1 p2 x2 h2 (s s2 : St) x : exec c (push [] s) = Thrown x s2 -> p1 x = false -> p2 x = true ->
  exec (STry c p1 x1 h1 p2 x2 h2) s = leave (exec h2 (push (bound x2 x) (pop s2))).
Proof. intros H E F. cbn [MacroModel.exec]. rewrite H. cbn [leave]. now rewrite E, F. Qed.
(** the whole of the common handler *)
Lemma catch_log c l msg what (s s2 : St) x : exec c (push [] s) = Thrown x s2 -> countable 1 s2 ->
  Forall (fun p => match p with PStr _ => True | _ => False end) msg -> (forall w, wmsg w msg = what) ->
  exists s3, exec (try_catch c l msg) s = Norm tt s3 /\ s_out s3 = s_out s2 ++ caught_out x /\ s_err s3 = s_err s2 ++ caught_err l what x.
Proof.
  intros H (n & Hn & Hb) Hm Hw. unfold try_catch.
  assert (Hmw : forall f w, Forall (wok f w) msg) by (intros f w; eapply Forall_impl; [|exact Hm]; intros [] K; cbn in *; auto; contradiction).
  assert (Ew : forall w a b, wmsg w (a ++ msg ++ b) = wmsg w a ++ what ++ wmsg w b).
  { intros w a b. unfold wmsg. rewrite !map_app, !concat_app. fold (wmsg w msg). now rewrite Hw. }
  destruct x as [c0 w|c0].
  - rewrite (try_first _ _ _ _ _ _ _ _ _ _ H eq_refl). cbn [bound].
    match goal with |- context [exec (seqs [count_failure; cout ?a; cerr ?b])] =>
      change (seqs [count_failure; cout a; cerr b]) with (branch true [(Cout, a); (Cerr, b)]) end.
    rewrite (handler_log _ w) with (n := n); [|wf_msgs|reflexivity|exact Hn|exact Hb].
    + cbn [leave]. eexists. split; [reflexivity|]. cbn [pop push with_frames s_out s_err after]. split; [flat|].
      unfold werr. cbn [map fst snd List.concat]. rewrite Ew. flat.
    + cbn [app]. repeat (apply Forall_cons; [exact I|]). apply Forall_app. split; [apply Hmw|]. wf_msgs.
  - rewrite (try_second _ _ _ _ _ _ _ _ _ _ H eq_refl eq_refl). cbn [bound].
    match goal with |- context [exec (seqs [count_failure; cout ?a; cerr ?b])] =>
      change (seqs [count_failure; cout a; cerr b]) with (branch true [(Cout, a); (Cerr, b)]) end.
    rewrite (handler_log _ []) with (n := n); [|wf_msgs|reflexivity|exact Hn|exact Hb].
    + cbn [leave]. eexists. split; [reflexivity|]. cbn [pop push with_frames s_out s_err after]. split; [flat|].
      unfold werr. cbn [map fst snd List.concat]. rewrite Ew. flat.
    + cbn [app]. repeat (apply Forall_cons; [exact I|]). apply Forall_app. split; [apply Hmw|]. wf_msgs.
Qed.
Ltac block t := unfold LogSpec.logs; rewrite (block_log _ t) by first [solve [strs]|flat].
Ltac as_branch := match goal with |- context [MacroModel.exec _ _ (seqs [count_failure; cout ?a; cerr ?b])] =>
    change (seqs [count_failure; cout a; cerr b]) with (branch true [(Cout, a); (Cerr, b)])
  | |- context [MacroModel.exec _ _ (seqs [count_failure; cout ?a; cerr ?b; cout ?c])] =>
    change (seqs [count_failure; cout a; cerr b; cout c]) with (branch true [(Cout, a); (Cerr, b); (Cout, c)]) end.
Ltac finish := cbn [leave]; eexists; split; [reflexivity|]; cbn [pop push with_frames s_out s_err after add_out add_err on inside]; split; flat.
Lemma call_log l fn body s s2 : exec body (inside 2 (framed (chars "CALLING " ++ fn)) s) = Norm tt s2 ->
  logs (HELPER_TEST_CALL l fn body) s (s_out s2) (s_err s2).
Proof.
  intros H. unfold HELPER_TEST_CALL. block (framed (chars "CALLING " ++ fn)). rewrite (try_ends _ _ _ _ _ _ _ _ _ H). exists (pop (pop s2)). repeat split.
Qed.
Lemma call_thrown_log l fn body s c w s2 : exec body (inside 2 (framed (chars "CALLING " ++ fn)) s) = Thrown (XStd c w) s2 -> countable 1 s2 ->
  logs (HELPER_TEST_CALL l fn body) s
    (s_out s2 ++ line (line (chars "ERROR: exception '" ++ w ++ chars "' in " ++ fn ++ chars ": " ++ w)))
    (s_err s2 ++ chars "ERROR: " ++ l_file l ++ chars ":" ++ int_text (l_line l) ++ chars ": calling " ++ fn ++ chars ": " ++ line w).
Proof.
  intros H (n & Hn & Hb). unfold HELPER_TEST_CALL. block (framed (chars "CALLING " ++ fn)).
  rewrite (try_first _ _ _ _ _ _ _ _ _ _ H eq_refl). cbn [bound]. as_branch.
  rewrite (handler_log _ w) with (n := n); [|wf_msgs|reflexivity|exact Hn|exact Hb]. finish.
Qed.
Lemma call_other_log l fn body s c s2 : exec body (inside 2 (framed (chars "CALLING " ++ fn)) s) = Thrown (XOther c) s2 ->
  exec (HELPER_TEST_CALL l fn body) s = Thrown (XOther c) (pop (pop s2)).
Proof.
  intros H. unfold HELPER_TEST_CALL. block (framed (chars "CALLING " ++ fn)). cbn [MacroModel.exec].
  change (push [] (push [] (add_out ?u s))) with (inside 2 u s). rewrite H. reflexivity.
Qed.
Lemma ok_text (s : St) : exec (cout [nl " (ok)"; endl]) s = Norm tt (add_out (line (line (chars " (ok)"))) s).
Proof. cbn. unfold add_out; cbn. do 2 f_equal. unfold line, newline. now rewrite <- !app_assoc. Qed.
Lemma execute_log txt body s s2 : exec body (inside 1 (txt ++ chars ": ") s) = Norm tt s2 ->
  logs (HELPER_TEST_EXECUTE txt body) s (s_out s2 ++ line (line (chars " (ok)"))) (s_err s2).
Proof.
  intros H. unfold LogSpec.logs, HELPER_TEST_EXECUTE. rewrite (block_log3 _ (txt ++ chars ": ")) by first [solve [strs]|flat].
  change (push [] (add_out ?u s)) with (inside 1 u s). rewrite H. cbn [obind]. rewrite ok_text. finish.
Qed.
Lemma then_ends c d (s s2 s3 : St) : exec c s = Norm tt s2 -> exec d s2 = Norm tt s3 -> exec (SSeq c d) s = Norm tt s3.
Proof. intros H K. cbn [MacroModel.exec]. now rewrite H. Qed.
Lemma then_throws c d (s s2 : St) x : exec c s = Thrown x s2 -> exec (SSeq c d) s = Thrown x s2.
Proof. intros H. cbn [MacroModel.exec]. now rewrite H. Qed.
Lemma try_log l txt body s s2 : exec body (inside 2 (txt ++ chars ": ") s) = Norm tt s2 ->
  logs (HELPER_TEST_TRY l txt body) s (s_out s2 ++ line (line (chars " (ok)"))) (s_err s2).
Proof.
  intros H. unfold HELPER_TEST_TRY, try_catch. block (txt ++ chars ": ").
  rewrite (try_ends _ _ _ _ _ _ _ _ _ (then_ends _ _ _ _ _ H (ok_text _))). finish.
Qed.
Lemma leaves (m : outc St unit) o e : (exists s3, m = Norm tt s3 /\ s_out s3 = o /\ s_err s3 = e) ->
  exists s3, leave m = Norm tt s3 /\ s_out s3 = o /\ s_err s3 = e.
Proof. intros (s3 & -> & A & B). exists (pop s3). auto. Qed.
Lemma try_thrown_log l txt body s x s2 : exec body (inside 2 (txt ++ chars ": ") s) = Thrown x s2 -> countable 1 s2 ->
  logs (HELPER_TEST_TRY l txt body) s (s_out s2 ++ caught_out x) (s_err s2 ++ caught_err l (chars "Statement " ++ quoted txt) x).
Proof.
  intros H Hn. unfold HELPER_TEST_TRY. block (txt ++ chars ": "). apply leaves.
  apply (catch_log _ _ _ _ _ _ _ (then_throws _ _ _ _ _ H) Hn); [strs|intros; flat].
Qed.
Lemma shows_value e (s : St) z s2 : eval e s = Norm z s2 -> exec (cout [PExp e; nl ""; endl]) s = Norm tt (add_out (line (line (int_text z))) s2).
Proof. intros H. unfold cout. cbn [MacroModel.exec MacroModel.insert]. rewrite H. cbn. unfold add_out. cbn. do 2 f_equal. unfold line, newline. now rewrite <- !app_assoc. Qed.
Lemma shows_throws e ps (s : St) x s2 : eval e s = Thrown x s2 -> exec (cout (PExp e :: ps)) s = Thrown x s2.
Proof. intros H. unfold cout. cbn [MacroModel.exec MacroModel.insert]. now rewrite H. Qed.
Lemma evaluate_log l txt e s z s2 : eval e (inside 2 (txt ++ chars ": ") s) = Norm z s2 ->
  logs (HELPER_TEST_EVALUATE l txt e) s (s_out s2 ++ line (line (int_text z))) (s_err s2).
Proof.
  intros H. unfold HELPER_TEST_EVALUATE, try_catch. block (txt ++ chars ": ").
  rewrite (try_ends _ _ _ _ _ _ _ _ _ (shows_value _ _ _ _ H)). finish.
Qed.
Lemma evaluate_thrown_log l txt e s x s2 : eval e (inside 2 (txt ++ chars ": ") s) = Thrown x s2 -> countable 1 s2 ->
  logs (HELPER_TEST_EVALUATE l txt e) s (s_out s2 ++ caught_out x) (s_err s2 ++ caught_err l (chars "Expression " ++ quoted txt) x).
Proof.
  intros H Hn. unfold HELPER_TEST_EVALUATE. block (txt ++ chars ": "). apply leaves.
  apply (catch_log _ _ _ _ _ _ _ (shows_throws _ _ _ _ _ H) Hn); [strs|intros; flat].
Qed.
Lemma assign_value x e (s : St) z s2 : eval (EAssign x e) s = Norm z s2 -> exists s1, eval e s = Norm z s1 /\ write_var x z s1 = Norm z s2.
Proof.
  cbn [MacroModel.eval]. destruct (eval e s) as [a s1|? ?|?|]; cbn [obind]; try discriminate. unfold write_var.
  destruct (lookup x (s_frames s1)) as [[]|] eqn:E; try discriminate; intros [= -> <-]; exists s1; rewrite E; auto.
Qed.
Lemma written x z (s s2 : St) : write_var x z s = Norm z s2 -> read_var x s2 = Norm z s2.
Proof.
  unfold write_var, read_var. destruct (lookup x (s_frames s)) as [[]|] eqn:E; try discriminate; intros [= <-]; cbn.
  - now rewrite lookup_assign by congruence.
  - now rewrite lookup_assign by congruence.
  - rewrite E. unfold upd_static. now rewrite Nat.eqb_refl.
Qed.
Lemma assign_log l x txt e s z s2 : eval (EAssign x e) (inside 2 (chars x ++ chars " = " ++ txt ++ chars ": ") s) = Norm z s2 ->
  logs (HELPER_TEST_ASSIGN l x txt e) s (s_out s2 ++ line (line (int_text z))) (s_err s2).
Proof.
  intros H. unfold HELPER_TEST_ASSIGN, try_catch. block (chars x ++ chars " = " ++ txt ++ chars ": ").
  destruct (assign_value _ _ _ _ _ H) as (s1 & _ & Hw).
  assert (E : exec (SExpr (EAssign x e)) (inside 2 (chars x ++ chars " = " ++ txt ++ chars ": ") s) = Norm tt s2) by (cbn [MacroModel.exec]; now rewrite H).
  rewrite (try_ends _ _ _ _ _ _ _ _ _ (then_ends _ _ _ _ _ E (shows_value (EVar x) _ _ _ (written _ _ _ _ Hw)))). finish.
Qed.
Lemma assign_thrown_log l x txt e s y s2 : eval e (inside 2 (chars x ++ chars " = " ++ txt ++ chars ": ") s) = Thrown y s2 -> countable 1 s2 ->
  logs (HELPER_TEST_ASSIGN l x txt e) s (s_out s2 ++ caught_out y) (s_err s2 ++ caught_err l (chars "Assignment " ++ quoted (chars x ++ chars "=" ++ txt)) y).
Proof.
  intros H Hn. unfold HELPER_TEST_ASSIGN. block (chars x ++ chars " = " ++ txt ++ chars ": "). apply leaves.
  assert (E : exec (SExpr (EAssign x e)) (inside 2 (chars x ++ chars " = " ++ txt ++ chars ": ") s) = Thrown y s2)
    by (cbn [MacroModel.exec MacroModel.eval]; now rewrite H).
  apply (catch_log _ _ _ _ _ _ _ (then_throws _ _ _ _ _ E) Hn); [strs|intros; flat].
Qed.
Lemma throws_log l txt etxt body error s x s2 : exec body (inside 2 (txt ++ chars ": ") s) = Thrown x s2 -> error x = true ->
  logs (HELPER_TEST_THROWS l txt etxt body error) s (s_out s2 ++ line (line (chars "caught " ++ etxt ++ chars " as expected"))) (s_err s2).
Proof.
  intros H Hx. unfold HELPER_TEST_THROWS. block (txt ++ chars ": ").
  rewrite (try_first _ _ _ _ _ _ _ _ _ _ (then_throws _ _ _ _ _ H) Hx). unfold cout. cbn [MacroModel.exec].
  rewrite (insert_what Cout _ []); [|exact I|strs]. finish.
Qed.
Lemma throws_other_log l txt etxt body error s c w s2 : exec body (inside 2 (txt ++ chars ": ") s) = Thrown (XStd c w) s2 -> error (XStd c w) = false -> countable 1 s2 ->
  logs (HELPER_TEST_THROWS l txt etxt body error) s
    (s_out s2 ++ newline ++ line (chars "ERROR: caught exception " ++ w ++ chars "; expected " ++ etxt))
    (s_err s2 ++ heading "ERROR: " l ++ line (chars "caught exception " ++ w ++ chars "; expected " ++ etxt)).
Proof.
  intros H Hx (n & Hn & Hb). unfold HELPER_TEST_THROWS. block (txt ++ chars ": ").
  rewrite (try_second _ _ _ _ _ _ _ _ _ _ (then_throws _ _ _ _ _ H) Hx eq_refl). cbn [bound]. as_branch.
  rewrite (handler_log _ w) with (n := n); [|wf_msgs|reflexivity|exact Hn|exact Hb]. finish.
Qed.
Lemma no_throw l (a b : list part) body (s s2 : St) n : exec body s = Norm tt s2 -> counter "HELPER_TEST_FAILURES" s2 n -> n + 1 < 2 ^ 31 ->
  Forall (fun p => match p with PStr _ => True | _ => False end) a -> Forall (fun p => match p with PStr _ => True | _ => False end) b ->
  exec (SSeq body (seqs [count_failure; cout a; cerr (p_error l ++ b)])) s
  = Norm tt (after s2 true (n + 1) (wmsg [] a) (heading "ERROR: " l ++ wmsg [] b)).
Proof.
  intros H Hn Hb Ha Hbb. apply (then_ends _ _ _ _ _ H).
  change (seqs [count_failure; cout a; cerr (p_error l ++ b)]) with (branch true [(Cout, a); (Cerr, p_error l ++ b)]).
  assert (Hc : near s2 s2) by apply near_refl.
  set (v := fun e => match e with ELit z => z | _ => 0 end).
  assert (Hs : forall c, Forall (fun p => match p with PStr _ => True | _ => False end) c -> Forall (pok call ltr v s2) c /\ msg_text v c = wmsg [] c).
  { intros c. induction 1 as [|[t|e|x] c Hp _ IH]; try contradiction; [split; [constructor|reflexivity]|].
    destruct IH as [I1 I2]. split; [constructor; [exact I|exact I1]|]. unfold msg_text, wmsg in *. cbn. now rewrite I2. }
  destruct (Hs a Ha) as [A1 A2], (Hs b Hbb) as [B1 B2].
  rewrite (branch_text call ltr v s2 n) with (s1 := s2); auto.
  - unfold cout_text, cerr_text. cbn [map fst snd List.concat]. rewrite A2. rewrite said_app, B2. rewrite !app_nil_r, app_nil_l.
    do 2 f_equal.
  - repeat apply Forall_cons; try apply Forall_nil; (split; [exact I|]); cbn [snd]; auto.
    apply Forall_app. split; [|exact B1]. unfold p_error, p_loc. cbn [app].
    repeat first [apply Forall_nil | apply Forall_cons; [first [exact I|split; [intros ? ?; reflexivity|intros ? ? ? ?; reflexivity]]|]].
Qed.
Lemma throws_none_log l txt etxt body error s s2 : exec body (inside 2 (txt ++ chars ": ") s) = Norm tt s2 -> countable 0 s2 ->
  logs (HELPER_TEST_THROWS l txt etxt body error) s
    (s_out s2 ++ newline ++ line (chars "ERROR: expected " ++ etxt ++ chars "; no exception thrown"))
    (s_err s2 ++ heading "ERROR: " l ++ line (chars "expected " ++ etxt ++ chars "; no exception thrown.")).
Proof.
  intros H (n & Hn & Hb). unfold HELPER_TEST_THROWS. block (txt ++ chars ": ").
  erewrite try_ends; [|apply (no_throw _ _ _ _ _ _ n H Hn Hb); strs]. finish.
Qed.
Lemma fail_log l txt body s x s2 : exec body (inside 2 (txt ++ chars ": ") s) = Thrown x s2 ->
  logs (HELPER_TEST_FAIL l txt body) s (s_out s2 ++ line (line (chars "caught exception as expected"))) (s_err s2).
Proof.
  intros H. unfold HELPER_TEST_FAIL. block (txt ++ chars ": ").
  rewrite (try_first _ _ _ _ _ _ _ _ _ _ (then_throws _ _ _ _ _ H) eq_refl). unfold cout. cbn [MacroModel.exec].
  rewrite (insert_what Cout _ []); [|exact I|strs]. finish.
Qed.
Lemma fail_none_log l txt body s s2 : exec body (inside 2 (txt ++ chars ": ") s) = Norm tt s2 -> countable 0 s2 ->
  logs (HELPER_TEST_FAIL l txt body) s
    (s_out s2 ++ newline ++ line (chars "ERROR: expected exception; none thrown"))
    (s_err s2 ++ heading "ERROR: " l ++ line (chars "expected exception; no exception thrown.")).
Proof.
  intros H (n & Hn & Hb). unfold HELPER_TEST_FAIL. block (txt ++ chars ": ").
  erewrite try_ends; [|apply (no_throw _ _ _ _ _ _ n H Hn Hb); strs]. finish.
Qed.
End B.
