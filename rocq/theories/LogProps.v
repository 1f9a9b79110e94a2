(** LogProps.v -- property C85: the log of the tests. *)
From Verif Require Import Base StreamModel MacroModel MacroSpec TestModel TestSpec LogSpec LogProofs LogBlocks.
From Coq Require Import String.
Open Scope list_scope.
Open Scope Z_scope.

(** C85 (the log states the source texts and the values compared): for every check whose expressions have
    values [v], whatever they are, the log is determined: cout gets the announcement with the source texts, and
    its confirmation or the complaint with the values; cerr gets nothing if the check is passed, and otherwise
    one report with the place, the source texts and the values.  Nothing else changes but the count of
    failures.  The expressions do not mention the names used by the macros. *)
Theorem C85_checks : forall W (call : nat -> list Z -> W -> callres W) ltr v l k s n,
  (forall e, In e (check_args k) -> own e) -> (forall e, In e (judged k) -> steady call ltr s e (v e)) ->
  counter "HELPER_TEST_FAILURES" s n -> n + 1 < 2 ^ 31 ->
  exec call ltr (check_stmt l k) s =
  Norm tt (after s (negb (passed v k || warns k)) (n + 1)
    (announces v k ++ (if passed v k then confirms v k else complains v l k)) (if passed v k then [] else report_of v l k)).
Proof. exact (fun W call ltr v l k s n => check_log_any call ltr v l k s n). Qed.
(** The static checks. *)
Theorem C85_static_checks : forall W (call : nat -> list Z -> W -> callres W) ltr l cls txt first b s n,
  counter "HELPER_TEST_FAILURES" s n -> n + 1 < 2 ^ 31 ->
  let same := chars "Same<" ++ txt ++ chars ">" in
  let equivalent := chars "IsEquivalent<" ++ txt ++ chars ">" in
  exec call ltr (HELPER_TEST_STATIC_ASSERT l cls txt b) s
  = Norm tt (static_after l cls txt (chars "Static assertion " ++ quoted txt ++ chars " failed.") b n s) /\
  exec call ltr (HELPER_TEST_CONCEPT l cls txt b) s
  = Norm tt (static_after l cls txt (chars "Concept " ++ quoted txt ++ chars " failed.") b n s) /\
  exec call ltr (HELPER_TEST_SAME_TYPE l cls txt first b) s
  = Norm tt (static_after l cls same (chars "Static assertion " ++ quoted same ++ chars " failed. First type is " ++ first) b n s) /\
  exec call ltr (HELPER_TEST_EQUIVALENT_TYPE l cls txt first b) s
  = Norm tt (static_after l cls equivalent (chars "Static assertion " ++ quoted equivalent ++ chars " failed. First type is " ++ first) b n s).
Proof.
  exact (fun W call ltr l cls txt first b s n H K =>
    conj (static_assert_log call ltr (lits (fun _ => 0)) (fun z => eq_refl) l cls txt b s n H K)
   (conj (concept_log call ltr (lits (fun _ => 0)) (fun z => eq_refl) l cls txt b s n H K)
   (conj (same_type_log call ltr (lits (fun _ => 0)) (fun z => eq_refl) l cls txt first b s n H K)
         (equivalent_type_log call ltr (lits (fun _ => 0)) (fun z => eq_refl) l cls txt first b s n H K)))).
Qed.
(** The messages: a comment, a warning, a notification, a title and a printed value. *)
Theorem C85_messages : forall W (call : nat -> list Z -> W -> callres W) ltr v c s, sayable call ltr v s c ->
  exec call ltr (HELPER_PRINT_TEST_COMMENT c) s = Norm tt (after s false 0 (line (chars "* COMMENT: " ++ said v c)) []) /\
  exec call ltr (HELPER_TEST_WARN c) s
  = Norm tt (after s false 0 (line (chars "WARNING: " ++ said v c)) (line (chars "WARNING: " ++ said v c))) /\
  exec call ltr (HELPER_TEST_NOTIFY c) s
  = Norm tt (after s false 0 (line (chars "NOTIFICATION: " ++ said v c)) (line (chars "NOTIFICATION: " ++ said v c))) /\
  (forall n, counter "test_case_counter" s n -> n + 1 < 2 ^ 31 ->
   exec call ltr (HELPER_PRINT_TEST_CASE_TITLE c) s =
   Norm tt (mkSt (assign "test_case_counter" (CVal (n + 1)) (s_frames s)) (s_statics s)
     (s_out s ++ line (line (chars "*** " ++ int_text (n + 1) ++ chars ": " ++ said v c ++ chars " ***"))) (s_err s) (s_world s))) /\
  (forall txt e, own e -> steady call ltr s e (v e) ->
   exec call ltr (HELPER_TEST_PRINT txt e) s = Norm tt (after s false 0 (line (line (txt ++ chars " = " ++ int_text (v e)))) [])).
Proof.
  exact (fun W call ltr v c s H => conj (comment_log call ltr v c s H) (conj (warn_log call ltr v c s H)
   (conj (notify_log call ltr v c s H) (conj (fun n => title_log call ltr v c s n H) (fun txt e => print_log call ltr v txt e s))))).
Qed.
(** The blocks around a statement [body] that is completed in a state [s2], or leaves an exception in it: what is
    announced before the body, and what is added after it to the log that the body leaves. *)
Theorem C85_blocks : forall W (call : nat -> list Z -> W -> callres W) ltr l t body (s s2 : st W),
  (exec call ltr body (inside 1 (framed (chars "TESTING CLASS " ++ t)) s) = Norm tt s2 ->
   logs call ltr (HELPER_TEST_CLASS t body) s (s_out s2) (s_err s2)) /\
  (exec call ltr body (inside 1 (t ++ chars ": ") s) = Norm tt s2 ->
   logs call ltr (HELPER_TEST_EXECUTE t body) s (s_out s2 ++ line (line (chars " (ok)"))) (s_err s2)) /\
  (exec call ltr body (inside 2 (framed (chars "CALLING " ++ t)) s) = Norm tt s2 ->
   logs call ltr (HELPER_TEST_CALL l t body) s (s_out s2) (s_err s2)) /\
  (forall c w, exec call ltr body (inside 2 (framed (chars "CALLING " ++ t)) s) = Thrown (XStd c w) s2 -> countable 1 s2 ->
   logs call ltr (HELPER_TEST_CALL l t body) s
     (s_out s2 ++ line (line (chars "ERROR: exception '" ++ w ++ chars "' in " ++ t ++ chars ": " ++ w)))
     (s_err s2 ++ chars "ERROR: " ++ l_file l ++ chars ":" ++ int_text (l_line l) ++ chars ": calling " ++ t ++ chars ": " ++ line w)) /\
  (exec call ltr body (inside 2 (t ++ chars ": ") s) = Norm tt s2 ->
   logs call ltr (HELPER_TEST_TRY l t body) s (s_out s2 ++ line (line (chars " (ok)"))) (s_err s2)) /\
  (forall x, exec call ltr body (inside 2 (t ++ chars ": ") s) = Thrown x s2 -> countable 1 s2 ->
   logs call ltr (HELPER_TEST_TRY l t body) s (s_out s2 ++ caught_out x) (s_err s2 ++ caught_err l (chars "Statement " ++ quoted t) x)).
Proof.
  exact (fun W call ltr l t body s s2 =>
    conj (class_log call ltr t body s s2) (conj (execute_log call ltr t body s s2) (conj (call_log call ltr l t body s s2)
   (conj (fun c w => call_thrown_log call ltr l t body s c w s2) (conj (try_log call ltr l t body s s2)
         (fun x => try_thrown_log call ltr l t body s x s2)))))).
Qed.
(** HELPER_TEST_EVALUATE, HELPER_TEST_ASSIGN and HELPER_TEST_SKIP. *)
Theorem C85_values : forall W (call : nat -> list Z -> W -> callres W) ltr l t x e (s s2 : st W),
  let becomes := chars x ++ chars " = " ++ t ++ chars ": " in
  (forall z, eval call ltr e (inside 2 (t ++ chars ": ") s) = Norm z s2 ->
   logs call ltr (HELPER_TEST_EVALUATE l t e) s (s_out s2 ++ line (line (int_text z))) (s_err s2)) /\
  (forall y, eval call ltr e (inside 2 (t ++ chars ": ") s) = Thrown y s2 -> countable 1 s2 ->
   logs call ltr (HELPER_TEST_EVALUATE l t e) s (s_out s2 ++ caught_out y) (s_err s2 ++ caught_err l (chars "Expression " ++ quoted t) y)) /\
  (forall z, eval call ltr (EAssign x e) (inside 2 becomes s) = Norm z s2 ->
   logs call ltr (HELPER_TEST_ASSIGN l x t e) s (s_out s2 ++ line (line (int_text z))) (s_err s2)) /\
  (forall y, eval call ltr e (inside 2 becomes s) = Thrown y s2 -> countable 1 s2 ->
   logs call ltr (HELPER_TEST_ASSIGN l x t e) s (s_out s2 ++ caught_out y)
     (s_err s2 ++ caught_err l (chars "Assignment " ++ quoted (chars x ++ chars "=" ++ t)) y)) /\
  (forall n, counter "HELPER_TEST_SKIPPED" s n -> n + 1 < 2 ^ 31 ->
   exec call ltr (HELPER_TEST_SKIP t) s =
   Norm tt (mkSt (assign "HELPER_TEST_SKIPPED" (CVal (n + 1)) (s_frames s)) (s_statics s)
                 (s_out s ++ line (framed (chars "SKIPPING " ++ t))) (s_err s) (s_world s))).
Proof.
  exact (fun W call ltr l t x e s s2 =>
    conj (fun z => evaluate_log call ltr l t e s z s2) (conj (fun y => evaluate_thrown_log call ltr l t e s y s2)
   (conj (fun z => assign_log call ltr l x t e s z s2) (conj (fun y => assign_thrown_log call ltr l x t e s y s2)
         (fun n => skip_log call ltr t s n))))).
Qed.
(** HELPER_TEST_THROWS and HELPER_TEST_FAIL. *)
Theorem C85_throwing : forall W (call : nat -> list Z -> W -> callres W) ltr l t etxt error body (s s2 : st W),
  (forall x, exec call ltr body (inside 2 (t ++ chars ": ") s) = Thrown x s2 -> error x = true ->
   logs call ltr (HELPER_TEST_THROWS l t etxt body error) s (s_out s2 ++ line (line (chars "caught " ++ etxt ++ chars " as expected"))) (s_err s2)) /\
  (forall c w, exec call ltr body (inside 2 (t ++ chars ": ") s) = Thrown (XStd c w) s2 -> error (XStd c w) = false -> countable 1 s2 ->
   logs call ltr (HELPER_TEST_THROWS l t etxt body error) s
     (s_out s2 ++ newline ++ line (chars "ERROR: caught exception " ++ w ++ chars "; expected " ++ etxt))
     (s_err s2 ++ heading "ERROR: " l ++ line (chars "caught exception " ++ w ++ chars "; expected " ++ etxt))) /\
  (exec call ltr body (inside 2 (t ++ chars ": ") s) = Norm tt s2 -> countable 0 s2 ->
   logs call ltr (HELPER_TEST_THROWS l t etxt body error) s
     (s_out s2 ++ newline ++ line (chars "ERROR: expected " ++ etxt ++ chars "; no exception thrown"))
     (s_err s2 ++ heading "ERROR: " l ++ line (chars "expected " ++ etxt ++ chars "; no exception thrown."))) /\
  (forall x, exec call ltr body (inside 2 (t ++ chars ": ") s) = Thrown x s2 ->
   logs call ltr (HELPER_TEST_FAIL l t body) s (s_out s2 ++ line (line (chars "caught exception as expected"))) (s_err s2)) /\
  (exec call ltr body (inside 2 (t ++ chars ": ") s) = Norm tt s2 -> countable 0 s2 ->
   logs call ltr (HELPER_TEST_FAIL l t body) s
     (s_out s2 ++ newline ++ line (chars "ERROR: expected exception; none thrown"))
     (s_err s2 ++ heading "ERROR: " l ++ line (chars "expected exception; no exception thrown."))).
Proof.
  exact (fun W call ltr l t etxt error body s s2 =>
    conj (fun x => throws_log call ltr l t etxt body error s x s2) (conj (fun c w => throws_other_log call ltr l t etxt body error s c w s2)
   (conj (throws_none_log call ltr l t etxt body error s s2) (conj (fun x => fail_log call ltr l t body s x s2)
         (fail_none_log call ltr l t body s s2))))).
Qed.
(** a world without functions but one that always throws *)
Definition log_call (f : nat) (l : list Z) (w : unit) : callres unit := CThrow (XStd runtime_error (chars "bad")) w.
Definition log_vars : list (name * Z) := [("x"%string, 5)].
Definition log_place : loc := mkLoc (chars "t.cpp") 7 (chars "f").
Definition log_value (e : expr) : Z := match e with ELit z => z | _ => 5 end.
Definition both_logs {A} (m : outc (st unit) A) : option (text * text) := match m with Norm _ s => Some (s_out s, s_err s) | _ => None end.
Definition log_check : check := KEqual (chars "x") (chars "7") (EVar "x") (ELit 7).
Example C85_example :
  (* the hypotheses of C85_checks for HELPER_TEST_EQUAL(x,7) with x=5 *)
  (forall e, In e (check_args log_check) -> own e) /\
  (forall e, In e (judged log_check) -> steady log_call true (start log_vars tt) e (log_value e)) /\
  counter "HELPER_TEST_FAILURES" (start log_vars tt) 0 /\
  passed log_value log_check = false /\
  both_logs (exec log_call true (check_stmt log_place log_check) (start log_vars tt))
  = Some (chars "x == 7: " ++ newline ++ chars "ERROR: x:" ++ newline ++ chars "           5" ++ newline ++
          chars "     : 7:" ++ newline ++ chars "           7" ++ newline,
          chars "ERROR: t.cpp:7: f: Equality `x == 7' failed; x=5; 7=7" ++ newline) /\
  (* a statement that throws *)
  both_logs (exec log_call true (HELPER_TEST_TRY log_place (chars "f(x)") (SExpr (ECall1 0 (EVar "x")))) (start log_vars tt))
  = Some (chars "f(x): exception: ""bad""" ++ newline ++ newline, chars "ERROR: t.cpp:7: f: Statement `f(x)' throwed ""bad""." ++ newline) /\
  both_logs (exec log_call true (HELPER_TEST_THROWS log_place (chars "f(x)") (chars "E") (SExpr (ECall1 0 (EVar "x"))) (fun _ => false)) (start log_vars tt))
  = Some (chars "f(x): " ++ newline ++ chars "ERROR: caught exception bad; expected E" ++ newline,
          chars "ERROR: t.cpp:7: f: caught exception bad; expected E" ++ newline) /\
  (* a comment with a value *)
  both_logs (exec log_call true (HELPER_PRINT_TEST_COMMENT [PStr (chars "x is "); PExp (EVar "x")]) (start log_vars tt))
  = Some (chars "* COMMENT: x is 5" ++ newline, []).
Proof.
  split; [|split].
  - intros e [<-|[<-|[]]] x Hx; cbn in Hx; repeat destruct Hx as [<-|Hx]; try reflexivity; contradiction.
  - intros e [<-|[<-|[]]] s1 _ _ H; [|reflexivity]. cbn. unfold read_var. now rewrite (H "x"%string eq_refl).
  - vm_compute. repeat split; reflexivity.
Qed.
Print Assumptions C85_checks.
Print Assumptions C85_static_checks.
Print Assumptions C85_messages.
Print Assumptions C85_blocks.
Print Assumptions C85_values.
Print Assumptions C85_throwing.
