(** TestProps.v -- properties C66-C68 and C75-C77 of the macros of include/test.hpp. *)
From Verif Require Import Base StreamModel MacroModel MacroSpec TestModel TestSpec TestProofs TestEval TestConstruct.
From Coq Require Import String.
Open Scope list_scope.
Open Scope Z_scope.

(** Functions for the examples: function 0 returns its argument plus the number of its calls so far, which
    it counts in the world; function 1 is the identity; function 2 throws std::runtime_error; function 3
    throws an int; function 4 is (x,y) |-> x = y. *)
Definition demo_call (f : nat) (l : list Z) (w : Z) : callres Z :=
  match f, l with
  | 0%nat, [a] => CRet (a + w + 1) (w + 1)
  | 1%nat, [a] => CRet a w
  | 2%nat, _ => CThrow (XStd runtime_error (chars "two")) w
  | 4%nat, [a; b] => CRet (b2z (a =? b)) w
  | _, _ => CThrow (XOther 0) w
  end.
(** the same without the function that throws an int *)
Definition std_call (f : nat) (l : list Z) (w : Z) : callres Z :=
  match f with 3%nat => CThrow (XStd runtime_error (chars "three")) w | _ =>
    match demo_call f l w with CThrow (XOther _) w' => CThrow (XStd runtime_error []) w' | r => r end end.
Definition here : loc := mkLoc (chars "t.cpp") 7 (chars "main").
Definition next : expr := ECall1 0 (ELit 0).
Definition demo_vars : list (name * Z) := [("x"%string, 5); ("y"%string, 6)].
Definition vx : expr := EVar "x".
Definition vy : expr := EVar "y".
Fixpoint do_all (l : list prog) : prog := match l with [] => PComment [] | [p] => p | p :: l' => PDo p (do_all l') end.
Lemma std_call_std : only_std std_call.
Proof.
  intros f l w e w'. unfold std_call.
  repeat match goal with |- context [match ?f with _ => _ end] => is_var f; destruct f end;
    cbn [demo_call]; try discriminate;
    repeat match goal with |- context [match ?f with _ => _ end] => is_var f; destruct f; cbn [demo_call] end;
    intros H; inversion H; reflexivity.
Qed.

(** C66 (the failure counter counts exactly the failed checks):
      after any sequence of HELPER_TEST_* checks, HELPER_TEST_FAILURES equals the number of checks that
      failed.
    Refuted: HELPER_TEST_CALL and HELPER_TEST_THROWS do not catch exceptions outside std::exception;
    HELPER_TEST_COMPARE and the predicate checks evaluate their expressions once more, before the check,
    to print them; and a check of an expression that mentions a variable called ok reads the macro's own
    uninitialised variable. *)
Definition c66_call : prog := PCall here (chars "f") (PUser (ECall1 3 vx)).
Definition c66_throws : prog := PThrows here (chars "f(x)") (chars "std::runtime_error") (PUser (ECall1 3 vx)) is_std.
Definition c66_compare : prog := PCheck here (KCompare (chars "next()") (chars "1") next CEq (ELit 1)).
Definition c66_ok : prog := PCheck here (KEqual (chars "ok") (chars "1") (EVar "ok") (ELit 1)).
Theorem C66_counter_is_tally_refuted :
  (exists e s', exec demo_call true (prog_stmt c66_call) (start demo_vars 0) = Thrown e s' /\
     tally demo_call true c66_call (start demo_vars 0) = 1 /\ counter "HELPER_TEST_FAILURES" s' 0) /\
  (exists e s', exec demo_call true (prog_stmt c66_throws) (start demo_vars 0) = Thrown e s' /\
     tally demo_call true c66_throws (start demo_vars 0) = 1 /\ counter "HELPER_TEST_FAILURES" s' 0) /\
  (exists s', exec demo_call true (prog_stmt c66_compare) (start demo_vars 0) = Norm tt s' /\
     tally demo_call true c66_compare (start demo_vars 0) = 0 /\ counter "HELPER_TEST_FAILURES" s' 1) /\
  (tally demo_call true c66_ok (start [("ok"%string, 1)] 0) = 0 /\
   exec demo_call true (prog_stmt c66_ok) (start [("ok"%string, 1)] 0) = Undef UbUninit).
Proof.
  split; [|split; [|split]]; [eexists _, _; repeat split|eexists _, _; repeat split|eexists; repeat split|split; reflexivity].
Qed.
(** so it is with the other checks *)
Example C66_example_ok :
  Forall (fun k => exec demo_call true (prog_stmt (PCheck here k)) (start [("ok"%string, 1)] 0) = Undef UbUninit)
    [ KCheck (chars "ok") (chars "1") (EVar "ok") (ELit 1); KCheckWarn (chars "ok") (chars "1") (EVar "ok") (ELit 1);
      KSame 0 (chars "ok") (chars "1") (EVar "ok") (ELit 1); KSameAs 0 (chars "ok") (chars "1") (EVar "ok") (ELit 1);
      KEquals (chars "ok") (chars "1") (EVar "ok") (ELit 1); KUnary 0 (chars "p") (chars "ok") (EVar "ok");
      KBinary 0 (chars "p") (chars "1") (chars "ok") (ELit 1) (EVar "ok");
      KCompare (chars "ok") (chars "1") (EVar "ok") CEq (ELit 1); KLess (chars "ok") (chars "1") (EVar "ok") (ELit 1);
      KNotEqual (chars "ok") (chars "1") (EVar "ok") (ELit 1); KResultCompare (chars "1") (chars "ok") (ELit 1) CEq (EVar "ok");
      KWithin (chars "1") (chars "1") (ELit 1) (ELit 1) (EVar "ok") ].

Proof. repeat constructor. Qed.
(** With these excluded the counter is exact: for every program over variables with names of their own,
    whose functions throw nothing but std::exceptions and whose COMPARE and predicate checks look at
    expressions without effects, whatever the program does (side effects, exceptions, nesting), and however
    it ends.  The number of checks is bounded so that the int counters do not overflow. *)
Theorem C66_counter_is_tally_partial : forall W (call : nat -> list Z -> W -> callres W) ltr vs p s n,
  vars_ok vs -> only_std call -> wf_prog call ltr vs p -> scoped vs s -> room s (size p) ->
  counter "HELPER_TEST_FAILURES" s n ->
  exists s', ended (exec call ltr (prog_stmt p) s) s' /\
             counter "HELPER_TEST_FAILURES" s' (n + tally call ltr p s).
Proof. exact (fun W call ltr vs p s n => program_counts call ltr vs p s n). Qed.

Definition demo_prog : prog :=
  PClass (chars "T") (PCall here (chars "f") (do_all
    [ PCheck here (KEquals (chars "next()") (chars "1") next (ELit 1));              (* holds *)
      PCheck here (KEquals (chars "next()") (chars "1") next (ELit 1));              (* fails *)
      PCheck here (KWithin (chars "x") (chars "y") vx vy (ELit 1));                     (* holds *)
      PCheck here (KAssert (chars "x=0") (EAssign "x" (ELit 0)));                     (* fails *)
      PCheck here (KCheckWarn (chars "x") (chars "y") vx vy);                           (* does not count *)
      PSkip (chars "g");
      PThrows here (chars "two()") (chars "E") (PUser (ECall1 2 vx)) is_std;           (* holds *)
      PFail here (chars "x") (PUser vx);                                               (* fails *)
      PTry here (chars "three()") (PUser (ECall1 3 vx));                               (* fails *)
      PCheck here (KCompare (chars "x") (chars "y") vx CLt vy);                         (* holds *)
      PUser (ECall1 2 vx);                                                             (* the call fails *)
      PCheck here (KAssert (chars "0") (ELit 0)) ])).                                 (* not reached *)
Lemma demo_user e : is_user e = true ->
  existsb (fun z => negb (existsb (String.eqb z) (map fst demo_vars)))
    ((fix names (e : expr) : list name :=
        match e with
        | ELit _ => []
        | EVar y | EIncr y => [y]
        | EBool e | ENot e | EAbs e | ECall1 _ e => names e
        | EAnd e1 e2 | ECmp _ e1 e2 | ESub e1 e2 | ECall2 _ e1 e2 | ECheck e1 e2 => names e1 ++ names e2
        | EAssign y e => y :: names e
        end) e) = false -> user_expr (map fst demo_vars) e.
Proof.
  intros Hu. set (names := fix names (e : expr) : list name := _). intros H. split; [exact Hu|]. intros z Hz.
  assert (Hn : In z (names e)).
  { clear Hu H. induction e; cbn [mentions names] in *; try discriminate; auto;
      try (apply orb_prop in Hz as [Hz|Hz]); try (apply in_or_app; tauto);
      try (apply String.eqb_eq in Hz as ->; left; reflexivity). right. auto. }
  destruct (existsb (String.eqb z) (map fst demo_vars)) eqn:E.
  - apply existsb_exists in E as (q & Hq & Hqz). apply String.eqb_eq in Hqz as ->. exact Hq.
  - exfalso. enough (existsb (fun z => negb (existsb (String.eqb z) (map fst demo_vars))) (names e) = true) by congruence.
    apply existsb_exists. exists z. split; [exact Hn|]. now rewrite E.
Qed.
Lemma demo_vars_ok : vars_ok (map fst demo_vars).
Proof. intros z Hz Hin. cbn in Hz, Hin. intuition (subst; discriminate). Qed.
Lemma pure_var z : pure std_call true (EVar z).
Proof.
  intros s. cbn [eval]. unfold read_var. destruct (lookup z (s_frames s)) as [[]|]; auto. destruct (s_statics s site); auto.
Qed.
Lemma demo_wf : wf_prog std_call true (map fst demo_vars) demo_prog.
Proof.
  cbn [demo_prog do_all wf_prog wf_check]. repeat match goal with |- _ /\ _ => split end;
    first [exact I | apply pure_var | now apply demo_user].
Qed.
Example C66_example :
  vars_ok (map fst demo_vars) /\ only_std std_call /\ wf_prog std_call true (map fst demo_vars) demo_prog /\
  scoped (map fst demo_vars) (start demo_vars 0) /\ room (start demo_vars 0) (size demo_prog) /\
  tally std_call true demo_prog (start demo_vars 0) = 5.
Proof.
  destruct (start_ok demo_vars 0 (size demo_prog) demo_vars_ok eq_refl) as (A & B & _).
  repeat split; auto using demo_vars_ok, std_call_std; try apply demo_wf.
Qed.
Print Assumptions C66_counter_is_tally_refuted.
Print Assumptions C66_counter_is_tally_partial.

(** C67 (a test executable exits with status 0 iff no check failed):
      the status seen by ctest is 0 exactly when no check failed.
    Refuted: the status is the number of failures modulo 256. *)
Fixpoint failing (n : nat) : prog :=
  match n with O => PComment [] | S n' => PDo (PCheck here (KAssert (chars "false") (ELit 0))) (failing n') end.
Theorem C67_exit_zero_iff_passed_refuted :
  tally demo_call true (failing 256) (start demo_vars 0) = 256 /\
  run demo_call true demo_vars (failing 256) 0 = Exited 0.
Proof. split; vm_compute; reflexivity. Qed.
(** The status is the number of failed checks modulo 256, unless an exception leaves main; with fewer than
    256 failures it is 0 exactly when no check failed and no exception left main. *)
Theorem C67_status_partial : forall W (call : nat -> list Z -> W -> callres W) ltr l p w,
  vars_ok (map fst l) -> only_std call -> wf_prog call ltr (map fst l) p -> size p < 2 ^ 31 ->
  run call ltr l p w = match thrown (exec call ltr (prog_stmt p) (start l w)) with
                       | Some _ => Terminated
                       | None => Exited (tally call ltr p (start l w) mod 256)
                       end.
Proof. exact (fun W call ltr l p w => run_status call ltr l p w). Qed.
Theorem C67_exit_zero_iff_passed_partial : forall W (call : nat -> list Z -> W -> callres W) ltr l p w,
  vars_ok (map fst l) -> only_std call -> wf_prog call ltr (map fst l) p -> size p < 2 ^ 31 ->
  tally call ltr p (start l w) < 256 ->
  (run call ltr l p w = Exited 0 <->
   tally call ltr p (start l w) = 0 /\ thrown (exec call ltr (prog_stmt p) (start l w)) = None).
Proof. exact (fun W call ltr l p w => exit_zero_iff call ltr l p w). Qed.
Example C67_example : size demo_prog < 2 ^ 31 /\ tally std_call true demo_prog (start demo_vars 0) < 256 /\
  run std_call true demo_vars demo_prog 0 = Exited 5.
Proof. repeat split. Qed.
Example C67_example_passed : run std_call true demo_vars (PCheck here (KLess (chars "x") (chars "y") vx vy)) 0 = Exited 0.
Proof. reflexivity. Qed.
Example C67_example_terminated : run std_call true demo_vars (PUser (ECall1 2 vx)) 0 = Terminated.
Proof. reflexivity. Qed.
Print Assumptions C67_exit_zero_iff_passed_refuted.
Print Assumptions C67_status_partial.
Print Assumptions C67_exit_zero_iff_passed_partial.

(** C68 (checks evaluate the tested expression once):
      HELPER_TEST_EQUALS(e,x) and its siblings evaluate e exactly once.
    Refuted: when they fail they evaluate it again for each message (EQUALS three times in all); COMPARE and
    the predicate checks evaluate it twice even when they pass; ASSIGN_CONSTRUCT evaluates the initialiser
    twice.  The world counts the calls of function 0. *)
Definition calls {A} (m : outc (st Z) A) : option Z := match m with Norm _ s => Some (s_world s) | _ => None end.
Theorem C68_evaluated_once_refuted :
  calls (exec demo_call true (check_stmt here (KEquals (chars "next()") (chars "7") next (ELit 7))) (start [] 0)) = Some 3 /\
  calls (exec demo_call true (check_stmt here (KEqual (chars "next()") (chars "7") next (ELit 7))) (start [] 0)) = Some 3 /\
  calls (exec demo_call true (check_stmt here (KCheck (chars "next()") (chars "7") next (ELit 7))) (start [] 0)) = Some 2 /\
  calls (exec demo_call true (check_stmt here (KCompare (chars "next()") (chars "7") next CLt (ELit 7))) (start [] 0)) = Some 2 /\
  calls (exec demo_call true (HELPER_TEST_ASSIGN_CONSTRUCT here "int" "z" (chars "next()") next) (push [] (start [] 0))) = Some 2.
Proof. repeat split. Qed.
(** A passing HELPER_TEST_ASSERT, CHECK, SAME, SAME_AS, EQUAL, EQUALS, NOT_EQUAL or LESS has the effects of
    one evaluation of its condition, and no other but the output; one whose condition throws lets the
    exception pass; a failing HELPER_TEST_ASSERT has the effects of one evaluation and of counting the
    failure.  The expressions do not mention the names used by the macros. *)
Theorem C68_passing_once_partial : forall W (call : nat -> list Z -> W -> callres W) ltr l k c s v s1,
  condition k = Some c -> (forall z, In z locals -> mentions z c = false) ->
  eval call ltr c s = Norm v s1 -> truth v = expected k ->
  exists s', exec call ltr (check_stmt l k) s = Norm tt s' /\ same s1 s'.
Proof. exact (fun W call ltr l k c s v s1 => passing_once call ltr l k c s v s1). Qed.
Theorem C68_throwing_once_partial : forall W (call : nat -> list Z -> W -> callres W) ltr l k c s e s1,
  condition k = Some c -> (forall z, In z locals -> mentions z c = false) ->
  eval call ltr c s = Thrown e s1 ->
  exists s', exec call ltr (check_stmt l k) s = Thrown e s' /\ same s1 s'.
Proof. exact (fun W call ltr l k c s e s1 => throwing_once call ltr l k c s e s1). Qed.
Theorem C68_assert_once_partial : forall W (call : nat -> list Z -> W -> callres W) ltr l t e s s1 n,
  (forall z, In z locals -> mentions z e = false) -> eval call ltr e s = Norm 0 s1 ->
  counter "HELPER_TEST_FAILURES" s1 n -> n + 1 < 2 ^ 31 ->
  exists s', exec call ltr (check_stmt l (KAssert t e)) s = Norm tt s' /\ one_more s1 s'.
Proof. exact (fun W call ltr l t e s s1 n Hm He Hn L => assert_once call ltr l t e s s1 Hm He (ex_intro _ n (conj Hn L))). Qed.
Theorem C68_within_once_partial : forall W (call : nat -> list Z -> W -> callres W) ltr l t1 t2 e r tol s d s1 t s2,
  (forall z, In z locals -> mentions z e = false /\ mentions z r = false /\ mentions z tol = false) ->
  eval call ltr (ESub e r) s = Norm d s1 -> eval call ltr tol s1 = Norm t s2 -> Z.abs d <= t ->
  exists s', exec call ltr (check_stmt l (KWithin t1 t2 e r tol)) s = Norm tt s' /\ same s2 s'.
Proof. exact (fun W call ltr l t1 t2 e r tol s d s1 t s2 => within_once call ltr l t1 t2 e r tol s d s1 t s2). Qed.
Example C68_example_passing :
  calls (exec demo_call true (check_stmt here (KEquals (chars "next()") (chars "1") next (ELit 1))) (start [] 0)) = Some 1 /\
  calls (exec demo_call true (check_stmt here (KNotEqual (chars "next()") (chars "2") next (ELit 2))) (start [] 0)) = Some 1 /\
  calls (exec demo_call true (check_stmt here (KWithin (chars "next()") (chars "2") next (ELit 2) (ELit 3))) (start [] 0)) = Some 1.
Proof. repeat split. Qed.
Example C68_example_assert :
  calls (exec demo_call true (check_stmt here (KAssert (chars "next()-1") (ESub next (ELit 1)))) (start [] 0)) = Some 1.
Proof. reflexivity. Qed.
Print Assumptions C68_evaluated_once_refuted.
Print Assumptions C68_passing_once_partial.
Print Assumptions C68_throwing_once_partial.
Print Assumptions C68_assert_once_partial.
Print Assumptions C68_within_once_partial.

(** All evaluations of every check, whatever its expressions do: the effects of a check are, but for the
    output, those of the evaluations listed in [effects] (TestSpec.v): its condition once, the expressions
    printed before it, and after it those printed when it holds, or the count of the failure and those
    printed when it does not hold. *)
Theorem C68_all_evaluations_partial : forall W (call : nat -> list Z -> W -> callres W) ltr l k s,
  (forall e, In e (check_args k) -> forall x, In x locals -> mentions x e = false) ->
  agree (exec call ltr (check_stmt l k) s) (effects call ltr k s).
Proof. exact (fun W call ltr l k s => check_effects call ltr l k s). Qed.
Example C68_example_result_compare :
  calls (exec demo_call true (check_stmt here (KResultCompare (chars "next()") (chars "7") next CLt (ELit 7))) (start [] 0)) = Some 1 /\
  calls (exec demo_call true (check_stmt here (KResultCompare (chars "next()") (chars "7") next CGt (ELit 7))) (start [] 0)) = Some 1 /\
  calls (effects demo_call true (KEquals (chars "next()") (chars "7") next (ELit 7)) (start [] 0)) = Some 3.
Proof. repeat split. Qed.
Print Assumptions C68_all_evaluations_partial.

(** C75 (checks report failures on cerr, and nothing else): a check that is completed writes nothing to
    cerr if its condition holds; otherwise it writes a text which begins with "ERROR: FILE:LINE: FUNCTION: "
    ("WARNING: " for HELPER_TEST_CHECK_WARN) and ends with a newline.  The expressions of the check do not
    mention the names used by the macros. *)
Theorem C75_reports : forall W (call : nat -> list Z -> W -> callres W) ltr l k s s',
  (forall e, In e (check_args k) -> forall x, In x locals -> mentions x e = false) ->
  exec call ltr (check_stmt l k) s = Norm tt s' -> reports call ltr l k s s'.
Proof. exact (fun W call ltr l k s s' => check_reports call ltr l k s s'). Qed.
Definition errors {A} (m : outc (st Z) A) : option text := match m with Norm _ s => Some (s_err s) | _ => None end.
Example C75_example :
  errors (exec demo_call true (check_stmt here (KEquals (chars "x") (chars "7") vx (ELit 7))) (start demo_vars 0))
  = Some (chars "ERROR: t.cpp:7: main: Equality `x == 7' failed;" ++ newline ++ chars "  x=5" ++ newline ++ chars "  7=7" ++ newline) /\
  errors (exec demo_call true (check_stmt here (KEquals (chars "x") (chars "5") vx (ELit 5))) (start demo_vars 0)) = Some [] /\
  errors (exec demo_call true (check_stmt here (KCheckWarn (chars "x") (chars "7") vx (ELit 7))) (start demo_vars 0))
  = Some (chars "WARNING: t.cpp:7: main: Check `x==7' failed; obtained 5" ++ newline).
Proof. repeat split. Qed.
Print Assumptions C75_reports.

(** C76 (a failing construction is a failed check, and testing goes on):
      HELPER_TEST_DECLARE, HELPER_TEST_NAMED_CONSTRUCT and HELPER_TEST_ASSIGN_CONSTRUCT count a construction
      that throws as a failure and go on; otherwise they declare the variable, evaluating the initialiser
      once.
    Refuted: after the trial construction inside try, the macros construct the variable again outside it.
    For every initialiser that always throws, none of them ever completes. *)
Theorem C76_failing_construction_refuted : forall W (call : nat -> list Z -> W -> callres W) ltr l cls x txt c m s,
  In m [HELPER_TEST_DECLARE l cls x c; HELPER_TEST_NAMED_CONSTRUCT l cls x txt c; HELPER_TEST_ASSIGN_CONSTRUCT l cls x txt c] ->
  mentions x c = false -> (forall s, exists e s', eval call ltr c s = Thrown e s') ->
  forall s', exec call ltr m s <> Norm tt s'.
Proof. exact (fun W call ltr l cls x txt c m s => construction_never_completes call ltr l cls x txt c m s). Qed.
(** What they do: but for the output, a trial construction whose failure is counted and whose object is
    thrown away, followed by the plain declaration. *)
Theorem C76_two_constructions_partial : forall W (call : nat -> list Z -> W -> callres W) ltr l cls x txt c m s,
  In m [HELPER_TEST_DECLARE l cls x c; HELPER_TEST_NAMED_CONSTRUCT l cls x txt c; HELPER_TEST_ASSIGN_CONSTRUCT l cls x txt c] ->
  mentions x c = false ->
  agree (exec call ltr m s) (obind (attempt call ltr c s) (fun _ s1 => exec call ltr (SDecl false x c) s1)).
Proof. exact (fun W call ltr l cls x txt c m s => construction_macros call ltr l cls x txt c m s). Qed.
(** HELPER_TEST_CONSTRUCT and HELPER_TEST_DEFAULT_CONSTRUCT are the plain declaration. *)
Theorem C76_plain_construction_partial : forall W (call : nat -> list Z -> W -> callres W) ltr cls x txt c m s,
  In m [HELPER_TEST_CONSTRUCT cls x txt c; HELPER_TEST_DEFAULT_CONSTRUCT cls x c] ->
  agree (exec call ltr m s) (exec call ltr (SDecl false x c) s).
Proof. exact (fun W call ltr cls x txt c m s => plain_macros call ltr cls x txt c m s). Qed.
Definition observed {A} (m : outc (st Z) A) : option (bool * Z * option cell * option cell) :=
  match m with
  | Norm _ s => Some (true, s_world s, lookup "HELPER_TEST_FAILURES" (s_frames s), lookup "z" (s_frames s))
  | Thrown _ s => Some (false, s_world s, lookup "HELPER_TEST_FAILURES" (s_frames s), lookup "z" (s_frames s))
  | _ => None
  end.
(** function 0 fails at its first call only; function 2 always fails *)
Definition flaky_call (f : nat) (l : list Z) (w : Z) : callres Z :=
  match f with O => if w =? 0 then CThrow (XStd runtime_error []) 1 else CRet (10 * w) (w + 1) | _ => demo_call f l w end.
Example C76_example :
  (* the variable is constructed twice; its value is that of the second construction *)
  observed (exec demo_call true (HELPER_TEST_NAMED_CONSTRUCT here "int" "z" (chars "next()") next) (start [] 0))
  = Some (true, 2, Some (CVal 0), Some (CVal 2)) /\
  (* the failure of the first construction is counted *)
  observed (exec flaky_call true (HELPER_TEST_DECLARE here "int" "z" next) (start [] 0))
  = Some (true, 2, Some (CVal 1), Some (CVal 10)) /\
  (* a construction that always fails is counted and then leaves the macro by an exception *)
  observed (exec demo_call true (HELPER_TEST_ASSIGN_CONSTRUCT here "int" "z" (chars "two()") (ECall1 2 vx)) (start demo_vars 0))
  = Some (false, 0, Some (CVal 1), Some CIndet) /\
  observed (exec demo_call true (HELPER_TEST_CONSTRUCT "int" "z" (chars "(next())") next) (start [] 0))
  = Some (true, 1, Some (CVal 0), Some (CVal 1)).
Proof. repeat split. Qed.
Print Assumptions C76_failing_construction_refuted.
Print Assumptions C76_two_constructions_partial.
Print Assumptions C76_plain_construction_partial.

(** C77 (static checks count a failure exactly when the compile-time condition is false):
    HELPER_TEST_STATIC_ASSERT, HELPER_TEST_CONCEPT, HELPER_TEST_SAME_TYPE and HELPER_TEST_EQUIVALENT_TYPE have
    no effect but output if the condition is true, and otherwise that of counting one failure; they write to
    cerr only in the second case, a report beginning with the place of the check. *)
Theorem C77_static_checks : forall W (call : nat -> list Z -> W -> callres W) ltr l cls txt first b m s,
  In m [HELPER_TEST_STATIC_ASSERT l cls txt b; HELPER_TEST_CONCEPT l cls txt b;
        HELPER_TEST_SAME_TYPE l cls txt first b; HELPER_TEST_EQUIVALENT_TYPE l cls txt first b] ->
  agree (exec call ltr m s)
        (if b then Norm tt s else obind (eval call ltr (EIncr "HELPER_TEST_FAILURES") s) (fun _ s' => Norm tt s')).
Proof. exact (fun W call ltr l cls txt first b m s => static_macros call ltr l cls txt first b m s). Qed.
Theorem C77_static_reports : forall W (call : nat -> list Z -> W -> callres W) ltr l cls txt first b m s s',
  In m [HELPER_TEST_STATIC_ASSERT l cls txt b; HELPER_TEST_CONCEPT l cls txt b;
        HELPER_TEST_SAME_TYPE l cls txt first b; HELPER_TEST_EQUIVALENT_TYPE l cls txt first b] ->
  exec call ltr m s = Norm tt s' ->
  if b then s_err s' = s_err s else exists t, s_err s' = s_err s ++ heading "ERROR: " l ++ t ++ newline.
Proof. exact (fun W call ltr l cls txt first b m s s' => static_macros_err call ltr l cls txt first b m s s'). Qed.
Example C77_example :
  observed (exec demo_call true (HELPER_TEST_SAME_TYPE here (chars "T") (chars "int,long") (chars "int") false) (start demo_vars 0))
  = Some (true, 0, Some (CVal 1), None) /\
  errors (exec demo_call true (HELPER_TEST_SAME_TYPE here (chars "T") (chars "int,long") (chars "int") false) (start demo_vars 0))
  = Some (chars "ERROR: t.cpp:7: main: T: Static assertion `Same<int,long>' failed. First type is int" ++ newline) /\
  observed (exec demo_call true (HELPER_TEST_CONCEPT here (chars "T") (chars "C<int>") true) (start demo_vars 0))
  = Some (true, 0, Some (CVal 0), None) /\
  errors (exec demo_call true (HELPER_TEST_CONCEPT here (chars "T") (chars "C<int>") true) (start demo_vars 0)) = Some [].
Proof. repeat split. Qed.
Print Assumptions C77_static_checks.
Print Assumptions C77_static_reports.
