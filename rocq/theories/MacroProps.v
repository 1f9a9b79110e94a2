(** MacroProps.v -- properties C63-C65, C72 and C73 of include/macros.hpp. *)
From Verif Require Import Base StreamModel MacroModel MacroSpec MacroProofs MacroReport.
From Coq Require Import String.
Open Scope list_scope.
Open Scope Z_scope.

(** C63 (assertion macros throw exactly when the condition is false).  [asserts m e head extra] says that
    [m] evaluates [e] once, does nothing else if it is true, and otherwise throws std::runtime_error with
    the text [head] (location and condition) followed by the user's message [extra].  The name of the
    macro's local variable must not occur in the condition. *)
Theorem C63_plain_macros_partial : forall W (call : nat -> list Z -> W -> callres W) ltr l txt e,
  mentions "assertion_result" e = false ->
  asserts call ltr (HELPER_ASSERT l txt e) e (report l "Assertion" txt) [] /\
  asserts call ltr (HELPER_DEBUG_ASSERT false l txt e) e (report l "Assertion" txt) [] /\
  asserts call ltr (HELPER_PRECONDITION l txt e) e (report l "Precondition" txt) [].
Proof.
  exact (fun W call ltr l txt e H => conj (asserts_plain call ltr _ e l "Assertion" txt H)
    (conj (asserts_plain call ltr _ e l "Assertion" txt H) (asserts_plain call ltr _ e l "Precondition" txt H))).
Qed.
Theorem C63_debug_precondition_partial : forall W (call : nat -> list Z -> W -> callres W) ltr l txt e,
  mentions "result" e = false ->
  asserts call ltr (HELPER_DEBUG_PRECONDITION false l txt e) e (report l "Precondition" txt) [].
Proof. exact (fun W call ltr l txt e H => asserts_plain call ltr _ e l "Precondition" txt H). Qed.
Theorem C63_message_macros_partial : forall W (call : nat -> list Z -> W -> callres W) ltr l txt e msg,
  mentions "assertion_result" e = false -> msg_mentions "assertion_result" msg = false -> msg_mentions "ss" msg = false ->
  asserts call ltr (HELPER_ASSERT_MSG l txt e msg) e (report_msg l "Assertion" txt) msg /\
  asserts call ltr (HELPER_DEBUG_ASSERT_MSG false l txt e msg) e (report_msg l "Assertion" txt) msg /\
  asserts call ltr (HELPER_PRECONDITION_MSG l txt e msg) e (report_msg l "Precondition" txt) msg.
Proof.
  exact (fun W call ltr l txt e msg H1 H2 H3 => conj (asserts_msg call ltr _ e l "Assertion" txt msg H1 H2 H3)
    (conj (asserts_msg call ltr _ e l "Assertion" txt msg H1 H2 H3) (asserts_msg call ltr _ e l "Precondition" txt msg H1 H2 H3))).
Qed.
(** HELPER_ASSERT_EQUAL on operands whose evaluation has no effect *)
Theorem C63_assert_equal_partial : forall W (call : nat -> list Z -> W -> callres W) ltr l t1 t2 e1 e2 s a b,
  mentions "assertion_result" e1 = false -> mentions "assertion_result" e2 = false ->
  mentions "ss" e1 = false -> mentions "ss" e2 = false ->
  eval call ltr e1 s = Norm a s -> eval call ltr e2 s = Norm b s ->
  exec call ltr (HELPER_ASSERT_EQUAL l t1 t2 e1 e2) s
  = if a =? b then Norm tt s
    else Thrown (XStd runtime_error (report_msg l "Assertion" (t1 ++ chars "==" ++ t2) ++ int_text a ++ chars " != " ++ int_text b)) s.
Proof. exact (fun W call ltr l t1 t2 e1 e2 s a b => assert_equal_pure call ltr l t1 t2 e1 e2 s a b). Qed.
(** HELPER_ASSERT_EQUAL in general: the condition is evaluated once; if it is false, both operands are
    evaluated once more for the message *)
Theorem C63_assert_equal_evaluations : forall W (call : nat -> list Z -> W -> callres W) ltr l t1 t2 e1 e2,
  mentions "assertion_result" e1 = false -> mentions "assertion_result" e2 = false ->
  mentions "ss" e1 = false -> mentions "ss" e2 = false ->
  asserts call ltr (HELPER_ASSERT_EQUAL l t1 t2 e1 e2) (ECmp CEq e1 e2)
    (report_msg l "Assertion" (t1 ++ chars "==" ++ t2)) [PExp e1; lit " != "; PExp e2].
Proof. exact (fun W call ltr l t1 t2 e1 e2 => assert_equal_exact call ltr l t1 t2 e1 e2). Qed.
Theorem C63_ndebug : forall W (call : nat -> list Z -> W -> callres W) ltr l txt e msg s,
  exec call ltr (HELPER_DEBUG_ASSERT true l txt e) s = Norm tt s /\
  exec call ltr (HELPER_DEBUG_ASSERT_MSG true l txt e msg) s = Norm tt s /\
  exec call ltr (HELPER_DEBUG_PRECONDITION true l txt e) s = Norm tt s.
Proof. intros; cbn; rewrite pop_push; auto. Qed.

(** C63 fails for conditions naming the macro's local variable: a user's variable [assertion_result] (or
    [result] for HELPER_DEBUG_PRECONDITION) is hidden and the uninitialised local is read instead. *)
Theorem C63_captured_name_refuted : forall W (call : nat -> list Z -> W -> callres W) ltr l txt msg s,
  exec call ltr (HELPER_ASSERT l txt (EVar "assertion_result")) s = Undef UbUninit /\
  exec call ltr (HELPER_ASSERT_MSG l txt (EVar "assertion_result") msg) s = Undef UbUninit /\
  exec call ltr (HELPER_PRECONDITION l txt (EVar "assertion_result")) s = Undef UbUninit /\
  exec call ltr (HELPER_DEBUG_PRECONDITION false l txt (EVar "result")) s = Undef UbUninit.
Proof. intros. repeat split; apply assertion_captured. Qed.

(** a world with one counter: function 0 is next(), which returns the next number; function 1 throws *)
Definition demo_call (f : nat) (l : list Z) (w : Z) : callres Z :=
  match f with O => CRet (w + 1) (w + 1) | _ => CThrow (XStd 7 (chars "bad")) w end.
Definition demo_next : expr := ECall1 0 (ELit 0).
Definition demo_loc : loc := mkLoc (chars "a.cpp") 12 (chars "f").
Definition demo_state : st Z := mkSt [[("x"%string, CVal 5); ("assertion_result"%string, CVal 1)]] (fun _ => None) [] [] 0.
(** C63 fails for HELPER_ASSERT_EQUAL with operands that have side effects: HELPER_ASSERT_EQUAL(next(),5)
    calls next() twice and reports "2 != 5" although the value compared was 1. *)
Theorem C63_assert_equal_refuted : forall ltr,
  exec demo_call ltr (HELPER_ASSERT_EQUAL demo_loc (chars "next()") (chars "5") demo_next (ELit 5)) demo_state
  = Thrown (XStd runtime_error (report_msg demo_loc "Assertion" (chars "next()==5") ++ chars "2 != 5"))
      (with_world 2 demo_state).
Proof. intros []; reflexivity. Qed.

Example C63_example_true :
  exec demo_call true (HELPER_ASSERT demo_loc (chars "next()==1") (ECmp CEq demo_next (ELit 1))) demo_state
  = Norm tt (with_world 1 demo_state).
Proof. reflexivity. Qed.
Example C63_example_false :
  exec demo_call true (HELPER_ASSERT demo_loc (chars "x==next()") (ECmp CEq (EVar "x") demo_next)) demo_state
  = Thrown (XStd runtime_error (chars "std::runtime_error in a.cpp:12: f: Assertion `x==next()' failed.")) (with_world 1 demo_state).
Proof. reflexivity. Qed.
Example C63_example_msg :
  exec demo_call true (HELPER_PRECONDITION_MSG demo_loc (chars "x<2") (ECmp CLt (EVar "x") (ELit 2)) [lit "x is "; PExp (EVar "x")]) demo_state
  = Thrown (XStd runtime_error (chars "std::runtime_error in a.cpp:12: f: Precondition `x<2' failed." ++ newline ++ chars "  x is 5")) demo_state.
Proof. reflexivity. Qed.
Example C63_example_throwing_condition :
  exec demo_call true (HELPER_ASSERT demo_loc (chars "f()") (ECall1 1 (ELit 0))) demo_state = Thrown (XStd 7 (chars "bad")) demo_state.
Proof. reflexivity. Qed.
Example C63_example_and :
  exec demo_call true (HELPER_ASSERT demo_loc (chars "x<3 && next()") (EAnd (ECmp CLt (EVar "x") (ELit 3)) demo_next)) demo_state
  = Thrown (XStd runtime_error (chars "std::runtime_error in a.cpp:12: f: Assertion `x<3 && next()' failed.")) demo_state /\
  exec demo_call true (HELPER_ASSERT demo_loc (chars "x<9 && next()") (EAnd (ECmp CLt (EVar "x") (ELit 9)) demo_next)) demo_state
  = Norm tt (with_world 1 demo_state).
Proof. split; reflexivity. Qed.
Example C63_example_equal :
  exec demo_call false (HELPER_ASSERT_EQUAL demo_loc (chars "x") (chars "6") (EVar "x") (ELit 6)) demo_state
  = Thrown (XStd runtime_error (chars "std::runtime_error in a.cpp:12: f: Assertion `x==6' failed." ++ newline ++ chars "  5 != 6")) demo_state.
Proof. reflexivity. Qed.
Print Assumptions C63_plain_macros_partial.
Print Assumptions C63_debug_precondition_partial.
Print Assumptions C63_message_macros_partial.
Print Assumptions C63_assert_equal_partial.
Print Assumptions C63_assert_equal_evaluations.
Print Assumptions C63_ndebug.
Print Assumptions C63_captured_name_refuted.
Print Assumptions C63_assert_equal_refuted.

(** C64 (HELPER_WARN_ONCE and HELPER_DEPRECATED report once per call site): any sequence of executions of
    any number of occurrences, each in a scope of its own, writes to cerr exactly the lines of the first
    execution of each occurrence, in order, and changes nothing else but the flags. *)
Theorem C64_once_per_site : forall W (call : nat -> list Z -> W -> callres W) ltr (tr : list occurrence) (s : st W),
  (forall i, s_statics s i = None) ->
  exists t, exec call ltr (trace_stmt tr) s
    = Norm tt (mkSt (s_frames s) t (s_out s) (s_err s ++ List.concat (reported [] tr)) (s_world s)).
Proof. exact (fun W call ltr tr s H => trace_exec call ltr tr [] s H). Qed.
(** Messages with expressions: the first execution behaves as HELPER_WARN; a later one has no effect at
    all and does not evaluate the message. *)
Theorem C64_first_execution_warns : forall W (call : nat -> list Z -> W -> callres W) ltr site msg (s : st W),
  s_statics s site = None -> msg_mentions "first_time" msg = false ->
  exists t, (forall i, t i = if Nat.eqb i site then Some 0 else s_statics s i) /\
  exec call ltr (SBlock (HELPER_WARN_ONCE site msg)) s = exec call ltr (HELPER_WARN msg) (with_statics t s).
Proof. exact (fun W call ltr site msg s => once_first call ltr site msg s). Qed.
Theorem C64_later_executions_silent : forall W (call : nat -> list Z -> W -> callres W) ltr site msg (s : st W),
  s_statics s site = Some 0 -> exec call ltr (SBlock (HELPER_WARN_ONCE site msg)) s = Norm tt s.
Proof. exact (fun W call ltr site msg s => once_later call ltr site msg s). Qed.
Definition demo_out {A} (m : outc (st Z) A) : option text := match m with Norm _ s => Some (s_err s) | _ => None end.
Example C64_example :
  demo_out (exec demo_call true (trace_stmt [OWarn 3 (chars "a"); ODeprecated 4 (chars "f") (chars "g"); OWarn 3 (chars "b");
    ODeprecated 4 (chars "f") (chars "g"); OWarn 5 (chars "c")]) demo_state)
  = Some (chars "WARNING: a" ++ newline ++ chars "DEPRECATED: Function f is deprecated. g" ++ newline ++ chars "WARNING: c" ++ newline).
Proof. reflexivity. Qed.
Example C64_example_expression :
  match exec demo_call true (SSeq (SBlock (HELPER_WARN_ONCE 1 [PExp demo_next])) (SBlock (HELPER_WARN_ONCE 1 [PExp demo_next]))) demo_state with
  | Norm _ s => Some (s_err s, s_world s) | _ => None
  end = Some (chars "WARNING: 1" ++ newline, 1).
Proof. reflexivity. Qed.
Print Assumptions C64_once_per_site.
Print Assumptions C64_first_execution_warns.
Print Assumptions C64_later_executions_silent.

(** C65 (a guarded HELPER_WARN_ONCE reports only when its guard holds):
      [if(c) HELPER_WARN_ONCE(msg);] writes nothing when c is false.
    The macro expands to two statements and the [if] governs only the first: normally the result does not
    compile, and if a variable first_time is visible the message is written though c is false. *)
Theorem C65_guarded_does_not_compile_refuted : forall W (call : nat -> list Z -> W -> callres W) ltr c site msg fn txt (s : st W) v s1,
  eval call ltr c s = Norm v s1 -> mentions "first_time" c = false ->
  lookup "first_time" (s_frames s) = None -> lookup "first_time" (s_frames s1) = None ->
  exec call ltr (if_warn_once c site msg) s = Ill /\ exec call ltr (if_deprecated c site fn txt) s = Ill.
Proof.
  exact (fun W call ltr c site msg fn txt s v s1 E Hm H H1 =>
    conj (if_warn_once_ill call ltr c site msg s Hm H v s1 E H1) (if_deprecated_ill call ltr c site fn txt s H v s1 E H1)).
Qed.
Print Assumptions C65_guarded_does_not_compile_refuted.
(** A variable first_time of the caller, say a parameter, alone decides, and is changed. *)
Theorem C65_guard_ignored_refuted : forall W (call : nat -> list Z -> W -> callres W) ltr c site fn txt m (s s1 : st W) n,
  eval call ltr c s = Norm 0 s1 -> lookup "first_time" (s_frames s1) = Some (CVal n) ->
  let report t := Norm tt (if truth n then add_err t (with_frames (assign "first_time" (CVal 0) (s_frames s1)) s1) else s1) in
  exec call ltr (if_warn_once c site [PStr m]) s = report (chars "WARNING: " ++ m ++ newline) /\
  exec call ltr (if_deprecated c site fn txt) s = report (chars "DEPRECATED: Function " ++ fn ++ chars " is deprecated. " ++ txt ++ newline).
Proof. exact (fun W call ltr => if_once_false call ltr). Qed.
Print Assumptions C65_guard_ignored_refuted.
Definition demo_first : st Z := mkSt [[("first_time"%string, CVal 1)]] (fun _ => None) [] [] 0.
Example C65_example_ignored :
  eval demo_call true (ELit 0) demo_first = Norm 0 demo_first /\
  demo_out (exec demo_call true (if_warn_once (ELit 0) 1 [lit "late"]) demo_first) = Some (chars "WARNING: late" ++ newline) /\
  demo_out (exec demo_call true (if_deprecated (ELit 0) 1 (chars "f") (chars "late")) demo_first)
    = Some (chars "DEPRECATED: Function f is deprecated. late" ++ newline).
Proof. repeat split. Qed.
(** the second execution is silent, since the visible variable has been assigned *)
Example C65_example_once :
  demo_out (exec demo_call true (SSeq (if_deprecated (ELit 0) 1 (chars "f") (chars "late")) (if_deprecated (ELit 0) 1 (chars "f") (chars "late"))) demo_first)
    = Some (chars "DEPRECATED: Function f is deprecated. late" ++ newline).
Proof. reflexivity. Qed.
(** with braces around the macro the guard is respected *)
Theorem C65_braced_partial : forall W (call : nat -> list Z -> W -> callres W) ltr c site msg fn txt (s s1 : st W),
  eval call ltr c s = Norm 0 s1 ->
  exec call ltr (SIf c (HELPER_WARN_ONCE site msg) SSkip) s = Norm tt s1 /\
  exec call ltr (SIf c (HELPER_DEPRECATED site fn txt) SSkip) s = Norm tt s1.
Proof.
  exact (fun W call ltr c site msg fn txt s s1 E =>
    conj (braced_if_false call ltr c _ s s1 E) (braced_if_false call ltr c _ s s1 E)).
Qed.
Example C65_example : exec demo_call true (SIf (ECmp CLt (EVar "x") (ELit 3)) (HELPER_WARN_ONCE 1 [lit "m"]) SSkip) demo_state = Norm tt demo_state.
Proof. reflexivity. Qed.
Example C65_example_guard_true :
  demo_out (exec demo_call true (SIf (ECmp CLt (EVar "x") (ELit 9)) (HELPER_WARN_ONCE 1 [lit "m"]) SSkip) demo_state) = Some (chars "WARNING: m" ++ newline).
Proof. reflexivity. Qed.
Example C65_example_ill : exec demo_call true (if_warn_once (ELit 1) 1 [lit "m"]) demo_state = Ill.
Proof. reflexivity. Qed.
Print Assumptions C65_braced_partial.

(** C72 (HELPER_FAIL_MSG and HELPER_NOT_IMPLEMENTED always throw): HELPER_FAIL_MSG(msg) throws
    std::runtime_error with the location and the text of msg, whose expressions are evaluated once;
    HELPER_NOT_IMPLEMENTED throws std::runtime_error naming the function, and has no other effect.  The
    message does not mention the name of the macro's stream, ss. *)
Theorem C72_fail_msg : forall W (call : nat -> list Z -> W -> callres W) ltr l msg, msg_mentions "ss" msg = false ->
  fails_with call ltr (HELPER_FAIL_MSG l msg) (chars "std::runtime_error in " ++ l_file l ++ chars ":" ++ int_text (l_line l)
    ++ chars ": " ++ l_func l ++ chars ": " ++ chars "ErrorTag ") msg.
Proof. exact (fun W call ltr l msg H => fail_msg_always call ltr l msg H). Qed.
Theorem C72_not_implemented : forall W (call : nat -> list Z -> W -> callres W) ltr l s,
  exec call ltr (HELPER_NOT_IMPLEMENTED l) s = Thrown (XStd runtime_error (chars "Not implemented: " ++ l_func l)) s.
Proof. reflexivity. Qed.
(** a message that mentions a variable ss of the user finds the stream instead: it does not compile for
    an integer *)
Theorem C72_reserved_name : forall W (call : nat -> list Z -> W -> callres W) ltr l msg s,
  exec call ltr (HELPER_FAIL_MSG l (PExp (EVar "ss") :: msg)) s = Ill.
Proof. exact (fun W call ltr l msg s => fail_msg_captured call ltr l msg s). Qed.
Example C72_example :
  exec demo_call true (HELPER_FAIL_MSG demo_loc [lit "bad "; PExp demo_next; lit ", "; PExp (EVar "x")]) demo_state
  = Thrown (XStd runtime_error (chars "std::runtime_error in a.cpp:12: f: ErrorTag bad 1, 5")) (with_world 1 demo_state).
Proof. reflexivity. Qed.
Example C72_example_throwing :
  exec demo_call true (HELPER_FAIL_MSG demo_loc [PExp demo_next; PExp (ECall1 1 (ELit 0))]) demo_state
  = Thrown (XStd 7 (chars "bad")) (with_world 1 demo_state).
Proof. reflexivity. Qed.
Print Assumptions C72_fail_msg.
Print Assumptions C72_not_implemented.
Print Assumptions C72_reserved_name.

(** C73 (HELPER_NOTIFY, HELPER_WARN and HELPER_ERROR write one line to cerr): each of them evaluates the
    expressions of its message once, writes its heading, the text of the message and a newline to cerr, and
    has no other effect. *)
Theorem C73_reports : forall W (call : nat -> list Z -> W -> callres W) ltr msg,
  logs call ltr (HELPER_NOTIFY msg) (chars "NOTIFICATION: ") msg /\
  logs call ltr (HELPER_WARN msg) (chars "WARNING: ") msg /\
  logs call ltr (HELPER_ERROR msg) (chars "ERROR: ") msg.
Proof.
  exact (fun W call ltr msg => conj (report_exec call ltr "NOTIFICATION: " msg)
    (conj (report_exec call ltr "WARNING: " msg) (report_exec call ltr "ERROR: " msg))).
Qed.
Example C73_example :
  match exec demo_call true (SSeq (HELPER_NOTIFY [lit "n"; PExp demo_next]) (HELPER_ERROR [PExp demo_next; PExp (EVar "x")])) demo_state with
  | Norm _ s => Some (s_err s, s_out s, s_world s) | _ => None
  end = Some (chars "NOTIFICATION: n1" ++ newline ++ chars "ERROR: 25" ++ newline, [], 2).
Proof. reflexivity. Qed.
Example C73_example_throwing :
  exec demo_call true (HELPER_WARN [lit "a"; PExp (ECall1 1 (ELit 0)); lit "b"]) demo_state
  = Thrown (XStd 7 (chars "bad")) (add_err (chars "WARNING: a") demo_state).
Proof. reflexivity. Qed.
Print Assumptions C73_reports.
