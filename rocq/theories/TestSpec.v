(** TestSpec.v -- what a test program means: which of its checks fail. *)
From Verif Require Import Base StreamModel MacroModel MacroSpec TestModel.
From Coq Require Import String.
Open Scope list_scope.
Open Scope Z_scope.

(** expressions a user can write: everything but the increments and the printing comparison that only
    occur in the macros *)
Fixpoint is_user (e : expr) : bool :=
  match e with
  | ELit _ | EVar _ => true
  | EBool e | ENot e | EAbs e | ECall1 _ e | EAssign _ e => is_user e
  | EAnd e1 e2 | ECmp _ e1 e2 | ESub e1 e2 | ECall2 _ e1 e2 => is_user e1 && is_user e2
  | EIncr _ | ECheck _ _ => false
  end.
(** over the variables [vs] *)
Definition user_expr (vs : list name) (e : expr) : Prop :=
  is_user e = true /\ forall x, mentions x e = true -> In x vs.

(** names of the locals of the macros and of the globals of test.hpp *)
Definition locals : list name := ["ok"; "result"; "error"]%string.
Definition counters : list name := ["HELPER_TEST_FAILURES"; "HELPER_TEST_SKIPPED"; "test_case_counter"]%string.

Section Spec.
Context {W : Type} (call : nat -> list Z -> W -> callres W) (ltr : bool).
Notation S := (st W).

(** the value of an expression, if it has one *)
Definition value1 (e : expr) (s : S) : option Z := match eval call ltr e s with Norm v _ => Some v | _ => None end.
(** the values of two operands, each evaluated once, in one order or the other *)
Definition value2 (left_first : bool) (e x : expr) (s : S) : option (Z * Z) :=
  if left_first then match eval call ltr e s with
              | Norm a s1 => match eval call ltr x s1 with Norm b _ => Some (a, b) | _ => None end
              | _ => None
              end
  else match eval call ltr x s with
       | Norm b s1 => match eval call ltr e s1 with Norm a _ => Some (a, b) | _ => None end
       | _ => None
       end.
Definition value3 (e x tol : expr) (s : S) : option (Z * Z * Z) :=
  match eval call ltr (ESub e x) s, value2 ltr e x s with
  | Norm _ s1, Some (a, b) => match eval call ltr tol s1 with Norm t _ => Some (a, b, t) | _ => None end
  | _, _ => None
  end.
Definition wrong1 (o : option Z) (good : Z -> bool) : bool := match o with Some v => negb (good v) | None => false end.
Definition wrong2 (o : option (Z * Z)) (good : Z -> Z -> bool) : bool :=
  match o with Some (a, b) => negb (good a b) | None => false end.
Definition nonzero (z : Z) : bool := negb (z =? 0).

(** Does a check executed in state [s] fail, i.e. have its expressions values for which the condition
    checked does not hold?  HELPER_TEST_CHECK_WARN never fails. *)
Definition failed (k : check) (s : S) : bool :=
  match k with
  | KAssert _ e => wrong1 (value1 e s) nonzero
  | KCheckWarn _ _ _ _ => false
  | KCheck _ _ e x | KEqual _ _ e x | KEquals _ _ e x => wrong2 (value2 ltr e x s) Z.eqb
  | KNotEqual _ _ e x => wrong2 (value2 ltr e x s) (fun a b => negb (a =? b))
  | KSame f _ _ e x | KSameAs f _ _ e x => wrong1 (value1 (ECall2 f e x) s) nonzero
  | KWithin _ _ e x tol => match value3 e x tol s with Some (a, b, t) => negb (Z.abs (a - b) <=? t) | None => false end
  | KLess _ _ e x => wrong2 (value2 ltr e x s) Z.ltb
  | KUnary p _ _ a => wrong1 (value1 (ECall1 p a) s) nonzero
  | KBinary p _ _ _ a b => wrong1 (value1 (ECall2 p a b) s) nonzero
  | KCompare _ _ e c x => wrong2 (value2 ltr e x s) (compare_vals c)
  | KResultCompare _ _ e c x => wrong2 (value2 true e x s) (compare_vals c)
  | KStatic _ _ _ b => negb b
  end.

Definition thrown {A} (m : outc S A) : option excn := match m with Thrown x _ => Some x | _ => None end.
Definition zif (b : bool) : Z := if b then 1 else 0.
(** number of failed checks during the execution of a program from state [s] *)
Fixpoint tally (p : prog) (s : S) : Z :=
  match p with
  | PCheck _ k => zif (failed k s)
  | PDo p q => tally p s + match exec call ltr (prog_stmt p) s with Norm _ s' => tally q s' | _ => 0 end
  | PClass _ p | PExecute _ p => tally p s
  (* left by an exception *)
  | PCall _ _ p | PTry _ _ p =>
      tally p s + match thrown (exec call ltr (prog_stmt p) s) with Some _ => 1 | None => 0 end
  | PEvaluate _ _ e | PAssign _ _ _ e => match thrown (eval call ltr e s) with Some _ => 1 | None => 0 end
  (* no exception, or not the expected one *)
  | PThrows _ _ _ p error =>
      tally p s + match thrown (exec call ltr (prog_stmt p) s) with Some x => zif (negb (error x)) | None => 1 end
  | PFail _ _ p => tally p s + match thrown (exec call ltr (prog_stmt p) s) with Some _ => 0 | None => 1 end
  | PUser _ | PPrint _ _ | PSkip _ | PWarn _ | PNotify _ | PComment _ | PTitle _ => 0
  end.

(** an expression without effects *)
Definition pure (e : expr) : Prop :=
  forall s, match eval call ltr e s with Norm _ s' | Thrown _ s' => s' = s | Undef _ | Ill => True end.

(** programs over the variables [vs]; the expressions of HELPER_TEST_COMPARE and of the predicate checks,
    which are evaluated once more for printing, have no effects *)
Definition wf_check (vs : list name) (k : check) : Prop :=
  match k with
  | KAssert _ e => user_expr vs e
  | KCheckWarn _ _ e x | KCheck _ _ e x | KSame _ _ _ e x | KSameAs _ _ _ e x | KEqual _ _ e x
  | KNotEqual _ _ e x | KEquals _ _ e x | KLess _ _ e x => user_expr vs e /\ user_expr vs x
  | KWithin _ _ e x tol => user_expr vs e /\ user_expr vs x /\ user_expr vs tol
  | KUnary _ _ _ a => user_expr vs a /\ pure a
  | KBinary _ _ _ _ a b => (user_expr vs a /\ pure a) /\ user_expr vs b /\ pure b
  | KCompare _ _ e _ x => (user_expr vs e /\ pure e) /\ user_expr vs x /\ pure x
  | KResultCompare _ _ e _ x => user_expr vs e /\ user_expr vs x
  | KStatic _ _ _ _ => True
  end.
Fixpoint wf_prog (vs : list name) (p : prog) : Prop :=
  match p with
  | PCheck _ k => wf_check vs k
  | PUser e | PEvaluate _ _ e | PPrint _ e => user_expr vs e
  | PAssign _ x _ e => In x vs /\ user_expr vs e
  | PDo p q => wf_prog vs p /\ wf_prog vs q
  | PClass _ p | PCall _ _ p | PTry _ _ p | PExecute _ p | PThrows _ _ _ p _ | PFail _ _ p => wf_prog vs p
  | PSkip _ | PWarn _ | PNotify _ | PComment _ | PTitle _ => True
  end.
Fixpoint size (p : prog) : Z :=
  match p with
  | PDo p q => size p + size q
  | PClass _ p | PCall _ _ p | PTry _ _ p | PExecute _ p | PThrows _ _ _ p _ | PFail _ _ p => size p + 2
  | _ => 1
  end.

(** all exceptions thrown by the functions called are derived from std::exception *)
Definition only_std : Prop := forall f l w x w', call f l w = CThrow x w' -> is_std x = true.
(** the variables [vs] are integers *)
Definition scoped (vs : list name) (s : S) : Prop := forall x, In x vs -> exists z, lookup x (s_frames s) = Some (CVal z).
Definition counter (c : name) (s : S) (n : Z) : Prop := lookup c (s_frames s) = Some (CVal n).
Definition vars_ok (vs : list name) : Prop := forall x, In x vs -> ~ In x (locals ++ counters).

(** the same state but for the output *)
Definition same (s s' : S) : Prop := s_frames s' = s_frames s /\ s_statics s' = s_statics s /\ s_world s' = s_world s.
(** the condition of a check that looks at its expressions once if it holds *)
Definition condition (k : check) : option expr :=
  match k with
  | KAssert _ e => Some e
  | KCheckWarn _ _ e x | KCheck _ _ e x => Some (ECheck e x)
  | KSame f _ _ e x | KSameAs f _ _ e x => Some (EBool (ECall2 f e x))
  | KEqual _ _ e x | KEquals _ _ e x => Some (ECmp CEq e x)
  | KNotEqual _ _ e x => Some (ECmp CEq e x)
  | KLess _ _ e x => Some (ECmp CLt e x)
  | _ => None
  end.
(** the truth value of the condition for which the check is passed *)
Definition expected (k : check) : bool := match k with KNotEqual _ _ _ _ => false | _ => true end.
(** one more failure has been counted, and nothing else has changed but the output *)
Definition one_more (s s' : S) : Prop :=
  exists n, counter "HELPER_TEST_FAILURES" s n /\
  s_frames s' = assign "HELPER_TEST_FAILURES" (CVal (n + 1)) (s_frames s) /\ s_statics s' = s_statics s /\ s_world s' = s_world s.
(** the counters are integers and can be increased [n] times without overflow *)
Definition room (s : S) (n : Z) : Prop := forall c, In c counters -> exists k, counter c s k /\ k + n < 2 ^ 31.
(** the state at the start of main, with the user's variables [l] *)
Definition start (l : list (name * Z)) (w : W) : S :=
  mkSt [map (fun q => (fst q, CVal (snd q))) l; globals] (fun _ => None) [] [] w.
Definition ended (m : outc S unit) (s' : S) : Prop := m = Norm tt s' \/ exists x, m = Thrown x s'.
(** ** What a check evaluates *)
(** every argument of a check *)
Definition check_args (k : check) : list expr :=
  match k with
  | KAssert _ e => [e]
  | KCheckWarn _ _ e x | KCheck _ _ e x | KSame _ _ _ e x | KSameAs _ _ _ e x | KEqual _ _ e x
  | KNotEqual _ _ e x | KEquals _ _ e x | KLess _ _ e x | KCompare _ _ e _ x | KResultCompare _ _ e _ x => [e; x]
  | KWithin _ _ e x tol => [e; x; tol]
  | KUnary _ _ _ a => [a]
  | KBinary _ _ _ _ a b => [a; b]
  | KStatic _ _ _ _ => []
  end.
Fixpoint evals (l : list expr) (s : S) : outc S unit :=
  match l with [] => Norm tt s | e :: l' => obind (eval call ltr e s) (fun _ s' => evals l' s') end.
(** evaluation of the condition; the operands of WITHIN and RESULT_COMPARE have a fixed order *)
Definition decides (k : check) (s : S) : outc S Z :=
  match k with
  | KAssert _ e => eval call ltr e s
  | KCheckWarn _ _ e x | KCheck _ _ e x | KEqual _ _ e x | KNotEqual _ _ e x | KEquals _ _ e x =>
      eval call ltr (ECmp CEq e x) s
  | KSame f _ _ e x | KSameAs f _ _ e x => eval call ltr (ECall2 f e x) s
  | KWithin _ _ e x tol => obind (eval call ltr (ESub e x) s) (fun d s1 =>
      obind (eval call ltr tol s1) (fun t s2 => Norm (b2z (Z.abs d <=? t)) s2))
  | KLess _ _ e x => eval call ltr (ECmp CLt e x) s
  | KUnary p _ _ a => eval call ltr (ECall1 p a) s
  | KBinary p _ _ _ a b => eval call ltr (ECall2 p a b) s
  | KCompare _ _ e c x => eval call ltr (ECmp c e x) s
  | KResultCompare _ _ e c x => obind (eval call ltr e s) (fun a s1 =>
      obind (eval call ltr x s1) (fun b s2 => Norm (b2z (compare_vals c a b)) s2))
  | KStatic _ _ _ b => Norm (b2z b) s
  end.
(** further evaluations, for printing: before the condition, after it if it holds, after it if it does not *)
Definition before (k : check) : list expr :=
  match k with
  | KUnary _ _ _ a => [a]
  | KBinary _ _ _ _ a b => [a; b]
  | KCompare _ _ e _ _ => [e]
  | _ => []
  end.
Definition when_passed (k : check) : list expr :=
  match k with KCompare _ _ _ _ x | KResultCompare _ _ _ _ x => [x] | _ => [] end.
Definition when_failed (k : check) : list expr :=
  match k with
  | KAssert _ _ | KStatic _ _ _ _ => []
  | KCheckWarn _ _ e x | KCheck _ _ e x => [x; e]
  | KSame _ _ _ e x | KEqual _ _ e x | KNotEqual _ _ e x => [e; x; e; x]
  | KSameAs _ _ _ e x | KEquals _ _ e x => [e; e; x]
  | KWithin _ _ e x tol => [e; x; tol; e; x; tol]
  | KLess _ _ e _ => [e; e]
  | KUnary _ _ _ a => [a]
  | KBinary _ _ _ _ a b => [a; b]
  | KCompare _ _ e _ x => [x; e; x]
  | KResultCompare _ _ _ _ x => [x]
  end.
Definition count (k : check) (s : S) : outc S Z :=
  match k with KCheckWarn _ _ _ _ => Norm 0 s | _ => eval call ltr (EIncr "HELPER_TEST_FAILURES") s end.
(** all effects of a check but the output *)
Definition effects (k : check) (s : S) : outc S unit :=
  obind (evals (before k) s) (fun _ s0 => obind (decides k s0) (fun v s1 =>
  if Bool.eqb (truth v) (expected k) then evals (when_passed k) s1
  else obind (count k s1) (fun _ s2 => evals (when_failed k) s2))).
(** the same outcome but for the output *)
Definition agree {A} (m m' : outc S A) : Prop :=
  match m, m' with
  | Norm a s, Norm a' s' => a = a' /\ same s s'
  | Thrown x s, Thrown x' s' => x = x' /\ same s s'
  | Undef r, Undef r' => r = r'
  | Ill, Ill => True
  | _, _ => False
  end.
(** the beginning of a report *)
Definition heading (word : String.string) (l : loc) : text :=
  chars word ++ l_file l ++ chars ":" ++ int_text (l_line l) ++ chars ": " ++ l_func l ++ chars ": ".
(** From [s] to [s'], nothing has been written to cerr if the check is passed; otherwise a text that begins
    with the place of the check and ends with a newline. *)
Definition reports (l : loc) (k : check) (s s' : S) : Prop :=
  exists s0 v s1, evals (before k) s = Norm tt s0 /\ decides k s0 = Norm v s1 /\
  if Bool.eqb (truth v) (expected k) then s_err s' = s_err s
  else exists t, s_err s' =
    s_err s ++ heading (match k with KCheckWarn _ _ _ _ => "WARNING: " | _ => "ERROR: " end) l ++ t ++ newline.
(** ** Constructions *)
(** an object is constructed from [c] and thrown away; a failure is counted *)
Definition attempt (c : expr) (s : S) : outc S unit :=
  match eval call ltr c s with
  | Norm _ s1 => Norm tt s1
  | Thrown _ s1 => obind (eval call ltr (EIncr "HELPER_TEST_FAILURES") s1) (fun _ s2 => Norm tt s2)
  | Undef r => Undef r
  | Ill => Ill
  end.
End Spec.
Definition run {W} (call : nat -> list Z -> W -> callres W) (ltr : bool) (l : list (name * Z)) (p : prog) (w : W) : ending :=
  run_main call ltr (map (fun q => (fst q, CVal (snd q))) l) p w.
