(** LogSpec.v -- what the checks and blocks of test.hpp write to cout and cerr, as texts.  [v] gives the values
    of the expressions of a check. *)
From Verif Require Import Base StreamModel MacroModel MacroSpec TestModel TestSpec.
From Coq Require Import String.
Open Scope list_scope.
Open Scope Z_scope.

(** the comparison operators *)
Definition op_text (c : cmp) : text :=
  match c with CEq => chars "==" | CNe => chars "!=" | CLt => chars "<" | CLe => chars "<=" | CGt => chars ">" | CGe => chars ">=" end.
Definition op_holds (c : cmp) (a b : Z) : bool :=
  match c with
  | CEq => if Z.eq_dec a b then true else false
  | CNe => if Z.eq_dec a b then false else true
  | CLt => if Z_lt_dec a b then true else false
  | CLe => if Z_le_dec a b then true else false
  | CGt => if Z_gt_dec a b then true else false
  | CGe => if Z_ge_dec a b then true else false
  end.
Definition line (t : text) : text := t ++ newline.
Definition quoted (t : text) : text := chars "`" ++ t ++ chars "'".
Section Texts.
Context (v : expr -> Z) (l : loc).
Notation num e := (int_text (v e)).

(** is the check passed, given the values? *)
Definition passed (k : check) : bool :=
  match k with
  | KAssert _ e => truth (v e)
  | KCheckWarn _ _ e x | KCheck _ _ e x | KEqual _ _ e x | KEquals _ _ e x => v e =? v x
  | KNotEqual _ _ e x => negb (v e =? v x)
  | KSame f _ _ e x | KSameAs f _ _ e x => truth (v (ECall2 f e x))
  | KWithin _ _ e x tol => Z.abs (v e - v x) <=? v tol
  | KLess _ _ e x => v e <? v x
  | KUnary p _ _ a => truth (v (ECall1 p a))
  | KBinary p _ _ _ a b => truth (v (ECall2 p a b))
  | KCompare _ _ e c x | KResultCompare _ _ e c x => op_holds c (v e) (v x)
  | KStatic _ _ _ b => b
  end.
(** the announcement on cout *)
Definition announces (k : check) : text :=
  match k with
  | KAssert t _ => t ++ chars ": "
  | KCheckWarn t1 _ e _ | KCheck t1 _ e _ => t1 ++ chars ": " ++ num e
  | KSame _ t1 t2 _ _ => chars "same(" ++ t1 ++ chars "," ++ t2 ++ chars "): "
  | KSameAs _ t1 t2 _ _ | KEqual t1 t2 _ _ | KEquals t1 t2 _ _ => t1 ++ chars " == " ++ t2 ++ chars ": "
  | KNotEqual t1 t2 _ _ => t1 ++ chars " != " ++ t2 ++ chars ": "
  | KWithin t1 t2 _ _ _ => t1 ++ chars " ~ " ++ t2 ++ chars ": "
  | KLess t1 t2 _ _ => t1 ++ chars " < " ++ t2 ++ chars ": "
  | KUnary _ pt t a => pt ++ chars "(" ++ t ++ chars ") with " ++ t ++ chars "=" ++ num a ++ chars ": "
  | KBinary _ pt t1 t2 a b =>
      pt ++ chars "(" ++ t1 ++ chars "," ++ t2 ++ chars ") with " ++ t1 ++ chars "=" ++ num a ++ chars ", " ++ t2 ++ chars "=" ++ num b ++ chars ": "
  | KCompare t1 _ e _ _ | KResultCompare t1 _ e _ _ => t1 ++ chars ": " ++ num e
  | KStatic _ head _ _ => head ++ chars ": "
  end.
(** what follows it if the check is passed: a line, and an empty line *)
Definition confirms (k : check) : text :=
  line (line
    match k with
    | KCheckWarn _ _ _ _ | KCheck _ _ _ _ => []
    | KCompare _ _ _ c x => chars " " ++ op_text c ++ chars " " ++ num x ++ chars ": true"
    | KResultCompare _ _ _ c x => chars " " ++ op_text c ++ chars " " ++ num x
    | _ => chars "true"
    end).
(** a source text, and its value on the next line *)
Definition indented (t : text) (z : text) : text := line (t ++ chars ":") ++ chars "           " ++ z.
(** ... if it is not *)
Definition complains (k : check) : text :=
  match k with
  | KStatic cls _ failed _ => line (line (chars "false")) ++ line (line (heading "ERROR: " l ++ cls ++ chars ": " ++ failed))
  | _ =>
    newline ++
    match k with
    | KCheckWarn t1 t2 _ x => line (line (chars "WARNING: expected " ++ t1 ++ chars " = " ++ t2 ++ chars " == " ++ num x ++ chars " "))
    | KCheck t1 t2 _ x => line (line (chars "ERROR: expected " ++ t1 ++ chars " = " ++ t2 ++ chars " == " ++ num x ++ chars " "))
    | KSame _ t1 t2 e x | KEqual t1 t2 e x | KNotEqual t1 t2 e x =>
        line (chars "ERROR: " ++ indented t1 (num e)) ++ line (chars "     : " ++ indented t2 (num x))
    | KSameAs _ t1 _ e _ | KEquals t1 _ e _ | KLess t1 _ e _ => line (chars "ERROR: " ++ indented t1 (num e))
    | KWithin t1 t2 e x tol =>
        line (chars "ERROR: " ++ indented t1 (num e)) ++ line (chars "     : " ++ indented t2 (num x)) ++
        line (chars "     : error: " ++ int_text (Z.abs (v e - v x))) ++ line (chars "     : tolerance " ++ num tol)
    | KCompare t1 t2 _ c x => line (chars "ERROR: expected: " ++ t1 ++ op_text c ++ t2 ++ chars "=" ++ num x)
    | KResultCompare t1 t2 _ c _ => line (chars "ERROR: expected: " ++ t1 ++ op_text c ++ t2)
    | _ => line (chars "ERROR: false")
    end
  end.
(** source texts with their values *)
Definition pair_of (t1 t2 : text) (a b : text) : text := t1 ++ chars "=" ++ a ++ chars "; " ++ t2 ++ chars "=" ++ b.
(** the report on cerr of a failed check *)
Definition report_of (k : check) : text :=
  heading (match k with KCheckWarn _ _ _ _ => "WARNING: " | _ => "ERROR: " end) l ++
  line
  match k with
  | KAssert t _ => chars "Assertion " ++ quoted t ++ chars " failed."
  | KCheckWarn t1 t2 e _ | KCheck t1 t2 e _ => chars "Check " ++ quoted (t1 ++ chars "==" ++ t2) ++ chars " failed; obtained " ++ num e
  | KSame _ t1 t2 e x => chars "Identity " ++ quoted (t1 ++ chars " === " ++ t2) ++ chars " failed; " ++ pair_of t1 t2 (num e) (num x)
  | KSameAs _ t1 t2 e x => line (chars "Sameness of " ++ quoted (t1 ++ chars " and " ++ t2) ++ chars " failed;") ++
      line (chars "  " ++ t1 ++ chars "=" ++ num e) ++ chars "  " ++ t2 ++ chars "=" ++ num x
  | KEqual t1 t2 e x => chars "Equality " ++ quoted (t1 ++ chars " == " ++ t2) ++ chars " failed; " ++ pair_of t1 t2 (num e) (num x)
  | KNotEqual t1 t2 e x => chars "Inequality " ++ quoted (t1 ++ chars " != " ++ t2) ++ chars " failed; " ++ pair_of t1 t2 (num e) (num x)
  | KEquals t1 t2 e x => line (chars "Equality " ++ quoted (t1 ++ chars " == " ++ t2) ++ chars " failed;") ++
      line (chars "  " ++ t1 ++ chars "=" ++ num e) ++ chars "  " ++ t2 ++ chars "=" ++ num x
  | KWithin t1 t2 e x tol => chars "ApproximateTag equality " ++ quoted (t1 ++ chars " ~ " ++ t2) ++ chars " failed; " ++
      pair_of t1 t2 (num e) (num x) ++ chars "; error=" ++ int_text (Z.abs (v e - v x)) ++ chars "; tolerance=" ++ num tol
  | KLess t1 t2 e _ => chars "Equality " ++ quoted (t1 ++ chars " < " ++ t2) ++ chars " failed; " ++ t1 ++ chars "=" ++ num e
  | KUnary _ pt t a => chars "Predicate " ++ quoted (pt ++ chars "(" ++ t ++ chars ")") ++ chars " with " ++ t ++ chars "=" ++ num a ++ chars " is false."
  | KBinary _ pt t1 t2 a b => line (chars "Predicate " ++ quoted (pt ++ chars "(" ++ t1 ++ chars "," ++ t2 ++ chars ")") ++ chars " with") ++
      line (chars "  " ++ t1 ++ chars "=" ++ num a ++ chars ";") ++ chars "  " ++ t2 ++ chars "=" ++ num b ++ chars " is false."
  | KCompare t1 t2 e c x | KResultCompare t1 t2 e c x =>
      chars "Comparison " ++ quoted (t1 ++ op_text c ++ t2) ++ chars " failed; " ++ pair_of t1 t2 (num e) (num x)
  | KStatic cls _ failed _ => cls ++ chars ": " ++ failed
  end.
End Texts.

Section Log.
Context {W : Type} (call : nat -> list Z -> W -> callres W) (ltr : bool).
Notation S := (st W).
(** [e] has the value [z], without effects, in [s] and in every state that differs from it by output and by names not in [e] *)
Definition steady (s : S) (e : expr) (z : Z) : Prop :=
  forall s1, s_world s1 = s_world s -> s_statics s1 = s_statics s ->
    (forall x, mentions x e = true -> lookup x (s_frames s1) = lookup x (s_frames s)) -> eval call ltr e s1 = Norm z s1.
(** the expressions of a check: its arguments, and the call that decides it *)
Definition judged (k : check) : list expr :=
  check_args k ++
  match k with KSame f _ _ e x | KSameAs f _ _ e x => [ECall2 f e x] | KUnary p _ _ a => [ECall1 p a] | KBinary p _ _ _ a b => [ECall2 p a b] | _ => [] end.
(** [s] with more text, and with [n] failures if [counted] *)
Definition after (s : S) (counted : bool) (n : Z) (o e : text) : S :=
  mkSt (if counted then assign "HELPER_TEST_FAILURES" (CVal n) (s_frames s) else s_frames s)
       (s_statics s) (s_out s ++ o) (s_err s ++ e) (s_world s).
Definition warns (k : check) : bool := match k with KCheckWarn _ _ _ _ => true | _ => false end.
(** [e] does not mention the names used by the macros *)
Definition own (e : expr) : Prop := forall x, In x (locals ++ counters) -> mentions x e = false.
(** ** Messages and blocks *)
(** a message made of texts and of expressions with the values [v] *)
Definition said (v : expr -> Z) (c : list part) : text :=
  List.concat (map (fun p => match p with PStr t => t | PExp e => int_text (v e) | PWhat _ => [] end) c).
Definition sayable (v : expr -> Z) (s : S) (c : list part) : Prop :=
  forall p, In p c -> match p with PStr _ => True | PExp e => own e /\ steady s e (v e) | PWhat _ => False end.
(** [m] is completed from [s], and cout and cerr then hold these texts *)
Definition logs (m : stmt) (s : S) (o e : text) : Prop :=
  exists s', exec call ltr m s = Norm tt s' /\ s_out s' = o /\ s_err s' = e.
(** one more failure can be counted, [d] scopes outside of [s] *)
Definition countable (d : nat) (s : S) : Prop := exists n, counter "HELPER_TEST_FAILURES" (Nat.iter d pop s) n /\ n + 1 < 2 ^ 31.
(** [s] with more text on cout, [d] scopes further inside *)
Definition inside (d : nat) (t : text) (s : S) : S := Nat.iter d (push []) (add_out t s).
Definition framed (t : text) : text :=
  let stars := line (chars "****************************************") in stars ++ line t ++ line stars.
(** what the macros with HELPER_TEST_CATCH write when an exception is thrown: cout, cerr *)
Definition caught_out (x : excn) : text :=
  line (line (match x with XStd _ w => chars "exception: """ ++ w ++ chars """" | XOther _ => chars "unknown exception" end)).
Definition caught_err (l : loc) (what : text) (x : excn) : text :=
  heading "ERROR: " l ++
  line (what ++ match x with XStd _ w => chars " throwed """ ++ w ++ chars """." | XOther _ => chars " throwed an unknown exception." end).
(** the outcome of a static check: what it announces, and what it says in case of failure after the class [cls] *)
Definition static_after (l : loc) (cls head failed : text) (b : bool) (n : Z) (s : S) : S :=
  if b then after s false n (line (line (head ++ chars ": true"))) []
  else after s true (n + 1) (line (line (head ++ chars ": false")) ++ line (line (heading "ERROR: " l ++ cls ++ chars ": " ++ failed)))
         (line (heading "ERROR: " l ++ cls ++ chars ": " ++ failed)).
End Log.
