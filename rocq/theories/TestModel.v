(** TestModel.v -- include/test.hpp (41-578): the unit test macros, in the statement language of
    MacroModel.v, and the main function shared by the files of /repo/test.

    Simplifications: as in MacroModel.v; HELPER_CURRENT_TESTING_CLASS is a constant text; std::flush has no
    effect.  HELPER_CLEAN_TEST_VECTOR (599-607) is in CleanModel.v,
    HELPER_TEST_GRID_TREE_SUBPAVING_ITERATOR (584-596) in TreeModel.v. *)
From Verif Require Import Base StreamModel MacroModel.
From Coq Require Import String.
Open Scope list_scope.
Open Scope Z_scope.
Open Scope string_scope.

Definition nl (s : String.string) : part := PStr (chars s ++ newline)%list.
Definition nl2 (s : String.string) : part := PStr (newline ++ chars s)%list.
(** ++HELPER_TEST_FAILURES; *)
Definition count_failure : stmt := SExpr (EIncr "HELPER_TEST_FAILURES").
(** "ERROR: " << __FILE__ << ":" << __LINE__ << ": " << func << ": " *)
Definition p_error (l : loc) : list part := ([lit "ERROR: "] ++ p_loc l ++ [lit ": "])%list.
Definition cout (ps : list part) : stmt := SInsert Cout ps.
Definition cerr (ps : list part) : stmt := SInsert Cerr ps.
Definition ctrue : stmt := cout [nl "true"; endl].
Definition any (x : excn) : bool := true.
Definition none (x : excn) : bool := false.
Definition is_std (x : excn) : bool := match x with XStd _ _ => true | XOther _ => false end.
Definition stars : part := nl "****************************************".

(** HELPER_PRINT_TEST_CASE_TITLE, 69-73 *)
Definition HELPER_PRINT_TEST_CASE_TITLE (title : list part) : stmt :=
  brace [ cout ([lit "*** "; PExp (EIncr "test_case_counter"); lit ": "] ++ title ++ [lit " ***"; endl; endl])%list ].
(** HELPER_PRINT_TEST_COMMENT, 76-80 *)
Definition HELPER_PRINT_TEST_COMMENT (c : list part) : stmt :=
  brace [ cout ([lit "* COMMENT: "] ++ c ++ [lit ""; endl])%list ].
(** HELPER_TEST_WARN, 84-88 *)
Definition HELPER_TEST_WARN (m : list part) : stmt :=
  brace [ cout ([lit "WARNING: "] ++ m ++ [lit ""; endl])%list; cerr ([lit "WARNING: "] ++ m ++ [lit ""; endl])%list ].
(** HELPER_TEST_NOTIFY, 92-96 *)
Definition HELPER_TEST_NOTIFY (m : list part) : stmt :=
  brace [ cout ([lit "NOTIFICATION: "] ++ m ++ [lit ""; endl])%list; cerr ([lit "NOTIFICATION: "] ++ m ++ [lit ""; endl])%list ].
(** HELPER_TEST_CLASS, 59-66 *)
Definition HELPER_TEST_CLASS (title : text) (body : stmt) : stmt :=
  brace [ cout [stars; lit "TESTING CLASS "; PStr title; nl ""; stars; endl]; body ].

(** [try { body } HELPER_TEST_CATCH(message)], 100-110 *)
Definition try_catch (body : stmt) (l : loc) (message : list part) : stmt :=
  STry body
    is_std (Some "except")
      (seqs [ count_failure;
              cout [lit "exception: """; PWhat "except"; nl """"; endl];
              cerr (p_error l ++ message ++ [lit " throwed """; PWhat "except"; lit """."; endl])%list ])
    any None
      (seqs [ count_failure;
              cout [nl "unknown exception"; endl];
              cerr (p_error l ++ message ++ [lit " throwed an unknown exception."; endl])%list ]).
(** HELPER_TEST_CALL, 114-129: catches std::exception only *)
Definition HELPER_TEST_CALL (l : loc) (fn : text) (body : stmt) : stmt :=
  brace [ cout [stars; lit "CALLING "; PStr fn; nl ""; stars; endl];
          STry body
            is_std (Some "except")
              (seqs [ count_failure;
                      cout [lit "ERROR: exception '"; PWhat "except"; lit "' in "; PStr fn; lit ": "; PWhat "except"; endl];
                      cerr [lit "ERROR: "; PStr (l_file l); lit ":"; PExp (ELit (l_line l)); lit ": calling "; PStr fn; lit ": "; PWhat "except"; endl];
                      cout [endl] ])
            none None SSkip ].
(** HELPER_TEST_SKIP, 133-140 *)
Definition HELPER_TEST_SKIP (fn : text) : stmt :=
  brace [ cout [stars; lit "SKIPPING "; PStr fn; nl ""; stars; endl];
          SExpr (EIncr "HELPER_TEST_SKIPPED");
          cout [endl] ].
(** HELPER_TEST_EXECUTE, 144-149 *)
Definition HELPER_TEST_EXECUTE (txt : text) (body : stmt) : stmt :=
  brace [ cout [PStr txt; lit ": "]; body; cout [nl " (ok)"; endl] ].
(** HELPER_TEST_TRY, 153-161 *)
Definition HELPER_TEST_TRY (l : loc) (txt : text) (body : stmt) : stmt :=
  brace [ cout [PStr txt; lit ": "];
          try_catch (SSeq body (cout [nl " (ok)"; endl])) l [lit "Statement `"; PStr txt; lit "'"] ].
(** HELPER_TEST_PRINT, 165-169 *)
Definition HELPER_TEST_PRINT (txt : text) (e : expr) : stmt :=
  brace [ cout [PStr txt; lit " = "]; cout [PExp e; nl ""; endl] ].
(** HELPER_TEST_EVALUATE, 173-180 *)
Definition HELPER_TEST_EVALUATE (l : loc) (txt : text) (e : expr) : stmt :=
  brace [ cout [PStr txt; lit ": "];
          try_catch (cout [PExp e; nl ""; endl]) l [lit "Expression `"; PStr txt; lit "'"] ].

(** HELPER_TEST_ASSERT, 184-195 *)
Definition HELPER_TEST_ASSERT (l : loc) (txt : text) (e : expr) : stmt :=
  brace [ cout [PStr txt; lit ": "];
          SDecl true "result" e;
          SIf (EVar "result")
            ctrue
            (seqs [ count_failure;
                    cout [nl2 "ERROR: false"; endl];
                    cerr (p_error l ++ [lit "Assertion `"; PStr txt; lit "' failed."; endl])%list ]) ].
(** HELPER_TEST_CHECK_WARN, 199-209 *)
Definition HELPER_TEST_CHECK_WARN (l : loc) (txt1 txt2 : text) (e x : expr) : stmt :=
  brace [ cout [PStr txt1; lit ": "];
          SDecl false "ok" (ECheck e x);
          SIf (EVar "ok")
            (cout [nl ""; endl])
            (seqs [ cout [nl2 "WARNING: expected "; PStr txt1; lit " = "; PStr txt2; lit " == "; PExp x; nl " "; endl];
                    cerr ([lit "WARNING: "] ++ p_loc l ++ [lit ": Check `"; PStr txt1; lit "=="; PStr txt2; lit "' failed; obtained "; PExp e; endl])%list ]) ].
(** HELPER_TEST_CHECK, 213-224 *)
Definition HELPER_TEST_CHECK (l : loc) (txt1 txt2 : text) (e x : expr) : stmt :=
  brace [ cout [PStr txt1; lit ": "];
          SDecl false "ok" (ECheck e x);
          SIf (EVar "ok")
            (cout [nl ""; endl])
            (seqs [ count_failure;
                    cout [nl2 "ERROR: expected "; PStr txt1; lit " = "; PStr txt2; lit " == "; PExp x; nl " "; endl];
                    cerr (p_error l ++ [lit "Check `"; PStr txt1; lit "=="; PStr txt2; lit "' failed; obtained "; PExp e; endl])%list ]) ].
(** both values on cout, as in 236-237, 268-269 and 281-282 *)
Definition p_two (txt1 txt2 : text) (e1 e2 : expr) : list part :=
  [nl2 "ERROR: "; PStr txt1; PStr (chars ":" ++ newline ++ chars "           ")%list; PExp e1;
   nl2 "     : "; PStr txt2; PStr (chars ":" ++ newline ++ chars "           ")%list; PExp e2; endl].
(** the end of the message on cerr in 238, 270 and 283 *)
Definition p_both (txt1 txt2 : text) (e1 e2 : expr) : list part :=
  [lit "' failed; "; PStr txt1; lit "="; PExp e1; lit "; "; PStr txt2; lit "="; PExp e2; endl].
(** HELPER_TEST_SAME, 228-240; [f] is the function same *)
Definition HELPER_TEST_SAME (f : nat) (l : loc) (txt1 txt2 : text) (e1 e2 : expr) : stmt :=
  brace [ cout [lit "same("; PStr txt1; lit ","; PStr txt2; lit "): "];
          SDecl false "ok" (EBool (ECall2 f e1 e2));
          SIf (EVar "ok")
            ctrue
            (seqs [ count_failure;
                    cout (p_two txt1 txt2 e1 e2);
                    cerr (p_error l ++ [lit "Identity `"; PStr txt1; lit " === "; PStr txt2] ++ p_both txt1 txt2 e1 e2)%list ]) ].
(** one value on cout, as in 251, 298 and 334 *)
Definition p_one (txt : text) (e : expr) : list part :=
  [nl2 "ERROR: "; PStr txt; PStr (chars ":" ++ newline ++ chars "           ")%list; PExp e; endl].
Definition p_line (txt : text) (e : expr) : list part := [lit "  "; PStr txt; lit "="; PExp e; endl].
(** HELPER_TEST_SAME_AS, 243-256 *)
Definition HELPER_TEST_SAME_AS (f : nat) (l : loc) (txt1 txt2 : text) (e x : expr) : stmt :=
  brace [ cout [PStr txt1; lit " == "; PStr txt2; lit ": "];
          SDecl false "ok" (EBool (ECall2 f e x));
          SIf (EVar "ok")
            ctrue
            (seqs [ count_failure;
                    cout (p_one txt1 e);
                    cerr (p_error l ++ [lit "Sameness of `"; PStr txt1; lit " and "; PStr txt2; lit "' failed;"; endl])%list;
                    cerr (p_line txt1 e);
                    cerr (p_line txt2 x) ]) ].
(** HELPER_TEST_EQUAL, 260-272 *)
Definition HELPER_TEST_EQUAL (l : loc) (txt1 txt2 : text) (e1 e2 : expr) : stmt :=
  brace [ cout [PStr txt1; lit " == "; PStr txt2; lit ": "];
          SDecl false "ok" (ECmp CEq e1 e2);
          SIf (EVar "ok")
            ctrue
            (seqs [ count_failure;
                    cout (p_two txt1 txt2 e1 e2);
                    cerr (p_error l ++ [lit "Equality `"; PStr txt1; lit " == "; PStr txt2] ++ p_both txt1 txt2 e1 e2)%list ]) ].
(** HELPER_TEST_NOT_EQUAL, 275-287 *)
Definition HELPER_TEST_NOT_EQUAL (l : loc) (txt1 txt2 : text) (e1 e2 : expr) : stmt :=
  brace [ cout [PStr txt1; lit " != "; PStr txt2; lit ": "];
          SDecl false "ok" (ECmp CEq e1 e2);
          SIf (EVar "ok")
            (seqs [ count_failure;
                    cout (p_two txt1 txt2 e1 e2);
                    cerr (p_error l ++ [lit "Inequality `"; PStr txt1; lit " != "; PStr txt2] ++ p_both txt1 txt2 e1 e2)%list ])
            ctrue ].
(** HELPER_TEST_EQUALS, 290-303 *)
Definition HELPER_TEST_EQUALS (l : loc) (txt1 txt2 : text) (e x : expr) : stmt :=
  brace [ cout [PStr txt1; lit " == "; PStr txt2; lit ": "];
          SDecl false "ok" (ECmp CEq e x);
          SIf (EVar "ok")
            ctrue
            (seqs [ count_failure;
                    cout (p_one txt1 e);
                    cerr (p_error l ++ [lit "Equality `"; PStr txt1; lit " == "; PStr txt2; lit "' failed;"; endl])%list;
                    cerr (p_line txt1 e);
                    cerr (p_line txt2 x) ]) ].
(** HELPER_TEST_WITHIN, 306-321 *)
Definition HELPER_TEST_WITHIN (l : loc) (txt1 txt2 : text) (e x tol : expr) : stmt :=
  brace [ cout [PStr txt1; lit " ~ "; PStr txt2; lit ": "];
          SDecl true "error" (EAbs (ESub e x));
          SDecl false "ok" (ECmp CLe (EVar "error") tol);
          SIf (EVar "ok")
            ctrue
            (seqs [ count_failure;
                    cout [nl2 "ERROR: "; PStr txt1; PStr (chars ":" ++ newline ++ chars "           ")%list; PExp e;
                          nl2 "     : "; PStr txt2; PStr (chars ":" ++ newline ++ chars "           ")%list; PExp x;
                          nl2 "     : error: "; PExp (EVar "error"); nl2 "     : tolerance "; PExp tol; endl];
                    cerr (p_error l ++ [lit "ApproximateTag equality `"; PStr txt1; lit " ~ "; PStr txt2; lit "' failed; ";
                          PStr txt1; lit "="; PExp e; lit "; "; PStr txt2; lit "="; PExp x;
                          lit "; error="; PExp (EVar "error"); lit "; tolerance="; PExp tol; endl])%list ]) ].
(** HELPER_TEST_LESS, 326-337 *)
Definition HELPER_TEST_LESS (l : loc) (txt1 txt2 : text) (e x : expr) : stmt :=
  brace [ cout [PStr txt1; lit " < "; PStr txt2; lit ": "];
          SDecl false "ok" (ECmp CLt e x);
          SIf (EVar "ok")
            ctrue
            (seqs [ count_failure;
                    cout (p_one txt1 e);
                    cerr (p_error l ++ [lit "Equality `"; PStr txt1; lit " < "; PStr txt2; lit "' failed; "; PStr txt1; lit "="; PExp e; endl])%list ]) ].
(** HELPER_TEST_UNARY_PREDICATE, 341-352 *)
Definition HELPER_TEST_UNARY_PREDICATE (p : nat) (l : loc) (ptxt txt : text) (a : expr) : stmt :=
  brace [ cout [PStr ptxt; lit "("; PStr txt; lit ") with "; PStr txt; lit "="; PExp a; lit ": "];
          SDecl false "ok" (EBool (ECall1 p a));
          SIf (EVar "ok")
            ctrue
            (seqs [ count_failure;
                    cout [nl2 "ERROR: false"; endl];
                    cerr (p_error l ++ [lit "Predicate `"; PStr ptxt; lit "("; PStr txt; lit ")' with "; PStr txt; lit "="; PExp a; lit " is false."; endl])%list ]) ].
(** HELPER_TEST_BINARY_PREDICATE, 356-367 *)
Definition HELPER_TEST_BINARY_PREDICATE (p : nat) (l : loc) (ptxt txt1 txt2 : text) (a b : expr) : stmt :=
  brace [ cout [PStr ptxt; lit "("; PStr txt1; lit ","; PStr txt2; lit ") with "; PStr txt1; lit "="; PExp a; lit ", "; PStr txt2; lit "="; PExp b; lit ": "];
          SDecl false "ok" (EBool (ECall2 p a b));
          SIf (EVar "ok")
            ctrue
            (seqs [ count_failure;
                    cout [nl2 "ERROR: false"; endl];
                    cerr (p_error l ++ [lit "Predicate `"; PStr ptxt; lit "("; PStr txt1; lit ","; PStr txt2; nl ")' with"; lit "  "; PStr txt1; lit "="; PExp a; nl ";"; lit "  "; PStr txt2; lit "="; PExp b; lit " is false."; endl])%list ]) ].
Definition cmp_text (c : cmp) : text :=
  match c with CEq => chars "==" | CNe => chars "!=" | CLt => chars "<" | CLe => chars "<=" | CGt => chars ">" | CGe => chars ">=" end.
(** HELPER_TEST_COMPARE, 371-382 *)
Definition HELPER_TEST_COMPARE (l : loc) (txt1 txt2 : text) (e : expr) (c : cmp) (x : expr) : stmt :=
  brace [ cout [PStr txt1; lit ": "; PExp e];
          SDecl false "ok" (ECmp c e x);
          SIf (EVar "ok")
            (cout [lit " "; PStr (cmp_text c); lit " "; PExp x; nl ": true"; endl])
            (seqs [ count_failure;
                    cout [nl2 "ERROR: expected: "; PStr txt1; PStr (cmp_text c); PStr txt2; lit "="; PExp x; endl];
                    cerr (p_error l ++ [lit "Comparison `"; PStr txt1; PStr (cmp_text c); PStr txt2; lit "' failed; "; PStr txt1; lit "="; PExp e; lit "; "; PStr txt2; lit "="; PExp x; endl])%list ]) ].
(** HELPER_TEST_RESULT_COMPARE, 386-398 *)
Definition HELPER_TEST_RESULT_COMPARE (l : loc) (txt1 txt2 : text) (e : expr) (c : cmp) (x : expr) : stmt :=
  brace [ SDecl false "result" e;
          cout [PStr txt1; lit ": "; PExp (EVar "result")];
          SDecl false "ok" (ECmp c (EVar "result") x);
          SIf (EVar "ok")
            (cout [lit " "; PStr (cmp_text c); lit " "; PExp x; nl ""; endl])
            (seqs [ count_failure;
                    cout [nl2 "ERROR: expected: "; PStr txt1; PStr (cmp_text c); PStr txt2; endl];
                    cerr (p_error l ++ [lit "Comparison `"; PStr txt1; PStr (cmp_text c); PStr txt2; lit "' failed; "; PStr txt1; lit "="; PExp (EVar "result"); lit "; "; PStr txt2; lit "="; PExp x; endl])%list ]) ].

(** HELPER_TEST_DECLARE, 402-411: a trial construction inside try, then the declaration proper.  [ctor] is
    the default constructor of the class. *)
Definition HELPER_TEST_DECLARE (l : loc) (cls x : name) (ctor : expr) : stmt :=
  SSeq (brace [ cout [lit cls; lit " "; lit x; lit ": "];
                try_catch (SSeq (SDecl false x ctor) (cout [lit x; lit "=="; PExp (EVar x); nl ""; endl])) l
                  [lit "Constructor `"; lit cls; lit ""; lit x; lit "'"] ])
       (SDecl false x ctor).
(** HELPER_TEST_CONSTRUCT, 415-418 *)
Definition HELPER_TEST_CONSTRUCT (cls x : name) (txt : text) (ctor : expr) : stmt :=
  seqs [ cout [lit cls; lit " "; lit x; lit ""; PStr txt; lit ": "];
         SDecl false x ctor;
         cout [lit x; lit "=="; PExp (EVar x); nl ""; endl] ].
(** HELPER_TEST_DEFAULT_CONSTRUCT, 421-424 *)
Definition HELPER_TEST_DEFAULT_CONSTRUCT (cls x : name) (ctor : expr) : stmt :=
  seqs [ cout [lit cls; lit " "; lit x; lit ": "];
         SDecl false x ctor;
         cout [lit x; lit "=="; PExp (EVar x); nl ""; endl] ].
(** HELPER_TEST_NAMED_CONSTRUCT, 440-449 *)
Definition HELPER_TEST_NAMED_CONSTRUCT (l : loc) (cls x : name) (txt : text) (e : expr) : stmt :=
  SSeq (brace [ cout [lit cls; lit " "; lit x; lit " = "; lit cls; lit "::"; PStr txt; lit ": "];
                try_catch (SSeq (SDecl false x e) (cout [lit x; lit "=="; PExp (EVar x); nl ""; endl])) l
                  [lit "Named constructor `"; lit x; lit "="; lit cls; lit "::"; PStr txt; lit "'"] ])
       (SDecl false x e).
(** HELPER_TEST_ASSIGN_CONSTRUCT, 453-462 *)
Definition HELPER_TEST_ASSIGN_CONSTRUCT (l : loc) (cls x : name) (txt : text) (e : expr) : stmt :=
  SSeq (brace [ cout [lit cls; lit " "; lit x; lit " = "; PStr txt; lit ": "];
                try_catch (SSeq (SDecl false x e) (cout [lit x; lit "=="; PExp (EVar x); nl ""; endl])) l
                  [lit "Assignment `"; lit x; lit "="; PStr txt; lit "'"] ])
       (SDecl false x e).
(** HELPER_TEST_ASSIGN, 465-473 *)
Definition HELPER_TEST_ASSIGN (l : loc) (x : name) (txt : text) (e : expr) : stmt :=
  brace [ cout [lit x; lit " = "; PStr txt; lit ": "];
          try_catch (SSeq (SExpr (EAssign x e)) (cout [PExp (EVar x); nl ""; endl])) l
            [lit "Assignment `"; lit x; lit "="; PStr txt; lit "'"] ].
(** HELPER_TEST_THROWS, 477-494; the class [error] is given by the exceptions it catches *)
Definition HELPER_TEST_THROWS (l : loc) (txt etxt : text) (body : stmt) (error : excn -> bool) : stmt :=
  brace [ cout [PStr txt; lit ": "];
          STry (SSeq body (seqs [ count_failure;
                                  cout [nl2 "ERROR: expected "; PStr etxt; nl "; no exception thrown"];
                                  cerr (p_error l ++ [lit "expected "; PStr etxt; lit "; no exception thrown."; endl])%list ]))
            error (Some "err")
              (cout [lit "caught "; PStr etxt; nl " as expected"; endl])
            is_std (Some "except")
              (seqs [ count_failure;
                      cout [nl2 "ERROR: caught exception "; PWhat "except"; lit "; expected "; PStr etxt; nl ""];
                      cerr (p_error l ++ [lit "caught exception "; PWhat "except"; lit "; expected "; PStr etxt; endl])%list ]) ].
(** HELPER_TEST_FAIL, 498-510 *)
Definition HELPER_TEST_FAIL (l : loc) (txt : text) (body : stmt) : stmt :=
  brace [ cout [PStr txt; lit ": "];
          STry (SSeq body (seqs [ count_failure;
                                  cout [nl2 "ERROR: expected exception; none thrown"; nl ""];
                                  cerr (p_error l ++ [lit "expected exception; no exception thrown."; endl])%list ]))
            any None (cout [nl "caught exception as expected"; endl])
            none None SSkip ].
(** HELPER_TEST_STATIC_ASSERT 515-527, HELPER_TEST_CONCEPT 531-543, HELPER_TEST_SAME_TYPE 549-561 and
    HELPER_TEST_EQUIVALENT_TYPE 566-578: the same text around a compile-time constant [b]; [head] and
    [failed] are the texts they differ in *)
Definition static_check (l : loc) (cls head : text) (failed : list part) (b : bool) : stmt :=
  brace [ cout [PStr head; lit ": "];
          SDecl false "result" (ELit (b2z b));
          SIf (EVar "result")
            ctrue
            (seqs [ count_failure;
                    cout [nl "false"; endl];
                    cout (p_error l ++ [PStr cls; lit ": "] ++ failed ++ [nl ""; endl])%list;
                    cerr (p_error l ++ [PStr cls; lit ": "] ++ failed ++ [endl])%list ]) ].
Definition HELPER_TEST_STATIC_ASSERT (l : loc) (cls txt : text) (b : bool) : stmt :=
  static_check l cls txt [lit "Static assertion `"; PStr txt; lit "' failed."] b.
Definition HELPER_TEST_CONCEPT (l : loc) (cls txt : text) (b : bool) : stmt :=
  static_check l cls txt [lit "Concept `"; PStr txt; lit "' failed."] b.
Definition HELPER_TEST_SAME_TYPE (l : loc) (cls txt first : text) (b : bool) : stmt :=
  static_check l cls (chars "Same<" ++ txt ++ chars ">")%list
    [lit "Static assertion `Same<"; PStr txt; lit ">' failed."; lit " First type is "; PStr first] b.
Definition HELPER_TEST_EQUIVALENT_TYPE (l : loc) (cls txt first : text) (b : bool) : stmt :=
  static_check l cls (chars "IsEquivalent<" ++ txt ++ chars ">")%list
    [lit "Static assertion `IsEquivalent<"; PStr txt; lit ">' failed."; lit " First type is "; PStr first] b.

(** ** Programs built from the macros *)
(** a check, with the texts produced by # *)
Inductive check : Type :=
| KAssert (t : text) (e : expr)
| KCheckWarn (t1 t2 : text) (e x : expr)
| KCheck (t1 t2 : text) (e x : expr)
| KSame (f : nat) (t1 t2 : text) (e x : expr)
| KSameAs (f : nat) (t1 t2 : text) (e x : expr)
| KEqual (t1 t2 : text) (e x : expr)
| KNotEqual (t1 t2 : text) (e x : expr)
| KEquals (t1 t2 : text) (e x : expr)
| KWithin (t1 t2 : text) (e x tol : expr)
| KLess (t1 t2 : text) (e x : expr)
| KUnary (p : nat) (pt t : text) (a : expr)
| KBinary (p : nat) (pt t1 t2 : text) (a b : expr)
| KCompare (t1 t2 : text) (e : expr) (c : cmp) (x : expr)
| KResultCompare (t1 t2 : text) (e : expr) (c : cmp) (x : expr)
| KStatic (cls head : text) (failed : text) (b : bool).
Definition check_stmt (l : loc) (k : check) : stmt :=
  match k with
  | KAssert t e => HELPER_TEST_ASSERT l t e
  | KCheckWarn t1 t2 e x => HELPER_TEST_CHECK_WARN l t1 t2 e x
  | KCheck t1 t2 e x => HELPER_TEST_CHECK l t1 t2 e x
  | KSame f t1 t2 e x => HELPER_TEST_SAME f l t1 t2 e x
  | KSameAs f t1 t2 e x => HELPER_TEST_SAME_AS f l t1 t2 e x
  | KEqual t1 t2 e x => HELPER_TEST_EQUAL l t1 t2 e x
  | KNotEqual t1 t2 e x => HELPER_TEST_NOT_EQUAL l t1 t2 e x
  | KEquals t1 t2 e x => HELPER_TEST_EQUALS l t1 t2 e x
  | KWithin t1 t2 e x tol => HELPER_TEST_WITHIN l t1 t2 e x tol
  | KLess t1 t2 e x => HELPER_TEST_LESS l t1 t2 e x
  | KUnary p pt t a => HELPER_TEST_UNARY_PREDICATE p l pt t a
  | KBinary p pt t1 t2 a b => HELPER_TEST_BINARY_PREDICATE p l pt t1 t2 a b
  | KCompare t1 t2 e c x => HELPER_TEST_COMPARE l t1 t2 e c x
  | KResultCompare t1 t2 e c x => HELPER_TEST_RESULT_COMPARE l t1 t2 e c x
  | KStatic cls head failed b => static_check l cls head [PStr failed] b
  end.
(** a test program: checks, plain statements and blocks *)
Inductive prog : Type :=
| PCheck (l : loc) (k : check)
| PUser (e : expr)                                            (* an expression statement *)
| PDo (p q : prog)                                            (* one after the other *)
| PClass (title : text) (p : prog)
| PCall (l : loc) (fn : text) (p : prog)
| PTry (l : loc) (t : text) (p : prog)
| PExecute (t : text) (p : prog)
| PThrows (l : loc) (t et : text) (p : prog) (error : excn -> bool)
| PFail (l : loc) (t : text) (p : prog)
| PEvaluate (l : loc) (t : text) (e : expr)
| PPrint (t : text) (e : expr)
| PAssign (l : loc) (x : name) (t : text) (e : expr)
| PSkip (t : text)
| PWarn (m : text)
| PNotify (m : text)
| PComment (m : text)
| PTitle (m : text).
Fixpoint prog_stmt (p : prog) : stmt :=
  match p with
  | PCheck l k => check_stmt l k
  | PUser e => SExpr e
  | PDo p q => SSeq (prog_stmt p) (prog_stmt q)
  | PClass t p => HELPER_TEST_CLASS t (prog_stmt p)
  | PCall l t p => HELPER_TEST_CALL l t (prog_stmt p)
  | PTry l t p => HELPER_TEST_TRY l t (prog_stmt p)
  | PExecute t p => HELPER_TEST_EXECUTE t (prog_stmt p)
  | PThrows l t et p error => HELPER_TEST_THROWS l t et (prog_stmt p) error
  | PFail l t p => HELPER_TEST_FAIL l t (prog_stmt p)
  | PEvaluate l t e => HELPER_TEST_EVALUATE l t e
  | PPrint t e => HELPER_TEST_PRINT t e
  | PAssign l x t e => HELPER_TEST_ASSIGN l x t e
  | PSkip t => HELPER_TEST_SKIP t
  | PWarn m => HELPER_TEST_WARN [PStr m]
  | PNotify m => HELPER_TEST_NOTIFY [PStr m]
  | PComment m => HELPER_PRINT_TEST_COMMENT [PStr m]
  | PTitle m => HELPER_PRINT_TEST_CASE_TITLE [PStr m]
  end.

(** main of /repo/test/test_array.cpp (72-75) and its siblings: run the tests, return
    HELPER_TEST_FAILURES.  The globals of test.hpp (41-42, 56) are the outermost scope.  The exit status
    seen by the caller is the returned int modulo 256; an exception that leaves main ends the program by
    std::terminate. *)
Definition globals : frame :=
  [("HELPER_TEST_FAILURES", CVal 0); ("HELPER_TEST_SKIPPED", CVal 0); ("test_case_counter", CVal 0)].
Inductive ending : Type := Exited (status : Z) | Terminated | BadProgram.
Definition run_main {W} (call : nat -> list Z -> W -> callres W) (ltr : bool) (vars : frame) (p : prog) (w : W) : ending :=
  match exec call ltr (prog_stmt p) (mkSt [vars; globals] (fun _ => None) [] [] w) with
  | Norm _ s => match lookup "HELPER_TEST_FAILURES" (s_frames s) with
                | Some (CVal n) => Exited (n mod 256)
                | _ => BadProgram
                end
  | Thrown _ _ => Terminated
  | Undef _ | Ill => BadProgram
  end.
