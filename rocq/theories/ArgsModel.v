(** ArgsModel.v -- how the preprocessor takes the arguments of the macros of include/macros.hpp and include/test.hpp.  Definitions only.

    - A macro call is a sequence of preprocessing tokens, [cpp.replace]: arguments are separated by commas that are not inside parentheses.
      Angle brackets, braces and square brackets mean nothing to the preprocessor.
    - Arguments are fully expanded before they replace the parameters (unless for # ), and the result is scanned again: a macro called in the
      replacement text takes its arguments from there.
    - Expressions and types of the client are those below; the client may define macros without parameters. *)
From Verif Require Import Base.
From Coq Require Import String.
Local Open Scope string_scope.
Open Scope list_scope.
Open Scope nat_scope.

(** ** Tokens *)
Inductive token :=
| TOpen | TClose | TComma
| TWord (s : string)                       (* any other token *)
| TMacro (body : list token).              (* the name of a macro of the client, with its expanded replacement text *)

(** [cpp.replace] 11: the text between the parentheses, split at the commas outside inner parentheses; what follows is left.
    [cur] is the argument read so far, reversed; [depth] counts inner parentheses *)
Fixpoint collect (depth : nat) (cur : list token) (l : list token) : option (list (list token) * list token) :=
  match l with
  | [] => None
  | TOpen :: l' => collect (S depth) (TOpen :: cur) l'
  | TClose :: l' => match depth with
                    | O => Some ([rev cur], l')
                    | S d => collect d (TClose :: cur) l'
                    end
  | TComma :: l' => match depth with
                    | O => match collect 0 [] l' with Some (args, r) => Some (rev cur :: args, r) | None => None end
                    | S _ => collect depth (TComma :: cur) l'
                    end
  | t :: l' => collect depth (t :: cur) l'
  end.
Definition arguments (l : list token) : option (list (list token) * list token) :=
  match l with TOpen :: l' => collect 0 [] l' | _ => None end.

(** [cpp.subst]: an argument is expanded before it is substituted *)
Definition expand1 (t : token) : list token := match t with TMacro b => b | _ => [t] end.
Definition expand (l : list token) : list token := flat_map expand1 l.

(** ** The macros *)
Inductive macro :=
| USING_CONSTRUCTORS | THROW | ASSERT | DEBUG_ASSERT_MSG | DEBUG_ASSERT | PRECONDITION_MSG | PRECONDITION | DEBUG_PRECONDITION | FAIL_MSG
| ASSERT_MSG | ASSERT_EQUAL | DEPRECATED | NOTIFY | WARN | WARN_ONCE | ERROR
| TEST_CLASS | PRINT_TEST_CASE_TITLE | PRINT_TEST_COMMENT | TEST_WARN | TEST_NOTIFY | TEST_CATCH | TEST_CALL | TEST_SKIP | TEST_EXECUTE
| TEST_TRY | TEST_PRINT | TEST_EVALUATE | TEST_ASSERT | TEST_CHECK_WARN | TEST_CHECK | TEST_SAME | TEST_SAME_AS | TEST_EQUAL
| TEST_NOT_EQUAL | TEST_EQUALS | TEST_WITHIN | TEST_LESS | TEST_UNARY_PREDICATE | TEST_BINARY_PREDICATE | TEST_COMPARE
| TEST_RESULT_COMPARE | TEST_DECLARE | TEST_CONSTRUCT | TEST_DEFAULT_CONSTRUCT | TEST_NAMED_CONSTRUCT | TEST_ASSIGN_CONSTRUCT
| TEST_ASSIGN | TEST_THROWS | TEST_FAIL | TEST_STATIC_ASSERT | TEST_CONCEPT | TEST_SAME_TYPE | TEST_EQUIVALENT_TYPE
| TEST_SUBPAVING | CLEAN_TEST_VECTOR.
(** the number of parameters; None: "..." *)
Definition parameters (m : macro) : option nat :=
  match m with
  | ASSERT                                                    (* macros.hpp:56 *)
  | DEBUG_ASSERT | PRECONDITION | DEBUG_PRECONDITION          (* 81, 90; 103; 112, 121 *)
  | FAIL_MSG | NOTIFY | WARN | WARN_ONCE | ERROR              (* 125, 156, 161, 166, 173 *)
  | PRINT_TEST_CASE_TITLE | PRINT_TEST_COMMENT                (* test.hpp:69, 76 *)
  | TEST_WARN | TEST_NOTIFY | TEST_CATCH                      (* 84, 92, 100 *)
  | TEST_CALL | TEST_SKIP | TEST_EXECUTE | TEST_TRY           (* 114, 133, 144, 153 *)
  | TEST_PRINT | TEST_EVALUATE | TEST_ASSERT | TEST_FAIL      (* 165, 173, 184, 498 *)
  | CLEAN_TEST_VECTOR => Some 1                               (* 600 *)
  | USING_CONSTRUCTORS | DEBUG_ASSERT_MSG | PRECONDITION_MSG  (* macros.hpp:42; 66, 75; 95 *)
  | ASSERT_MSG | ASSERT_EQUAL | DEPRECATED                    (* 130, 138, 149 *)
  | TEST_CLASS | TEST_CHECK_WARN | TEST_CHECK | TEST_SAME     (* test.hpp:59, 199, 213, 228 *)
  | TEST_SAME_AS | TEST_EQUAL | TEST_NOT_EQUAL | TEST_EQUALS  (* 243, 260, 275, 290 *)
  | TEST_LESS | TEST_UNARY_PREDICATE | TEST_DECLARE           (* 326, 341, 402 *)
  | TEST_DEFAULT_CONSTRUCT | TEST_ASSIGN | TEST_THROWS        (* 421, 465, 477 *)
    => Some 2
  | THROW                                                     (* macros.hpp:49 *)
  | TEST_WITHIN | TEST_BINARY_PREDICATE | TEST_COMPARE        (* test.hpp:306, 356, 371 *)
  | TEST_CONSTRUCT | TEST_NAMED_CONSTRUCT                     (* 415, 440 *)
  | TEST_ASSIGN_CONSTRUCT | TEST_SUBPAVING => Some 3          (* 453, 585 *)
  | TEST_RESULT_COMPARE => Some 4                             (* 386 *)
  | TEST_STATIC_ASSERT | TEST_CONCEPT                         (* 515, 531 *)
  | TEST_SAME_TYPE | TEST_EQUIVALENT_TYPE => None             (* 549, 566 *)
  end.
(** the macros called in the replacement text, with the texts of their arguments.  [ndebug]: NDEBUG is defined *)
Definition where_ : list token := map TWord ["__FILE__"; "<<"; "<<"; "__LINE__"; "<<"; "<<"; "HELPER_PRETTY_FUNCTION"].
Definition throw_ (msg : list token) : macro * list (list token) := (THROW, [[TWord "std::runtime_error"]; where_; TWord "Assertion" :: msg]).
Definition calls (ndebug : bool) (m : macro) (args : list (list token)) : list (macro * list (list token)) :=
  let arg i := expand (nth i args []) in
  let str := [TWord "#expression"] in
  match m with
  | ASSERT | PRECONDITION => [throw_ str]                                       (* macros.hpp:60, 107 *)
  | DEBUG_ASSERT | DEBUG_PRECONDITION => if ndebug then [] else [throw_ str]    (* 85, 116 *)
  | DEBUG_ASSERT_MSG => if ndebug then [] else [throw_ (str ++ TWord "<<" :: arg 1)]    (* 70 *)
  | PRECONDITION_MSG | ASSERT_MSG => [throw_ (str ++ TWord "<<" :: arg 1)]      (* 99, 134 *)
  | FAIL_MSG => [throw_ (TWord "<<" :: arg 0)]                                  (* 127 *)
  | ASSERT_EQUAL => [throw_ (str ++ TWord "<<" :: arg 0 ++ [TWord "<<"; TWord "!="; TWord "<<"] ++ arg 1)]  (* 142 *)
  | TEST_TRY | TEST_EVALUATE | TEST_DECLARE | TEST_NAMED_CONSTRUCT              (* test.hpp:160, 179, 409, 447 *)
  | TEST_ASSIGN_CONSTRUCT | TEST_ASSIGN => [(TEST_CATCH, [str])]                (* 460, 472 *)
  | TEST_SUBPAVING =>                                                           (* 591, 592, 594, 595 *)
      [(PRINT_TEST_COMMENT, [str]);
       (TEST_COMPARE, [[TOpen; TWord "*"] ++ arg 0 ++ [TWord "["; TWord "elements_count"; TWord "]"; TClose]; [TWord "=="];
                       [TOpen; TWord "*"; TWord "it"; TClose]]);
       (PRINT_TEST_COMMENT, [str]); (TEST_EQUAL, [[TWord "elements_count"]; arg 2])]
  | _ => []
  end.

(** the tokens of a call: the arguments, separated by commas, in parentheses *)
Fixpoint separated (l : list (list token)) : list token :=
  match l with [] => [] | [a] => a | a :: l' => a ++ TComma :: separated l' end.
Definition call_tokens (args : list (list token)) : list token := TOpen :: separated args ++ [TClose].
(** the call gives every parameter an argument, which is [args]; for "..." the arguments and the commas between them are one *)
Inductive taken := Taken (args : list (list token)) | NotTaken.
Definition take (m : macro) (call : list token) : taken :=
  match arguments call with
  | Some (l, []) => match parameters m with
                    | Some n => if Datatypes.length l =? n then Taken l else NotTaken
                    | None => Taken [separated l]
                    end
  | _ => NotTaken
  end.
Definition is_taken (t : taken) : bool := match t with Taken _ => true | NotTaken => false end.
(** the call of a macro, with the calls in its replacement text, and those in theirs *)
Definition accepted (ndebug : bool) (m : macro) (call : list token) : bool :=
  match take m call with
  | NotTaken => false
  | Taken args =>
      forallb (fun '(m1, args1) => match take m1 (call_tokens args1) with
                                   | NotTaken => false
                                   | Taken args2 => forallb (fun '(m2, args3) => is_taken (take m2 (call_tokens args3))) (calls ndebug m1 args2)
                                   end) (calls ndebug m args)
  end.

(** ** Expressions and types of the client *)
Inductive cexpr :=
| CAtom (s : string)
| CParen (e : cexpr)                                  (* (e) *)
| CBinary (op : string) (a b : cexpr)                 (* a op b; op "," included *)
| CCall (f : cexpr) (args : list cexpr)               (* f(args) *)
| CBraces (t : cexpr) (args : list cexpr)             (* t{args} *)
| CTemplate (f : string) (args : list cexpr)          (* f<args> *)
| CIndex (a i : cexpr)                                (* a[i] *)
| CDefined (e : cexpr).                               (* the name of a macro defined as e *)
(** the tokens after the client's macros are expanded, and before *)
Fixpoint print_expanded (e : cexpr) : list token :=
  match e with
  | CAtom s => [TWord s]
  | CParen e => TOpen :: print_expanded e ++ [TClose]
  | CBinary op a b => print_expanded a ++ (if String.eqb op "," then TComma else TWord op) :: print_expanded b
  | CCall f args => print_expanded f ++ TOpen :: separated (map print_expanded args) ++ [TClose]
  | CBraces t args => print_expanded t ++ TWord "{" :: separated (map print_expanded args) ++ [TWord "}"]
  | CTemplate f args => TWord f :: TWord "<" :: separated (map print_expanded args) ++ [TWord ">"]
  | CIndex a i => print_expanded a ++ TWord "[" :: print_expanded i ++ [TWord "]"]
  | CDefined e => print_expanded e
  end.
Fixpoint print (e : cexpr) : list token :=
  match e with
  | CAtom s => [TWord s]
  | CParen e => TOpen :: print e ++ [TClose]
  | CBinary op a b => print a ++ (if String.eqb op "," then TComma else TWord op) :: print b
  | CCall f args => print f ++ TOpen :: separated (map print args) ++ [TClose]
  | CBraces t args => print t ++ TWord "{" :: separated (map print args) ++ [TWord "}"]
  | CTemplate f args => TWord f :: TWord "<" :: separated (map print args) ++ [TWord ">"]
  | CIndex a i => print a ++ TWord "[" :: print i ++ [TWord "]"]
  | CDefined e => [TMacro (print_expanded e)]
  end.
(** a call as the client writes it *)
Definition client_call (args : list cexpr) : list token := call_tokens (map print args).
