(** MacroModel.v -- include/macros.hpp (49-176): the assertion and reporting macros.

    A macro is text; what it does depends on the names it declares and on how often it evaluates its
    arguments.  Macros are therefore functions from syntax to syntax over a small C++ statement language
    with block scopes, static locals, exceptions and the streams cout and cerr, followed by an
    interpreter for that language.

    Simplifications: values are integers; macro arguments are parsed expressions (no capture by operator
    precedence inside the replacement text); the text of [#expression] is passed as a separate argument;
    writing to a stream never fails; names are resolved while executing, so that an undeclared name in
    code that is not reached is not reported.  Evaluation order of the operands of a binary operator and
    of function arguments is unspecified in C++: a parameter [ltr] chooses it. *)
From Verif Require Import Base StreamModel.
From Coq Require Import String.
Open Scope list_scope.
Open Scope Z_scope.

Notation name := String.string.

(** ** Syntax *)
(** exceptions: of a class derived from std::exception, or of any other type *)
Inductive excn : Type := XStd (cls : nat) (what : text) | XOther (cls : nat).
Definition runtime_error : nat := 0%nat.

Inductive cmp : Type := CEq | CNe | CLt | CLe | CGt | CGe.
Inductive expr : Type :=
| ELit (z : Z)
| EVar (x : name)
| EBool (e : expr)                       (* static_cast<bool>(e) *)
| ENot (e : expr)
| EAnd (e1 e2 : expr)                    (* short circuit *)
| ECmp (c : cmp) (e1 e2 : expr)
| ESub (e1 e2 : expr)
| EAbs (e : expr)
| ECall1 (f : nat) (e : expr)            (* call of a function that may have effects and throw *)
| ECall2 (f : nat) (e1 e2 : expr)
| EAssign (x : name) (e : expr)
| EIncr (x : name)                       (* ++x for an int x *)
| ECheck (e1 e2 : expr).                 (* testing_check(std::cout,e1,e2), include/test.hpp 47-51 *)

(** what is inserted into a stream by << *)
Inductive part : Type := PStr (t : text) | PExp (e : expr) | PWhat (x : name).
Inductive sink : Type := Cout | Cerr | Into (x : name).
Inductive stmt : Type :=
| SSkip
| SExpr (e : expr)
| SDecl (auto : bool) (x : name) (e : expr)                (* [T x = e;], T deduced or not *)
| SStatic (x : name) (site : nat) (z : Z)                  (* static bool x=z; *)
| SStream (x : name)                                       (* std::ostringstream x; *)
| SInsert (k : sink) (ps : list part)
| SThrow (cls : nat) (x : name)                            (* throw cls(x.str()); *)
| SThrowText (cls : nat) (t : text)                        (* throw cls(t); *)
| SIf (e : expr) (s1 s2 : stmt)                            (* each branch is a scope of its own *)
| SBlock (s : stmt)
| SSeq (s1 s2 : stmt)
| STry (s : stmt) (p1 : excn -> bool) (x1 : option name) (h1 : stmt)
                  (p2 : excn -> bool) (x2 : option name) (h2 : stmt).
Fixpoint seqs (l : list stmt) : stmt :=
  match l with [] => SSkip | [s] => s | s :: l' => SSeq s (seqs l') end.

(** ** States *)
(** a declared name is an int or bool, one under initialisation, an auto variable under initialisation,
    a static local, an ostringstream or a caught exception *)
Inductive cell : Type :=
| CVal (z : Z) | CIndet | CUndeduced | CStatic (site : nat) | CStream (t : text) | CExn (x : excn).
Definition frame : Type := list (name * cell).
(** [s_statics] gives the static locals initialised so far; [s_world] is whatever functions act upon *)
Record st (W : Type) : Type := mkSt {
  s_frames : list frame; s_statics : nat -> option Z; s_out : text; s_err : text; s_world : W
}.
Arguments mkSt {W}. Arguments s_frames {W}. Arguments s_statics {W}. Arguments s_out {W}.
Arguments s_err {W}. Arguments s_world {W}.

Inductive outc (S A : Type) : Type :=
| Norm (a : A) (s : S)
| Thrown (x : excn) (s : S)
| Undef (r : ub_reason)
| Ill.                          (* the program does not compile *)
Arguments Norm {S A}. Arguments Thrown {S A}. Arguments Undef {S A}. Arguments Ill {S A}.
Definition obind {S A B} (m : outc S A) (k : A -> S -> outc S B) : outc S B :=
  match m with Norm a s => k a s | Thrown x s => Thrown x s | Undef r => Undef r | Ill => Ill end.

(** the result of a function call *)
Inductive callres (W : Type) : Type := CRet (z : Z) (w : W) | CThrow (x : excn) (w : W).
Arguments CRet {W}. Arguments CThrow {W}.

(** ** Environments *)
Fixpoint find_in (x : name) (f : frame) : option cell :=
  match f with [] => None | (y, c) :: f' => if String.eqb x y then Some c else find_in x f' end.
Fixpoint set_in (x : name) (c : cell) (f : frame) : frame :=
  match f with
  | [] => []
  | (y, d) :: f' => if String.eqb x y then (y, c) :: f' else (y, d) :: set_in x c f'
  end.
Fixpoint lookup (x : name) (fs : list frame) : option cell :=
  match fs with [] => None | f :: fs' => match find_in x f with Some c => Some c | None => lookup x fs' end end.
Fixpoint assign (x : name) (c : cell) (fs : list frame) : list frame :=
  match fs with
  | [] => []
  | f :: fs' => match find_in x f with Some _ => set_in x c f :: fs' | None => f :: assign x c fs' end
  end.
Definition upd_static (site : nat) (z : Z) (t : nat -> option Z) : nat -> option Z :=
  fun i => if Nat.eqb i site then Some z else t i.

Section Interp.
Context {W : Type} (call : nat -> list Z -> W -> callres W) (ltr : bool).
Notation S := (st W).

Definition with_frames (fs : list frame) (s : S) : S := mkSt fs (s_statics s) (s_out s) (s_err s) (s_world s).
Definition with_statics (t : nat -> option Z) (s : S) : S := mkSt (s_frames s) t (s_out s) (s_err s) (s_world s).
Definition with_world (w : W) (s : S) : S := mkSt (s_frames s) (s_statics s) (s_out s) (s_err s) w.
Definition add_out (t : text) (s : S) : S := mkSt (s_frames s) (s_statics s) (s_out s ++ t) (s_err s) (s_world s).
Definition add_err (t : text) (s : S) : S := mkSt (s_frames s) (s_statics s) (s_out s) (s_err s ++ t) (s_world s).
Definition push (f : frame) (s : S) : S := with_frames (f :: s_frames s) s.
Definition pop (s : S) : S := with_frames (tl (s_frames s)) s.

Definition b2z (b : bool) : Z := if b then 1 else 0.
Definition truth (z : Z) : bool := negb (z =? 0).
Definition compare_vals (c : cmp) (a b : Z) : bool :=
  match c with
  | CEq => a =? b | CNe => negb (a =? b) | CLt => a <? b | CLe => a <=? b | CGt => b <? a | CGe => b <=? a
  end.

Definition read_var (x : name) (s : S) : outc S Z :=
  match lookup x (s_frames s) with
  | Some (CVal z) => Norm z s
  | Some CIndet => Undef UbUninit
  | Some (CStatic i) => match s_statics s i with Some z => Norm z s | None => Undef UbUninit end
  | Some CUndeduced | Some (CStream _) | Some (CExn _) | None => Ill
  end.
Definition write_var (x : name) (z : Z) (s : S) : outc S Z :=
  match lookup x (s_frames s) with
  | Some (CVal _) | Some CIndet => Norm z (with_frames (assign x (CVal z) (s_frames s)) s)
  | Some (CStatic i) => Norm z (with_statics (upd_static i z (s_statics s)) s)
  | Some CUndeduced | Some (CStream _) | Some (CExn _) | None => Ill
  end.
Definition do_call (f : nat) (l : list Z) (s : S) : outc S Z :=
  match call f l (s_world s) with
  | CRet z w => Norm z (with_world w s)
  | CThrow x w => Thrown x (with_world w s)
  end.
(** two operands in the chosen order *)
Definition both {A} (m1 m2 : S -> outc S Z) (k : Z -> Z -> S -> outc S A) (s : S) : outc S A :=
  if ltr then obind (m1 s) (fun a s1 => obind (m2 s1) (fun b s2 => k a b s2))
  else obind (m2 s) (fun b s1 => obind (m1 s1) (fun a s2 => k a b s2)).

Fixpoint eval (e : expr) (s : S) : outc S Z :=
  match e with
  | ELit z => Norm z s
  | EVar x => read_var x s
  | EBool e => obind (eval e s) (fun z s' => Norm (b2z (truth z)) s')
  | ENot e => obind (eval e s) (fun z s' => Norm (b2z (negb (truth z))) s')
  | EAnd e1 e2 => obind (eval e1 s) (fun a s1 => if truth a
                     then obind (eval e2 s1) (fun b s2 => Norm (b2z (truth b)) s2) else Norm 0 s1)
  | ECmp c e1 e2 => both (eval e1) (eval e2) (fun a b s' => Norm (b2z (compare_vals c a b)) s') s
  | ESub e1 e2 => both (eval e1) (eval e2) (fun a b s' => Norm (a - b) s') s
  | EAbs e => obind (eval e s) (fun z s' => Norm (Z.abs z) s')
  | ECall1 f e => obind (eval e s) (fun z s' => do_call f [z] s')
  | ECall2 f e1 e2 => both (eval e1) (eval e2) (fun a b s' => do_call f [a; b] s') s
  | EAssign x e => obind (eval e s) (fun z s' => write_var x z s')
  | EIncr x => obind (read_var x s) (fun z s' =>
                 if z + 1 <? 2 ^ 31 then write_var x (z + 1) s' else Undef UbOverflow)
  | ECheck e1 e2 => both (eval e1) (eval e2) (fun a b s' => Norm (b2z (a =? b)) (add_out (int_text a) s')) s
  end.

Definition put (k : sink) (t : text) (s : S) : outc S unit :=
  match k with
  | Cout => Norm tt (add_out t s)
  | Cerr => Norm tt (add_err t s)
  | Into x => match lookup x (s_frames s) with
              | Some (CStream u) => Norm tt (with_frames (assign x (CStream (u ++ t)) (s_frames s)) s)
              | _ => Ill
              end
  end.
Definition what_of (x : name) (s : S) : outc S text :=
  match lookup x (s_frames s) with Some (CExn (XStd _ t)) => Norm t s | _ => Ill end.
(** [k << p1 << p2 ...]: each operand is evaluated and written before the next one (C++17) *)
Fixpoint insert (k : sink) (ps : list part) (s : S) : outc S unit :=
  match ps with
  | [] => Norm tt s
  | PStr t :: ps' => obind (put k t s) (fun _ s' => insert k ps' s')
  | PExp e :: ps' => obind (eval e s) (fun z s1 => obind (put k (int_text z) s1) (fun _ s2 => insert k ps' s2))
  | PWhat x :: ps' => obind (what_of x s) (fun t s1 => obind (put k t s1) (fun _ s2 => insert k ps' s2))
  end.

(** a new name in the innermost scope *)
Definition declare (x : name) (c : cell) (s : S) : outc S unit :=
  match s_frames s with
  | f :: fs => match find_in x f with
               | Some _ => Ill                                        (* redeclaration *)
               | None => Norm tt (with_frames (((x, c) :: f) :: fs) s)
               end
  | [] => Ill
  end.
Definition define (x : name) (z : Z) (s : S) : S := with_frames (assign x (CVal z) (s_frames s)) s.

(** leave a scope, normally or by an exception *)
Definition leave {A} (m : outc S A) : outc S A :=
  match m with Norm a s => Norm a (pop s) | Thrown x s => Thrown x (pop s) | Undef r => Undef r | Ill => Ill end.
Definition bound (x : option name) (e : excn) : frame := match x with Some n => [(n, CExn e)] | None => [] end.

Fixpoint exec (c : stmt) (s : S) : outc S unit :=
  match c with
  | SSkip => Norm tt s
  | SExpr e => obind (eval e s) (fun _ s' => Norm tt s')
  | SDecl auto x e => obind (declare x (if auto then CUndeduced else CIndet) s) (fun _ s1 =>
                      obind (eval e s1) (fun z s2 => Norm tt (define x z s2)))
  | SStatic x site z => obind (declare x (CStatic site) s) (fun _ s1 =>
                          match s_statics s1 site with
                          | None => Norm tt (with_statics (upd_static site z (s_statics s1)) s1)
                          | Some _ => Norm tt s1
                          end)
  | SStream x => declare x (CStream []) s
  | SInsert k ps => insert k ps s
  | SThrow cls x => match lookup x (s_frames s) with Some (CStream t) => Thrown (XStd cls t) s | _ => Ill end
  | SThrowText cls t => Thrown (XStd cls t) s
  | SIf e s1 s2 => obind (eval e s) (fun z s' => leave (if truth z then exec s1 (push [] s') else exec s2 (push [] s')))
  | SBlock c => leave (exec c (push [] s))
  | SSeq c1 c2 => obind (exec c1 s) (fun _ s' => exec c2 s')
  | STry c p1 x1 h1 p2 x2 h2 =>
      match leave (exec c (push [] s)) with
      | Thrown x s' =>
          if p1 x then leave (exec h1 (push (bound x1 x) s'))
          else if p2 x then leave (exec h2 (push (bound x2 x) s'))
          else Thrown x s'
      | m => m
      end
  end.
End Interp.

(** ** macros.hpp *)
(** __FILE__, __LINE__ and __FUNCTION__ (or HELPER_PRETTY_FUNCTION) *)
Record loc := mkLoc { l_file : text; l_line : Z; l_func : text }.
Open Scope string_scope.
Definition lit (s : String.string) : part := PStr (chars s).
Definition endl : part := PStr [ascii_of_nat 10].
Definition newline : text := [ascii_of_nat 10].
(** __FILE__<<":"<<__LINE__<<": "<<func *)
Definition p_loc (l : loc) : list part :=
  [PStr (l_file l); lit ":"; PExp (ELit (l_line l)); lit ": "; PStr (l_func l)].
Definition brace (l : list stmt) : stmt := SBlock (seqs l).

(** HELPER_THROW(std::runtime_error,func,msg), macros.hpp 49-54 *)
Definition HELPER_THROW (func msg : list part) : stmt :=
  brace [ SStream "ss";
          SInsert (Into "ss") ([lit "std::runtime_error in "]%list ++ func ++ [lit ": "]%list ++ msg);
          SThrow runtime_error "ss" ].
(** the body shared by 56-62, 65-77, 80-92, 95-101, 103-109, 111-123 and 130-136: the name of the local
    variable, the condition and the message differ *)
Definition assertion (local : name) (cond : expr) (l : loc) (msg : list part) : stmt :=
  brace [ SDecl false local (EBool cond);
          SIf (ENot (EVar local)) (SSeq (HELPER_THROW (p_loc l) msg) SSkip) SSkip ].

(** HELPER_ASSERT, 56-62 *)
Definition HELPER_ASSERT (l : loc) (txt : text) (e : expr) : stmt :=
  assertion "assertion_result" e l [lit "Assertion `"; PStr txt; lit "' failed."].
(** HELPER_DEBUG_ASSERT_MSG, 65-77 *)
Definition HELPER_DEBUG_ASSERT_MSG (ndebug : bool) (l : loc) (txt : text) (e : expr) (error : list part) : stmt :=
  if ndebug then brace []
  else assertion "assertion_result" e l ([lit "Assertion `"; PStr txt; PStr (chars "' failed." ++ newline)%list; lit "  "] ++ error)%list.
(** HELPER_DEBUG_ASSERT, 80-92 *)
Definition HELPER_DEBUG_ASSERT (ndebug : bool) (l : loc) (txt : text) (e : expr) : stmt :=
  if ndebug then brace []
  else assertion "assertion_result" e l [lit "Assertion `"; PStr txt; lit "' failed."].
(** HELPER_PRECONDITION_MSG, 95-101 *)
Definition HELPER_PRECONDITION_MSG (l : loc) (txt : text) (e : expr) (error : list part) : stmt :=
  assertion "assertion_result" e l ([lit "Precondition `"; PStr txt; PStr (chars "' failed." ++ newline)%list; lit "  "] ++ error)%list.
(** HELPER_PRECONDITION, 103-109 *)
Definition HELPER_PRECONDITION (l : loc) (txt : text) (e : expr) : stmt :=
  assertion "assertion_result" e l [lit "Precondition `"; PStr txt; lit "' failed."].
(** HELPER_DEBUG_PRECONDITION, 111-123: the local variable is called result *)
Definition HELPER_DEBUG_PRECONDITION (ndebug : bool) (l : loc) (txt : text) (e : expr) : stmt :=
  if ndebug then brace []
  else assertion "result" e l [lit "Precondition `"; PStr txt; lit "' failed."].
(** HELPER_FAIL_MSG, 125-128 *)
Definition HELPER_FAIL_MSG (l : loc) (error : list part) : stmt :=
  brace [ HELPER_THROW (p_loc l) ([lit "ErrorTag "] ++ error)%list; SSkip ].
(** HELPER_ASSERT_MSG, 130-136 *)
Definition HELPER_ASSERT_MSG (l : loc) (txt : text) (e : expr) (error : list part) : stmt :=
  assertion "assertion_result" e l ([lit "Assertion `"; PStr txt; PStr (chars "' failed." ++ newline)%list; lit "  "] ++ error)%list.
(** HELPER_ASSERT_EQUAL, 138-144: the message evaluates both expressions again *)
Definition HELPER_ASSERT_EQUAL (l : loc) (txt1 txt2 : text) (e1 e2 : expr) : stmt :=
  assertion "assertion_result" (ECmp CEq e1 e2) l
    [lit "Assertion `"; PStr txt1; lit "=="; PStr txt2; PStr (chars "' failed." ++ newline)%list; lit "  ";
     PExp e1; lit " != "; PExp e2].
(** HELPER_NOT_IMPLEMENTED, 146-147 *)
Definition HELPER_NOT_IMPLEMENTED (l : loc) : stmt :=
  SThrowText runtime_error (chars "Not implemented: " ++ l_func l)%list.
(** HELPER_DEPRECATED, 149-154: no braces around it *)
Definition HELPER_DEPRECATED (site : nat) (fn msg : text) : stmt :=
  SSeq (SStatic "first_time" site 1)
       (SIf (EVar "first_time")
          (SSeq (SExpr (EAssign "first_time" (ELit 0)))
                (SInsert Cerr [lit "DEPRECATED: Function "; PStr fn; lit " is deprecated. "; PStr msg; endl]))
          SSkip).
(** HELPER_NOTIFY, 156-159 *)
Definition HELPER_NOTIFY (msg : list part) : stmt :=
  brace [ SInsert Cerr ([lit "NOTIFICATION: "] ++ msg ++ [lit ""; endl])%list ].
(** HELPER_WARN, 161-164 *)
Definition HELPER_WARN (msg : list part) : stmt :=
  brace [ SInsert Cerr ([lit "WARNING: "] ++ msg ++ [lit ""; endl])%list ].
(** HELPER_WARN_ONCE, 166-171: no braces around it.  The two statements are kept apart, since a
    preceding [if(c)] governs the first one only. *)
Definition warn_once_decl (site : nat) : stmt := SStatic "first_time" site 1.
Definition warn_once_rest (msg : list part) : stmt :=
  SIf (EVar "first_time")
    (SSeq (SExpr (EAssign "first_time" (ELit 0)))
          (SInsert Cerr ([lit "WARNING: "] ++ msg ++ [lit ""; endl])%list))
    SSkip.
Definition HELPER_WARN_ONCE (site : nat) (msg : list part) : stmt :=
  SSeq (warn_once_decl site) (warn_once_rest msg).
(** [if(c) HELPER_WARN_ONCE(msg);] after expansion *)
Definition if_warn_once (c : expr) (site : nat) (msg : list part) : stmt :=
  seqs [ SIf c (warn_once_decl site) SSkip; warn_once_rest msg; SSkip ].
(** [if(c) HELPER_DEPRECATED(fn,msg);] after expansion *)
Definition if_deprecated (c : expr) (site : nat) (fn msg : text) : stmt :=
  seqs [ SIf c (SStatic "first_time" site 1) SSkip;
         SIf (EVar "first_time")
          (SSeq (SExpr (EAssign "first_time" (ELit 0)))
                (SInsert Cerr [lit "DEPRECATED: Function "; PStr fn; lit " is deprecated. "; PStr msg; endl]))
          SSkip;
         SSkip ].
(** HELPER_ERROR, 173-176 *)
Definition HELPER_ERROR (msg : list part) : stmt :=
  brace [ SInsert Cerr ([lit "ERROR: "] ++ msg ++ [lit ""; endl])%list ].
