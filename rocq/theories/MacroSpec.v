(** MacroSpec.v -- what the macros of include/macros.hpp are meant to do, in terms of the evaluation of
    their arguments. *)
From Verif Require Import Base StreamModel MacroModel.
From Coq Require Import String.
Open Scope list_scope.
Open Scope Z_scope.

(** the names occurring in an expression or a message *)
Fixpoint mentions (x : name) (e : expr) : bool :=
  match e with
  | ELit _ => false
  | EVar y => String.eqb x y
  | EBool e | ENot e | EAbs e | ECall1 _ e => mentions x e
  | EAnd e1 e2 | ECmp _ e1 e2 | ESub e1 e2 | ECall2 _ e1 e2 | ECheck e1 e2 => mentions x e1 || mentions x e2
  | EAssign y e => String.eqb x y || mentions x e
  | EIncr y => String.eqb x y
  end.
Definition part_mentions (x : name) (p : part) : bool :=
  match p with PStr _ => false | PExp e => mentions x e | PWhat y => String.eqb x y end.
Definition msg_mentions (x : name) (ps : list part) : bool := existsb (part_mentions x) ps.

Section Spec.
Context {W : Type} (call : nat -> list Z -> W -> callres W) (ltr : bool).
Notation S := (st W).

(** the text of a message: each expression in it is evaluated once, in order *)
Fixpoint render (ps : list part) (s : S) : outc S text :=
  match ps with
  | [] => Norm [] s
  | PStr t :: ps' => obind (render ps' s) (fun u s' => Norm (t ++ u) s')
  | PExp e :: ps' => obind (eval call ltr e s) (fun z s1 => obind (render ps' s1) (fun u s2 => Norm (int_text z ++ u) s2))
  | PWhat x :: ps' => obind (what_of x s) (fun t s1 => obind (render ps' s1) (fun u s2 => Norm (t ++ u) s2))
  end.

(** Executing [m] evaluates [e] exactly once; if the value is true there is no further effect; if it is
    false a std::runtime_error is thrown, whose text is [head] followed by the text of the message
    [extra].  An exception thrown by the evaluation of [e] or of the message passes through. *)
Definition asserts (m : stmt) (e : expr) (head : text) (extra : list part) : Prop :=
  forall s : S, exec call ltr m s =
    match eval call ltr e s with
    | Norm v s1 =>
        if v =? 0 then
          match render extra s1 with
          | Norm t s2 => Thrown (XStd runtime_error (head ++ t)) s2
          | Thrown x s2 => Thrown x s2
          | Undef r => Undef r
          | Ill => Ill
          end
        else Norm tt s1
    | Thrown x s1 => Thrown x s1
    | Undef r => Undef r
    | Ill => Ill
    end.
(** Executing [m] evaluates the expressions of [msg] once, in order, and writes [head], the text of [msg]
    and a newline to cerr.  An exception thrown by the message passes through, after the part of the text
    before it. *)
Definition logs (m : stmt) (head : text) (msg : list part) : Prop :=
  forall s : S,
    match render msg s with
    | Norm t s1 => exec call ltr m s = Norm tt (add_err (head ++ t ++ newline) s1)
    | Thrown x s1 => exists t, exec call ltr m s = Thrown x (add_err (head ++ t) s1)
    | Undef r => exec call ltr m s = Undef r
    | Ill => exec call ltr m s = Ill
    end.
(** Executing [m] throws std::runtime_error with the text [head] followed by the text of [msg]. *)
Definition fails_with (m : stmt) (head : text) (msg : list part) : Prop :=
  forall s : S, exec call ltr m s =
    match render msg s with
    | Norm t s1 => Thrown (XStd runtime_error (head ++ t)) s1
    | Thrown x s1 => Thrown x s1
    | Undef r => Undef r
    | Ill => Ill
    end.
End Spec.

(** "std::runtime_error in FILE:LINE: FUNCTION: KIND `CONDITION' failed." *)
Definition report (l : loc) (kind : String.string) (txt : text) : text :=
  chars "std::runtime_error in " ++ l_file l ++ chars ":" ++ int_text (l_line l) ++ chars ": " ++ l_func l
  ++ chars ": " ++ chars kind ++ chars " `" ++ txt ++ chars "' failed.".
(** the line break and indentation before a message *)
Definition report_msg (l : loc) (kind : String.string) (txt : text) : text :=
  report l kind txt ++ newline ++ chars "  ".

(** An execution of one of the reporting macros: the textual occurrence and what it has to write. *)
Inductive occurrence : Type := OWarn (site : nat) (msg : text) | ODeprecated (site : nat) (fn msg : text).
Definition site_of (o : occurrence) : nat := match o with OWarn i _ => i | ODeprecated i _ _ => i end.
Definition line_of (o : occurrence) : text :=
  match o with
  | OWarn _ msg => chars "WARNING: " ++ msg ++ newline
  | ODeprecated _ fn msg => chars "DEPRECATED: Function " ++ fn ++ chars " is deprecated. " ++ msg ++ newline
  end.
(** the lines reported by a trace: an execution reports iff no earlier one was of the same occurrence *)
Fixpoint reported (before : list nat) (tr : list occurrence) : list text :=
  match tr with
  | [] => []
  | o :: tr' => (if existsb (Nat.eqb (site_of o)) before then [] else [line_of o])
                ++ reported (site_of o :: before) tr'
  end.
(** the same occurrence in a scope of its own, as the body of a function *)
Definition occurrence_stmt (o : occurrence) : stmt :=
  SBlock (match o with
          | OWarn i msg => HELPER_WARN_ONCE i [PStr msg]
          | ODeprecated i fn msg => HELPER_DEPRECATED i fn msg
          end).
Definition trace_stmt (tr : list occurrence) : stmt := seqs (map occurrence_stmt tr).
