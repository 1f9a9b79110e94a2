(** GroupModel.v -- the texts that macros of include/test.hpp and include/macros.hpp are replaced by, where an argument is not put
    in parentheses: how C++ groups the operators.  Definitions only.

    - A text is a sequence of operands separated by operators; what stands in parentheses (or between ? and :) is a text again.
      Putting one text after another is [join]; a macro argument is spliced in, and its operators are grouped with those around it.
    - [group] builds the tree that the compiler builds, with a stack of operators waiting for their right operands.
    - [typ] and [eval]: the types and values of trees.  Simplified: values are integers of any size (bool among them), string
      literals and one stream; a division by zero and a negative shift are undefined ([None]).
    - Not modelled: assignment and comma; arithmetic on string literals (taken as not compiling). *)
From Verif Require Import Base StreamModel.

Inductive binop :=
| OMul | ODiv | OMod | OAdd | OSub | OShl | OShr | OLt | OLe | OGt | OGe | OEq | ONe | OBitAnd | OBitXor | OBitOr | OAnd | OOr.
(** C++ grammar [expr.mul] to [expr.cond]: the higher the tighter; the conditional operator has 3 *)
Definition prec (b : binop) : nat :=
  match b with
  | OMul | ODiv | OMod => 13
  | OAdd | OSub => 12
  | OShl | OShr => 11
  | OLt | OLe | OGt | OGe => 10
  | OEq | ONe => 9
  | OBitAnd => 8 | OBitXor => 7 | OBitOr => 6 | OAnd => 5 | OOr => 4
  end.

(** ** texts *)
Inductive operand :=
| ANum (z : Z)                     (* a number *)
| AVar (x : nat)                   (* a variable *)
| AStr (t : text)                  (* a string literal *)
| AStream                          (* the stream *)
| APar (c : chain)                 (* ( c ) *)
| AAbs (c : chain)                 (* abs( c ) *)
| ANeg (a : operand)               (* - a *)
| ANot (a : operand)               (* ! a *)
with chain := CLast (a : operand) | CMore (a : operand) (o : link) (c : chain)
with link := LBin (b : binop) | LCond (mid : chain).      (* a binary operator; ? mid : *)
Definition lprec (o : link) : nat := match o with LBin b => prec b | LCond _ => 3 end.
(** c1 o c2 *)
Fixpoint join (c1 : chain) (o : link) (c2 : chain) : chain :=
  match c1 with CLast a => CMore a o c2 | CMore a o' c => CMore a o' (join c o c2) end.

(** ** trees *)
Inductive tree :=
| TNum (z : Z) | TVar (x : nat) | TStr (t : text) | TStream | TAbs (t : tree) | TNeg (t : tree) | TNot (t : tree)
| TBin (b : binop) (l r : tree) | TCond (c t e : tree).
(** an operator with what stands between ? and : *)
Inductive opr := RBin (b : binop) | RCond (mid : tree).
Definition rprec (o : opr) : nat := match o with RBin b => prec b | RCond _ => 3 end.
Definition apply_op (o : opr) (l r : tree) : tree := match o with RBin b => TBin b l r | RCond m => TCond l m r end.
(** the operators that wait for their right operands, with their left operands, the last one first *)
Definition stack := list (tree * opr).
(** operator [o] comes next: the ones before it that are tighter have their right operand; equal ones too, except that the
    conditional operator groups to the right *)
Definition waits (o o' : opr) : bool := match o' with RBin b => rprec o <? prec b | RCond _ => rprec o <=? 3 end.
Fixpoint settle (o' : opr) (st : stack) (cur : tree) : stack * tree :=
  match st with
  | [] => ([], cur)
  | (l, o) :: st' => if waits o o' then (st, cur) else settle o' st' (apply_op o l cur)
  end.
Fixpoint finish (st : stack) (cur : tree) : tree :=
  match st with [] => cur | (l, o) :: st' => finish st' (apply_op o l cur) end.
Fixpoint group_operand (a : operand) : tree :=
  match a with
  | ANum z => TNum z | AVar x => TVar x | AStr t => TStr t | AStream => TStream
  | APar c => group_chain c []
  | AAbs c => TAbs (group_chain c [])
  | ANeg a => TNeg (group_operand a)
  | ANot a => TNot (group_operand a)
  end
with group_chain (c : chain) (st : stack) : tree :=
  match c with
  | CLast a => finish st (group_operand a)
  | CMore a o c' =>
      let o' := group_link o in
      let (st', cur) := settle o' st (group_operand a) in group_chain c' ((cur, o') :: st')
  end
with group_link (o : link) : opr :=
  match o with LBin b => RBin b | LCond m => RCond (group_chain m []) end.
Definition group (c : chain) : tree := group_chain c [].

(** ** types: [None] if it does not compile *)
Inductive ty := TyInt | TyText | TyStream.
Definition arith (a b : option ty) : option ty := match a, b with Some TyInt, Some TyInt => Some TyInt | _, _ => None end.
Fixpoint typ (t : tree) : option ty :=
  match t with
  | TNum _ | TVar _ => Some TyInt
  | TStr _ => Some TyText
  | TStream => Some TyStream
  | TAbs a | TNeg a => match typ a with Some TyInt => Some TyInt | _ => None end
  | TNot a => match typ a with Some _ => Some TyInt | None => None end
  | TBin OShl a b => match typ a, typ b with
                     | Some TyStream, Some TyInt | Some TyStream, Some TyText => Some TyStream
                     | x, y => arith x y
                     end
  | TBin OAnd a b | TBin OOr a b => match typ a, typ b with Some _, Some _ => Some TyInt | _, _ => None end   (* streams and pointers convert to bool *)
  | TBin _ a b => arith (typ a) (typ b)
  | TCond c a b => match typ c, typ a, typ b with
                   | Some _, Some x, Some y => match x, y with TyInt, TyInt => Some TyInt | TyText, TyText => Some TyText
                                                                | TyStream, TyStream => Some TyStream | _, _ => None end
                   | _, _, _ => None
                   end
  end.

(** ** values; the stream is good, and the text in it is the state *)
Inductive value := VInt (z : Z) | VText (t : text) | VStream.
Definition b2z (b : bool) : Z := if b then 1%Z else 0%Z.
Definition truth (v : value) : bool := match v with VInt z => negb (z =? 0)%Z | VText _ => true | VStream => true end.
Definition arith_op (b : binop) (x y : Z) : option Z :=
  match b with
  | OMul => Some (x * y)%Z
  | ODiv => if (y =? 0)%Z then None else Some (Z.quot x y)
  | OMod => if (y =? 0)%Z then None else Some (Z.rem x y)
  | OAdd => Some (x + y)%Z | OSub => Some (x - y)%Z
  | OShl => if (y <? 0)%Z then None else Some (Z.shiftl x y)
  | OShr => if (y <? 0)%Z then None else Some (Z.shiftr x y)
  | OLt => Some (b2z (x <? y)%Z) | OLe => Some (b2z (x <=? y)%Z) | OGt => Some (b2z (y <? x)%Z) | OGe => Some (b2z (y <=? x)%Z)
  | OEq => Some (b2z (x =? y)%Z) | ONe => Some (b2z (negb (x =? y)%Z))
  | OBitAnd => Some (Z.land x y) | OBitXor => Some (Z.lxor x y) | OBitOr => Some (Z.lor x y)
  | OAnd | OOr => None      (* not reached *)
  end.
Section Eval.
  Context (pr : Z -> text) (env : nat -> Z).
  Definition result := option (value * text).
  Definition bindv (m : result) (k : value -> text -> result) : result := match m with Some (v, s) => k v s | None => None end.
  Fixpoint eval (t : tree) (s : text) : result :=
    match t with
    | TNum z => Some (VInt z, s)
    | TVar x => Some (VInt (env x), s)
    | TStr x => Some (VText x, s)
    | TStream => Some (VStream, s)
    | TAbs a => bindv (eval a s) (fun v s => match v with VInt z => Some (VInt (Z.abs z), s) | _ => None end)
    | TNeg a => bindv (eval a s) (fun v s => match v with VInt z => Some (VInt (- z)%Z, s) | _ => None end)
    | TNot a => bindv (eval a s) (fun v s => Some (VInt (b2z (negb (truth v))), s))
    | TBin OAnd a b => bindv (eval a s) (fun v s => if truth v then bindv (eval b s) (fun w s => Some (VInt (b2z (truth w)), s))
                                                    else Some (VInt 0, s))
    | TBin OOr a b => bindv (eval a s) (fun v s => if truth v then Some (VInt 1, s)
                                                   else bindv (eval b s) (fun w s => Some (VInt (b2z (truth w)), s)))
    | TBin o a b => bindv (eval a s) (fun v s => bindv (eval b s) (fun w s =>
        match v, w with
        | VInt x, VInt y => match arith_op o x y with Some z => Some (VInt z, s) | None => None end
        | VStream, VInt y => Some (VStream, s ++ pr y)
        | VStream, VText y => Some (VStream, s ++ y)
        | _, _ => None
        end))
    | TCond c a b => bindv (eval c s) (fun v s => if truth v then eval a s else eval b s)
    end.
  (** the value of an integer expression that stands alone *)
  Definition int_value (c : chain) : option Z :=
    match typ (group c), eval (group c) [] with
    | Some TyInt, Some (VInt z, _) => Some z
    | _, _ => None
    end.

  (** ** HELPER_TEST_WITHIN(e,x,tol), test.hpp 306-321: whether the check passes *)
  (** 309: abs(expression-expected) *)
  Definition within_error (e x : chain) : chain := CLast (AAbs (join e (LBin OSub) x)).
  (** 310: (error <= tolerance), where error is a variable of value [d] *)
  Definition within_ok (d : Z) (tol : chain) : chain := CLast (APar (join (CLast (ANum d)) (LBin OLe) tol)).
  Definition within_passes (e x tol : chain) : option bool :=
    match int_value (within_error e x) with
    | Some d => match int_value (within_ok d tol) with Some z => Some (negb (z =? 0)%Z) | None => None end
    | None => None
    end.

  (** ** messages *)
  (** ss << t1 << ... << tn, the literals of a macro *)
  Fixpoint inserted (c : chain) (ts : list text) : chain :=
    match ts with [] => c | t :: ts' => inserted (join c (LBin OShl) (CLast (AStr t))) ts' end.
  Definition into_stream (ts : list text) : chain := inserted (CLast AStream) ts.
  (** what becomes of the text in the stream: it does not compile, it is undefined, or [Written s] *)
  Inductive written := NoCompile | UndefinedText | Written (s : text).
  Definition write (c : chain) : written :=
    match typ (group c) with
    | None => NoCompile
    | Some _ => match eval (group c) [] with Some (_, s) => Written s | None => UndefinedText end
    end.
  (** HELPER_ASSERT_EQUAL(e1,e2), macros.hpp 142: ss << ... << "  "<<expression1<<" != "<<expression2; [ts] is what comes before *)
  Definition equal_message (ts : list text) (ne : text) (e1 e2 : chain) : chain :=
    join (join (join (into_stream ts) (LBin OShl) e1) (LBin OShl) (CLast (AStr ne))) (LBin OShl) e2.
  (** HELPER_ASSERT_MSG and the others with a message, macros.hpp 70, 99, 127, 134: ss << ... <<error *)
  Definition error_message (ts : list text) (error : chain) : chain := join (into_stream ts) (LBin OShl) error.
End Eval.
