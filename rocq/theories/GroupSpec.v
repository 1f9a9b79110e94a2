(** GroupSpec.v -- the C++ grammar of binary and conditional expressions, and what the macros are meant to do with the values of
    their arguments.  Independent of how the model groups (no stack here). *)
From Verif Require Import Base StreamModel GroupModel.

(** [parses n c t]: text [c] is an expression of level [n] or tighter, and [t] is its tree.  14 is an operand, 13 a
    multiplicative-expression, ..., 4 a logical-or-expression, 3 a conditional expression:
        X-expression ::= tighter-expression | X-expression X-operator tighter-expression
        conditional-expression ::= logical-or-expression | logical-or-expression ? expression : conditional-expression *)
Inductive parses : nat -> chain -> tree -> Prop :=
| P_operand a t : parses_operand a t -> parses 14 (CLast a) t
| P_tighter n c t : 3 <= n -> parses (S n) c t -> parses n c t
| P_bin b c1 c2 t1 t2 : parses (prec b) c1 t1 -> parses (S (prec b)) c2 t2 -> parses (prec b) (join c1 (LBin b) c2) (TBin b t1 t2)
| P_cond c1 m c2 t1 tm t2 : parses 4 c1 t1 -> parses 3 m tm -> parses 3 c2 t2 ->
    parses 3 (join c1 (LCond m) c2) (TCond t1 tm t2)
with parses_operand : operand -> tree -> Prop :=
| P_num z : parses_operand (ANum z) (TNum z)
| P_var x : parses_operand (AVar x) (TVar x)
| P_str t : parses_operand (AStr t) (TStr t)
| P_stream : parses_operand AStream TStream
| P_par c t : parses 3 c t -> parses_operand (APar c) t
| P_abs c t : parses 3 c t -> parses_operand (AAbs c) (TAbs t)
| P_neg a t : parses_operand a t -> parses_operand (ANeg a) (TNeg t)
| P_not a t : parses_operand a t -> parses_operand (ANot a) (TNot t).
(** the tree of a whole text *)
Definition reads (c : chain) (t : tree) : Prop := parses 3 c t.

(** every operator of [c] that is not inside parentheses has level [n] or tighter *)
Fixpoint at_least (n : nat) (c : chain) : Prop :=
  match c with
  | CLast _ => True
  | CMore _ o c' => n <= match o with LBin b => prec b | LCond _ => 3 end /\ at_least n c'
  end.

(** an argument of integer type and its value, as if it stood alone *)
Section Values.
  Context (pr : Z -> text) (env : nat -> Z).
  (** it is a value whatever is in the stream, and nothing is written by taking it *)
  Definition has_value (c : chain) (z : Z) : Prop :=
    exists t, reads c t /\ typ t = Some TyInt /\ forall s, eval pr env t s = Some (VInt z, s).
End Values.

(** the productions of the grammar from the tightest, [expr.mul] to [expr.log.or]; an operator of the i-th has level 13 - i *)
Definition productions : list (list binop) :=
  [[OMul; ODiv; OMod]; [OAdd; OSub]; [OShl; OShr]; [OLt; OLe; OGt; OGe]; [OEq; ONe]; [OBitAnd]; [OBitXor]; [OBitOr]; [OAnd]; [OOr]].

(** [op_value b x y z]: C++ gives x b y the value z [expr.mul] to [expr.log.or]; true is 1 and false is 0 *)
Definition says (P : Prop) (z : Z) : Prop := (P /\ z = 1%Z) \/ (~ P /\ z = 0%Z).
Definition op_value (b : binop) (x y z : Z) : Prop :=
  match b with
  | OMul => z = (x * y)%Z | OAdd => z = (x + y)%Z | OSub => (z + y)%Z = x
  | ODiv => y <> 0%Z /\ exists r, x = (z * y + r)%Z /\ (Z.abs r < Z.abs y)%Z /\ (0 <= r * x)%Z    (* truncated *)
  | OMod => y <> 0%Z /\ exists q, x = (q * y + z)%Z /\ (Z.abs z < Z.abs y)%Z /\ (0 <= z * x)%Z
  | OShl => (0 <= y)%Z /\ z = (x * 2 ^ y)%Z | OShr => (0 <= y)%Z /\ z = (x / 2 ^ y)%Z
  | OLt => says (x < y)%Z z | OLe => says (x <= y)%Z z | OGt => says (x > y)%Z z | OGe => says (x >= y)%Z z
  | OEq => says (x = y) z | ONe => says (x <> y) z
  | OBitAnd => forall i, (0 <= i)%Z -> Z.testbit z i = Z.testbit x i && Z.testbit y i
  | OBitXor => forall i, (0 <= i)%Z -> Z.testbit z i = xorb (Z.testbit x i) (Z.testbit y i)
  | OBitOr => forall i, (0 <= i)%Z -> Z.testbit z i = Z.testbit x i || Z.testbit y i
  | OAnd => says (x <> 0%Z /\ y <> 0%Z) z | OOr => says (x <> 0%Z \/ y <> 0%Z) z
  end.

(** what HELPER_TEST_WITHIN is for *)
Definition within (v1 v2 tol : Z) : bool := (Z.abs (v1 - v2) <=? tol)%Z.
(** what the message of HELPER_ASSERT_EQUAL is for *)
Definition intended_message (pr : Z -> text) (before : text) (v1 : Z) (ne : text) (v2 : Z) : text :=
  before ++ pr v1 ++ ne ++ pr v2.

(** a message written p << p1 << ... << pn, and the text of each part *)
Inductive part := PText (t : text) | PExpr (e : chain).
Definition part_chain (p : part) : chain := match p with PText t => CLast (AStr t) | PExpr e => e end.
Definition parts_chain (p : part) (ps : list part) : chain :=
  fold_left (fun c q => join c (LBin OShl) (part_chain q)) ps (part_chain p).
Definition part_text (pr : Z -> text) (env : nat -> Z) (p : part) (x : text) : Prop :=
  match p with
  | PText t => x = t
  | PExpr e => exists v, at_least 12 e /\ has_value pr env e v /\ x = pr v
  end.
