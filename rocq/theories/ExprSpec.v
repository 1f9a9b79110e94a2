(** ExprSpec.v -- the values of expressions without effects, by the rules of C++, independent of how MacroModel.v evaluates.  Definitions only. *)
From Verif Require Import Base StreamModel MacroModel.
Open Scope Z_scope.

Definition relation (c : cmp) (a b : Z) : Prop :=
  match c with CEq => a = b | CNe => a <> b | CLt => a < b | CLe => a <= b | CGt => a > b | CGe => a >= b end.
(** [means rho e z]: e has the value z where the variables have the values rho.  true is 1, false is 0; of e1 && e2 with false e1 the
    operand e2 need not have a value *)
Inductive means (rho : name -> Z -> Prop) : expr -> Z -> Prop :=
| M_lit z : means rho (ELit z) z
| M_var x z : rho x z -> means rho (EVar x) z
| M_bool_true e z : means rho e z -> z <> 0 -> means rho (EBool e) 1
| M_bool_false e : means rho e 0 -> means rho (EBool e) 0
| M_not_true e : means rho e 0 -> means rho (ENot e) 1
| M_not_false e z : means rho e z -> z <> 0 -> means rho (ENot e) 0
| M_and_true e1 e2 a b : means rho e1 a -> a <> 0 -> means rho e2 b -> b <> 0 -> means rho (EAnd e1 e2) 1
| M_and_first e1 e2 : means rho e1 0 -> means rho (EAnd e1 e2) 0
| M_and_second e1 e2 a : means rho e1 a -> means rho e2 0 -> means rho (EAnd e1 e2) 0
| M_cmp_true c e1 e2 a b : means rho e1 a -> means rho e2 b -> relation c a b -> means rho (ECmp c e1 e2) 1
| M_cmp_false c e1 e2 a b : means rho e1 a -> means rho e2 b -> ~ relation c a b -> means rho (ECmp c e1 e2) 0
| M_sub e1 e2 a b : means rho e1 a -> means rho e2 b -> means rho (ESub e1 e2) (a - b)
| M_abs_pos e z : means rho e z -> 0 <= z -> means rho (EAbs e) z
| M_abs_neg e z : means rho e z -> z < 0 -> means rho (EAbs e) (- z).
(** x is an initialised variable, not a static one, in scope, and the innermost one of this name has the value z *)
Definition holds {W} (s : st W) (x : name) (z : Z) : Prop :=
  exists fs1 f1 f2 f fs2, s_frames s = fs1 ++ f :: fs2 /\ f = f1 ++ (x, CVal z) :: f2 /\
    (forall g y c, In g fs1 -> In (y, c) g -> y <> x) /\ (forall y c, In (y, c) f1 -> y <> x).
(** no calls, assignments and checks that print *)
Fixpoint effectless (e : expr) : Prop :=
  match e with
  | ELit _ | EVar _ => True
  | EBool e | ENot e | EAbs e => effectless e
  | EAnd e1 e2 | ECmp _ e1 e2 | ESub e1 e2 => effectless e1 /\ effectless e2
  | _ => False
  end.
Definition no_statics {W} (s : st W) : Prop := forall f x i, In f (s_frames s) -> ~ In (x, CStatic i) f.
