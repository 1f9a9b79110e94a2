(** ResultModel.v -- ResultOf and InvokeResult, include/metaprogramming.hpp:74-77.  Definitions only.

    - Types: named ones, const, references, pointers, arrays and functions; a const array is an array of const elements.
    - What a callee returns is a table of the types std::declval gives for the arguments; the arguments match exactly. *)
From Verif Require Import Base.
Open Scope list_scope.
Open Scope nat_scope.

Inductive ty :=
| TVoid | TName (n : nat) | TConst (t : ty) | TLref (t : ty) | TRref (t : ty) | TPtr (t : ty) | TArray (t : ty) (n : nat)
| TFunction (r : ty) (ps : list ty).
Fixpoint ty_eqb (a b : ty) : bool :=
  match a, b with
  | TVoid, TVoid => true
  | TName n, TName m => n =? m
  | TConst a, TConst b | TLref a, TLref b | TRref a, TRref b | TPtr a, TPtr b => ty_eqb a b
  | TArray a n, TArray b m => ty_eqb a b && (n =? m)
  | TFunction r ps, TFunction r' ps' =>
      ty_eqb r r' && (fix go l l' := match l, l' with [], [] => true | x :: l, y :: l' => ty_eqb x y && go l l' | _, _ => false end) ps ps'
  | _, _ => false
  end.
(** std::declval<T>(): T&&, references collapse; void for void *)
Definition declval (t : ty) : ty := match t with TLref t => TLref t | TRref t => TRref t | TVoid => TVoid | t => TRref t end.

(** ** std::invoke_result<F,AS...>::type; None: there is none *)
Definition callees := list (ty * list ty * ty).        (* what is called, the arguments, the result *)
Definition lookup (c : callees) (f : ty) (args : list ty) : option ty :=
  match find (fun '(g, ps, _) => ty_eqb f g && (length args =? length ps) && forallb (fun '(a, p) => ty_eqb a p) (combine args ps)) c with
  | Some (_, _, r) => Some r
  | None => None
  end.
Definition is_void (t : ty) : bool := match t with TVoid => true | _ => false end.
(** 74 *)
Definition invoke_result (c : callees) (f : ty) (args : list ty) : option ty :=
  if existsb is_void args then None else lookup c (declval f) (map declval args).

(** ** The type F(AS...), [dcl.fct] *)
Definition adjust (t : ty) : ty :=
  match t with
  | TConst t => t
  | TArray t _ => TPtr t
  | TFunction r ps => TPtr (TFunction r ps)
  | t => t
  end.
Definition function_type (f : ty) (args : list ty) : option ty :=
  match f with
  | TArray _ _ | TFunction _ _ => None                 (* functions return neither *)
  | _ => match args with
         | [TVoid] => Some (TFunction f [])            (* (void): no parameters *)
         | _ => if existsb is_void args then None else Some (TFunction f (map adjust args))
         end
  end.
(** 75-77: the specialisation takes the type apart again *)
Definition result_of (c : callees) (f : ty) (args : list ty) : option ty :=
  match function_type f args with
  | Some (TFunction g ps) => invoke_result c g ps
  | _ => None
  end.
