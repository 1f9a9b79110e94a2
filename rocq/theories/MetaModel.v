(** MetaModel.v -- model of the invocability traits and concepts of include/metaprogramming.hpp:114-131, 172-173.
    Definitions only.

    Types are described as far as the traits look at them.  What the types of a program are able to do (calls,
    conversions, the assignment operators of classes) is a parameter ([lang]); the rules for scalars are the language's.
    Not modelled: array and function types as R; traits with another number of arguments than one (the class templates are
    not defined for them: a program that uses them does not compile). *)
From Verif Require Import Base.

Inductive object_type :=
| TScalar (n : nat)        (* int, double, T*, ... *)
| TMember (n : nat)        (* a pointer to member (a scalar type too) *)
| TClass (n : nat).
Inductive ref_kind := NoRef | LRef | RRef.
Inductive type := TVoid | TObj (o : object_type) (const : bool) (r : ref_kind).

Record lang := mkLang {
  l_call : type -> type -> option type;            (* the type of f(a), for f, a of types F&&, A&&; f not a pointer to member *)
  l_member : nat -> type -> option type;           (* the type of invoke(m,a), for a pointer to member m *)
  l_convertible : type -> type -> bool;            (* std::is_convertible *)
  l_class_assign : nat -> bool -> bool -> type -> bool  (* c = x for a (const?, lvalue?) object of class c and x of a type *)
}.

Section Traits.
  Variable L : lang.
  (** the expression declval<F>()(declval<A>()): a pointer to member cannot be called, there are no void arguments *)
  Definition call_expr (F A : type) : option type :=
    match F, A with
    | TVoid, _ | _, TVoid => None
    | TObj (TMember _) _ _, _ => None
    | _, _ => l_call L F A
    end.
  (** std::invoke_result *)
  Definition invoke_result (F A : type) : option type :=
    match F, A with
    | TVoid, _ | _, TVoid => None
    | TObj (TMember m) _ _, _ => l_member L m A
    | _, _ => l_call L F A
    end.
  (** the expression declval<R>() = x: declval of a type that is not an lvalue reference is an rvalue; a scalar that is
      assigned to is a modifiable lvalue *)
  Definition assign_expr (R x : type) : bool :=
    match R, x with
    | TVoid, _ | _, TVoid => false
    | TObj (TClass n) c r, _ => l_class_assign L n c (match r with LRef => true | _ => false end) x
    | TObj o c LRef, _ => negb c && l_convertible L x (TObj o false NoRef)
    | TObj _ _ _, _ => false
    end.
  Definition is_some {X} (o : option X) : bool := match o with Some _ => true | None => false end.

  (** metaprogramming.hpp:117-123 *)
  Definition IsInvocable (F A : type) : bool := is_some (call_expr F A).
  (** 125-131 *)
  Definition IsInvocableReturning (R F A : type) : bool :=
    match call_expr F A with Some t => assign_expr R t | None => false end.
  (** 172: the concept Invocable, std::invocable *)
  Definition Invocable (F A : type) : bool := is_some (invoke_result F A).
  (** 173: the concept InvocableReturning *)
  Definition InvocableReturning (R F A : type) : bool :=
    Invocable F A && match invoke_result F A with Some t => l_convertible L t R | None => false end.
End Traits.
