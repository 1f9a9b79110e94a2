(** CalleeModel.v -- which functions apply and elementwise can be called with: include/container.hpp:105-125 for List, and
    include/metaprogramming.hpp:74-77 (InvokeResult, ResultOf), 169 (Invocable).  Definitions only.

    - A function takes elements of the lists, without conversion, by value or by one of three kinds of reference; a function object may
      have several call operators, const or not.  The name of a function stands for one function: for an overloaded name nothing is deduced.
    - Of the type of a result there is what matters for a list of them.  [conv n m]: an object of type n converts to m.
    - The element types are not bool, and what is called is in CallModel.v and ListModel.v. *)
From Verif Require Import Base.
Open Scope list_scope.
Open Scope nat_scope.

(** ** Overloads *)
Inductive form := ByValue | ConstRef | Ref | RRef.     (* T, const T&, T&, T&& *)
Inductive cat := Rvalue | Lvalue | ConstLvalue.        (* of the argument *)
Inductive rtype := RVoid | RVal (n : nat) | RConst (n : nat) | RRefTo (n : nat).      (* void, n, const n, n& or const n& *)
Record overload := mkO { o_const : bool; o_forms : list form; o_result : rtype }.
(** [dcl.init.ref] *)
Definition binds (f : form) (c : cat) : bool :=
  match f, c with
  | ByValue, _ | ConstRef, _ => true
  | Ref, Lvalue => true
  | RRef, Rvalue => true
  | _, _ => false
  end.
(** [over.ics.rank] 3.2.3, 3.2.6: only references are compared *)
Definition better (f g : form) (c : cat) : bool :=
  match f, g, c with
  | RRef, ConstRef, Rvalue | Ref, ConstRef, Lvalue => true
  | _, _, _ => false
  end.
Fixpoint all_bind (fs : list form) (cs : list cat) : bool :=
  match fs, cs with [], [] => true | f :: fs', c :: cs' => binds f c && all_bind fs' cs' | _, _ => false end.
Fixpoint some_better (fs gs : list form) (cs : list cat) : bool :=
  match fs, gs, cs with f :: fs', g :: gs', c :: cs' => better f g c || some_better fs' gs' cs' | _, _, _ => false end.
(** called on a const object or not *)
Definition viable (on_const : bool) (cs : list cat) (o : overload) : bool := (o_const o || negb on_const) && all_bind (o_forms o) cs.
Definition any_better (on_const : bool) (cs : list cat) (o p : overload) : bool :=
  (negb on_const && negb (o_const o) && o_const p) || some_better (o_forms o) (o_forms p) cs.
Definition beats (on_const : bool) (cs : list cat) (o p : overload) : bool :=
  any_better on_const cs o p && negb (any_better on_const cs p o).
(** [over.match.best]: the viable one that beats all others; None if there is no such *)
Fixpoint picks {A} (l : list A) : list (A * list A) :=
  match l with [] => [] | a :: l' => (a, l') :: map (fun '(b, r) => (b, a :: r)) (picks l') end.
Definition resolve (on_const : bool) (os : list overload) (cs : list cat) : option overload :=
  match filter (fun '(o, r) => forallb (beats on_const cs o) r) (picks (filter (viable on_const cs) os)) with
  | (o, _) :: _ => Some o
  | [] => None
  end.

(** ** What the client gives *)
Inductive callee :=
| FunctionName (o : overload)
| FunctionPointer (o : overload)
| Object (is_const : bool) (os : list overload).       (* a named object, const or not *)
(** f(x1,...,xk) for the client *)
Definition call (f : callee) (cs : list cat) : option overload :=
  match f with
  | FunctionName o | FunctionPointer o => if all_bind (o_forms o) cs then Some o else None
  | Object c os => resolve c os cs
  end.

(** ** The calls.  NotFound: not a candidate; IllFormed: an error in its body; Calls o n: each element is given to o, the results are
    collected in a List of n *)
Inductive outcome := NotFound | IllFormed | Calls (o : overload) (n : nat).
Section Conv.
  Variable conv : nat -> nat -> bool.
  (** res.append(...): std::vector has elements that are objects and not const *)
  Definition collect (r : rtype) (o : option overload) : outcome :=
    match r, o with
    | RVal n, Some o =>
        match o_result o with
        | RVal m | RConst m | RRefTo m => if (m =? n) || conv m n then Calls o n else IllFormed
        | RVoid => IllFormed
        end
    | _, _ => IllFormed
    end.
  (** container.hpp:105-110.  F&& is a reference to what the client names; Invocable<F,T>, InvokeResult<F,T>: called with a temporary;
      f(itm): with a variable *)
  Definition apply_call (f : callee) : outcome :=
    match call f [Rvalue] with
    | None => NotFound
    | Some o => collect (o_result o) (call f [Lvalue])
    end.
  (** 112-117, 119-125 for lists of number k.  ResultOf<F(T)> takes F apart from a function type with result F: there is none if F is the type
      of a function [dcl.fct]; F is deduced without const, and called as const *)
  Definition elementwise_call (k : nat) (f : callee) : outcome :=
    match f with
    | FunctionName _ => NotFound
    | FunctionPointer _ => match call f (repeat Rvalue k) with None => NotFound | Some o => collect (o_result o) (call f (repeat ConstLvalue k)) end
    | Object _ os => match resolve false os (repeat Rvalue k) with
                     | None => NotFound
                     | Some o => collect (o_result o) (resolve true os (repeat ConstLvalue k))
                     end
    end.
End Conv.
