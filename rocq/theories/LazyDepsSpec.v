(** LazyDepsSpec.v -- Lazy objects that depend on each other. *)
From Verif Require Import Base HandleModel LazyModel LazyDepsModel.

Section Spec.
  Context {O E : Type}.
  (** every Lazy the code may call, whatever it is given, satisfies [P]; and it never returns null *)
  Fixpoint calls_only (P : nat -> Prop) (c : code O E) : Prop :=
    match c with
    | Return _ | Throw _ => True
    | ReturnNull => False
    | Ask k next => P k /\ forall x, calls_only P (next x)
    | Outside _ next => forall w, calls_only P (next w)
    end.
  (** the dependencies among the variables 0, ..., n-1 have no cycles: they decrease [rank] *)
  Definition acyclic (body : nat -> code O E) (n : nat) (rank : nat -> nat) : Prop :=
    forall d, d < n -> calls_only (fun k => k < n /\ rank k < rank d) (body d).
  (** the code may call Lazy [k] *)
  Inductive may_ask : code O E -> nat -> Prop :=
  | AskHere k next : may_ask (Ask k next) k
  | AskLater k next x j : may_ask (next x) j -> may_ask (Ask k next) j
  | AskAfter g next w j : may_ask (next w) j -> may_ask (Outside g next) j.
  (** [j] is [d], or [d] depends on it through a chain of Lazy objects *)
  Inductive needs (body : nat -> code O E) : nat -> nat -> Prop :=
  | NeedsSelf d : needs body d d
  | NeedsVia d k j : may_ask (body d) k -> needs body k j -> needs body d j.
  (** whatever happens, the first Lazy the code calls is in [C], and it does call one *)
  Fixpoint asks_first (C : nat -> Prop) (c : code O E) : Prop :=
    match c with
    | Ask k _ => C k
    | Outside _ next => forall w, asks_first C (next w)
    | _ => False
    end.
  (** code that calls no Lazy, and what it does *)
  Fixpoint no_ask (c : code O E) : Prop :=
    match c with
    | Ask _ _ => False
    | Outside _ next => forall w, no_ask (next w)
    | _ => True
    end.
  Fixpoint effect (c : code O E) (w : E) : outcome O * E :=
    match c with
    | Return v => (OutObj v, w)
    | ReturnNull => (OutNull, w)
    | Throw e => (OutThrow e, w)
    | Ask _ _ => (OutNull, w)
    | Outside g next => effect (next w) (g w)
    end.
  (** as a function object without a state of its own *)
  Definition plain (f : code O E) (w : E) : outcome O * code O E * E := (fst (effect f w), f, snd (effect f w)).
  (** code that only calls Lazy objects and returns *)
  Fixpoint pure (c : code O E) : Prop :=
    match c with
    | Return _ => True
    | ReturnNull | Throw _ | Outside _ _ => False
    | Ask k next => forall v, pure (next (inl v))
    end.
  (** what pure code returns if variable k has the value [val k] *)
  Fixpoint result (val : nat -> O) (c : code O E) : option O :=
    match c with
    | Return v => Some v
    | Ask k next => result val (next (inl (val k)))
    | _ => None
    end.
  (** the values of all variables satisfy their equations *)
  Definition solves (body : nat -> code O E) (n : nat) (val : nat -> O) : Prop :=
    forall d, d < n -> result val (body d) = Some (val d).

  (** object [a] exists and has value [v] *)
  Definition object (s : rst O E) (a : nat) (v : O) : Prop :=
    exists c, live_cell a (ptrs (r_lst s)) = Ret c (ptrs (r_lst s)) /\ c_val c = v.
  (** the objects returned by the function of [d] *)
  Fixpoint made (d : nat) (l : list (nat * outcome O)) : list O :=
    match l with
    | [] => []
    | (k, OutObj v) :: l' => if Nat.eqb k d then v :: made d l' else made d l'
    | _ :: l' => made d l'
    end.
  (** once a function has returned an object it is not called again *)
  Definition final (l : list (nat * outcome O)) : Prop :=
    forall d l1 v l2 o, l = l1 ++ (d, OutObj v) :: l2 -> ~ In (d, o) l2.
  (** calls of the same Lazy, in this order: after one has given an object the others give the same *)
  Definition stays (calls : list (nat * lout O)) : Prop :=
    forall d l1 a v l2 x, calls = l1 ++ (d, LObj a v) :: l2 -> In (d, x) l2 -> x = LObj a v.
  (** the two models give the same *)
  Definition agree {A} (x : res (rst O E) A) (y : res (lst O (code O E) E) A) : Prop :=
    match x, y with
    | Ret a s, Ret b l => a = b /\ r_lst s = l
    | Exc e s, Exc e' l => e = e' /\ r_lst s = l
    | Ub r, Ub r' => r = r'
    | Abort, Abort | Fuel, Fuel => True
    | _, _ => False
    end.
End Spec.
