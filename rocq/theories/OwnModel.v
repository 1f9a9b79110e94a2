(** OwnModel.v -- objects of polymorphic classes owned through pointers: the class hierarchy of include/randomiser.hpp:61-82
    and of include/writable.hpp:44-53, 68-75, and programs that create randomisers, draw from them and release them.
    Definitions only.
    Simplified: classes have at most one base; the members of a class are left out. *)
From Verif Require Import Base RandomModel.
Local Open Scope monad_scope.

(** classes, for one T; [UserClass n v b] is a class of the user derived publicly from [b] (and nothing else); [v]: it
    declares its destructor virtual *)
Inductive cls :=
| RandomiserInterface        (* randomiser.hpp:61-64 *)
| RandomiserBase             (* randomiser.hpp:66-72, for one distribution *)
| UniformRandomiser          (* randomiser.hpp:74-82, UniformRealRandomiser or UniformIntRandomiser *)
| WritableInterface          (* writable.hpp:44-53 *)
| WriterInterface            (* writable.hpp:68-75 *)
| UserClass (n : nat) (v : bool) (b : cls).
Definition base_of (c : cls) : option cls :=
  match c with
  | RandomiserBase => Some RandomiserInterface      (* randomiser.hpp:66 *)
  | UniformRandomiser => Some RandomiserBase        (* randomiser.hpp:74, 79 *)
  | UserClass _ _ b => Some b
  | _ => None
  end.
(** is the destructor declared virtual: writable.hpp:46, 70; randomiser.hpp declares no destructor *)
Definition declares_virtual (c : cls) : bool :=
  match c with WritableInterface | WriterInterface => true | UserClass _ v _ => v | _ => false end.

(** C++ language.  A destructor is virtual if it is declared so or overrides a virtual one. *)
Fixpoint virtual_destructor (c : cls) : bool :=
  declares_virtual c ||
  match c with
  | RandomiserBase => declares_virtual RandomiserInterface
  | UniformRandomiser => declares_virtual RandomiserBase || declares_virtual RandomiserInterface
  | UserClass _ _ b => virtual_destructor b
  | _ => false
  end.
(** the class and its bases, from the most derived one: the order in which the destructors run *)
Fixpoint chain (c : cls) : list cls :=
  c :: match c with
       | RandomiserBase => [RandomiserInterface]
       | UniformRandomiser => [RandomiserBase; RandomiserInterface]
       | UserClass _ _ b => chain b
       | _ => []
       end.
Fixpoint cls_eqb (a b : cls) : bool :=
  match a, b with
  | RandomiserInterface, RandomiserInterface | RandomiserBase, RandomiserBase | UniformRandomiser, UniformRandomiser
  | WritableInterface, WritableInterface | WriterInterface, WriterInterface => true
  | UserClass n v a', UserClass m w b' => Nat.eqb n m && Bool.eqb v w && cls_eqb a' b'
  | _, _ => false
  end.
(** delete of an object of class [dyn] through a pointer to [stat] ([expr.delete]): the destructors that run, or
    undefined behaviour *)
Definition delete_through (stat dyn : cls) : option (list cls) :=
  if cls_eqb stat dyn then Some (chain dyn)
  else if existsb (cls_eqb stat) (chain dyn) && virtual_destructor stat then Some (chain dyn)
  else None.

(** the owner of an object: a unique_ptr (or a pointer that is deleted) to [stat]; a shared_ptr, whose deleter deletes
    through the class [made] it was created with; a variable of the class itself *)
Inductive owner := OwnUnique (stat : cls) | OwnShared (made : cls) | OwnAuto.
Definition released_through (o : owner) (dyn : cls) : cls :=
  match o with OwnUnique s => s | OwnShared m => m | OwnAuto => dyn end.

Section Programs.
  Context {T G Ds : Type} (next : G -> Z * G) (dmake : T -> T -> Ds) (ddraw : Ds -> draw (T * Ds)).
  (** the randomisers (with RANDOM_GENERATOR), and for each its class and owner *)
  Record ost := mkOst { o_rand : rst G Ds; o_own : nat -> option (cls * owner) }.
  Definition oinit (g : G) : ost := mkOst (rinit g) (fun _ => None).
  (** statements; an object whose number is given to a new one while it is there is never released *)
  Inductive oop :=
  | ONew (k : nat) (dyn : cls) (o : owner) (min max : T)
  | OGet (k : nat)                 (* through the interface: get is virtual *)
  | ORelease (k : nat).            (* the owner is destroyed *)
  Inductive oout := OVal (v : T) | ODone | OGone (l : list cls).
  Definition on_rand {A} (m : M (rst G Ds) A) : M ost A := fun s =>
    match m (o_rand s) with
    | Ret a r => Ret a (mkOst r (o_own s))
    | Exc e r => Exc e (mkOst r (o_own s))
    | Ub r => Ub r | Abort => Abort | Fuel => Fuel
    end.
  Definition ostep (op : oop) : M ost oout :=
    match op with
    | ONew k dyn o a b =>
        on_rand (construct dmake k a b) ;;;
        (fun s => Ret ODone (mkOst (o_rand s) (set_var (o_own s) k (Some (dyn, o)))))
    | OGet k => fun s =>
        match o_own s k with
        | Some _ => (v <- on_rand (get next ddraw k) ;; ret (OVal v)) s
        | None => Ub UbDangling
        end
    | ORelease k => fun s =>
        match o_own s k with
        | Some (dyn, o) =>
            match delete_through (released_through o dyn) dyn with
            | Some l => Ret (OGone l) (mkOst (o_rand s) (set_var (o_own s) k None))
            | None => Ub UbDangling
            end
        | None => Ub UbDoubleFree
        end
    end.
  (** a program, up to the first undefined behaviour *)
  Fixpoint orun (p : list oop) (s : ost) : res ost (list oout) :=
    match p with
    | [] => Ret [] s
    | o :: p' => (x <- ostep o ;; l <- orun p' ;; ret (x :: l)) s
    end.
End Programs.
Arguments ost : clear implicits.
Arguments oop : clear implicits.
Arguments oout : clear implicits.
