(** HandleModel.v -- model of include/handle.hpp (Handle 62-117, dynamic_handle_cast 129-143,
    dynamic_handle_extract 145-169, dynamic_pointer_extract 173-180) over a heap of reference-counted
    objects.  Definitions only.

    - An object has a value in [V]; its dynamic type is [dyn v].
    - [clone] is the virtual function of the interface; theorems about values assume that it copies.
    - [subobjs D T]: the public base subobjects of type T in an object of dynamic type D; a
      dynamic_cast succeeds iff there is exactly one.  [wrapper T] is Wrapper<T,I>, and [inner T] the position of
      the T inside it.
    - The n-th allocation fails with std::bad_alloc if the n-th entry of the schedule is [true].
    - The text written to std::cerr by a failing cast is in ReportModel.v.  Simplified: a Handle<const DI>
      made by dynamic_handle_cast is a variable like the others (through which nothing is written). *)
From Verif Require Import Base.
Local Open Scope monad_scope.

(** a handle variable: not in scope, holding a null shared_ptr, holding a pointer *)
Inductive slot := Dead | Null | Ptr (a : nat).

Section Handle.
  Context {V Ty : Type} (clone : V -> V) (dyn : V -> Ty)
          (subobjs : Ty -> Ty -> list nat) (wrapper : Ty -> Ty) (inner : Ty -> nat).

  (** an object managed by shared_ptr: value, use count, whether its lifetime has not ended *)
  Record cell := mkCell { c_val : V; c_cnt : nat; c_live : bool }.
  Record hst := mkHst { vars : list slot; heap : list cell; sched : list bool; refs : nat -> option nat }.
  Definition hinit (n : nat) (sc : list bool) : hst := mkHst (repeat Dead n) [] sc (fun _ => None).

  (** ** std::shared_ptr *)
  (** new object owned by one temporary shared_ptr *)
  Definition alloc (v : V) : M hst nat := fun s =>
    match sched s with
    | true :: sc => Exc EBadAlloc (mkHst (vars s) (heap s) sc (refs s))
    | sc => Ret (length (heap s)) (mkHst (vars s) (heap s ++ [mkCell v 1 true]) (tl sc) (refs s))
    end.
  Definition set_cell (a : nat) (c : cell) : M hst unit := fun s =>
    Ret tt (mkHst (vars s) (upd a c (heap s)) (sched s) (refs s)).
  (** an object that may be used *)
  Definition live_cell (a : nat) : M hst cell := fun s =>
    match nth_error (heap s) a with
    | Some c => if c_live c then Ret c s else Ub UbDangling
    | None => Ub UbDangling
    end.
  Definition acquire (sl : slot) : M hst unit :=
    match sl with
    | Ptr a => c <- live_cell a ;; set_cell a (mkCell (c_val c) (c_cnt c + 1) true)
    | _ => ret tt
    end.
  Definition release (sl : slot) : M hst unit :=
    match sl with
    | Ptr a =>
        c <- live_cell a ;;
        match c_cnt c with
        | 0 => undefined UbDoubleFree
        | 1 => set_cell a (mkCell (c_val c) 0 false)
        | S (S n) => set_cell a (mkCell (c_val c) (S n) true)
        end
    | _ => ret tt
    end.

  (** ** variables *)
  (** an object in scope *)
  Definition get_slot (h : nat) : M hst slot := fun s =>
    match nth_error (vars s) h with
    | Some Dead => Ub UbDangling
    | Some sl => Ret sl s
    | None => Ub UbDangling
    end.
  Definition put_slot (h : nat) (sl : slot) : M hst unit := fun s =>
    Ret tt (mkHst (upd h sl (vars s)) (heap s) (sched s) (refs s)).
  (** storage for a new object *)
  Definition fresh_slot (d : nat) : M hst unit := fun s =>
    match nth_error (vars s) d with
    | Some Dead => Ret tt s
    | _ => Ub UbUninit
    end.
  Definition deref (sl : slot) : M hst (nat * cell) :=
    match sl with
    | Ptr a => c <- live_cell a ;; ret (a, c)
    | Null => undefined UbNull
    | Dead => undefined UbDangling
    end.

  (** ** Handle *)
  (** 69-75: the constructors from a pointer, an interface object and a derived object *)
  Definition h_new (d : nat) (v : V) : M hst unit :=
    fresh_slot d ;;; a <- alloc v ;; put_slot d (Ptr a).
  Definition h_null (d : nat) : M hst unit := fresh_slot d ;;; put_slot d Null.
  (** 78, 82: copy construction *)
  Definition h_copy (d s : nat) : M hst unit :=
    fresh_slot d ;;; sl <- get_slot s ;; acquire sl ;;; put_slot d sl.
  (** 79: move construction *)
  Definition h_move (d s : nat) : M hst unit :=
    fresh_slot d ;;; sl <- get_slot s ;; put_slot s Null ;;; put_slot d sl.
  (** 80: copy assignment, shared_ptr(r).swap( *this ) *)
  Definition h_assign (d s : nat) : M hst unit :=
    sl <- get_slot s ;; acquire sl ;;; old <- get_slot d ;; put_slot d sl ;;; release old.
  (** 81: move assignment, shared_ptr(move(r)).swap( *this ) *)
  Definition h_move_assign (d s : nat) : M hst unit :=
    sl <- get_slot s ;; put_slot s Null ;;; old <- get_slot d ;; put_slot d sl ;;; release old.
  (** 68: destruction *)
  Definition h_destroy (d : nat) : M hst unit :=
    sl <- get_slot d ;; put_slot d Dead ;;; release sl.
  (** 108-111: make_unique clones always *)
  Definition make_unique (h : nat) : M hst unit :=
    sl <- get_slot h ;; ac <- deref sl ;; b <- alloc (clone (c_val (snd ac))) ;;
    old <- get_slot h ;; put_slot h (Ptr b) ;;; release old.
  (** 86-87, 90-91, 94-95, 98, 101 and 84: const access *)
  Definition const_access (h : nat) : M hst (nat * cell) := sl <- get_slot h ;; deref sl.
  (** 88, 92, 96, 99, 102: non-const access *)
  Definition access (h : nat) : M hst (nat * cell) := make_unique h ;;; const_access h.
  (** 106: Handle d(s.managed_pointer()) with non-const s; 70 *)
  Definition h_managed (d s : nat) : M hst unit := fresh_slot d ;;; make_unique s ;;; h_copy d s.
  Definition write (a : nat) (f : V -> V) : M hst unit :=
    c <- live_cell a ;; set_cell a (mkCell (f (c_val c)) (c_cnt c) (c_live c)).

  (** ** casts *)
  Definition dynamic_cast (D T : Ty) : option nat :=
    match subobjs D T with [o] => Some o | _ => None end.
  (** 129-143; the const shared_ptr returned by managed_pointer() makes [if constexpr] take its second
      branch, lines 136-137 *)
  Definition handle_cast (d s : nat) (t : Ty) : M hst unit :=
    fresh_slot d ;;; sl <- get_slot s ;;
    match sl with
    | Ptr a =>
        c <- live_cell a ;;
        match dynamic_cast (dyn (c_val c)) t with
        | Some _ => h_copy d s
        | None => throw EBadCast
        end
    | _ => undefined UbNull
    end.
  (** 145-169: the subobject found *)
  Definition extract_from (D T : Ty) : option nat :=
    match dynamic_cast D T with
    | Some o => Some o
    | None => match dynamic_cast D (wrapper T) with Some o => Some (o + inner T) | None => None end
    end.
  Definition handle_extract (h : nat) (t : Ty) : M hst (nat * nat) :=
    ac <- const_access h ;;
    match extract_from (dyn (c_val (snd ac))) t with
    | Some o => ret (fst ac, o)
    | None => throw EBadCast
    end.
  (** 173-180 on s.managed_const_pointer() *)
  Definition pointer_extract (d s : nat) (t : Ty) : M hst unit :=
    fresh_slot d ;;; sl <- get_slot s ;;
    match sl with
    | Ptr a =>
        c <- live_cell a ;;
        match extract_from (dyn (c_val c)) t with
        | Some _ => h_copy d s
        | None => put_slot d Null
        end
    | _ => put_slot d Null
    end.

  (** ** programs *)
  Inductive hop :=
  | OpNew (d : nat) (v : V) | OpNull (d : nat)
  | OpCopy (d s : nat) | OpMove (d s : nat) | OpAssign (d s : nat) | OpMoveAssign (d s : nat)
  | OpDestroy (d : nat)
  | OpRead (h : nat)                      (* a const access and a read through it *)
  | OpWrite (h : nat) (f : V -> V)        (* a non-const access and a write through it *)
  | OpManaged (d s : nat)
  | OpCast (d s : nat) (t : Ty) | OpPtrExtract (d s : nat) (t : Ty).
  (** references held across other statements *)
  Inductive rop :=
  | RefGet (r h : nat)                    (* r = h.reference(), non-const *)
  | RefConst (r h : nat)                  (* r = h.reference(), const *)
  | RefExtract (r h : nat) (t : Ty)       (* r = dynamic_handle_extract<T>(h) *)
  | RefRead (r : nat) | RefWrite (r : nat) (f : V -> V).
  Inductive op := H (o : hop) | R (o : rop).

  Inductive out := ODone | OVal (v : V) | OSub (o : nat) | OExc (e : exn).

  Definition set_ref (r a : nat) : M hst unit := fun s =>
    Ret tt (mkHst (vars s) (heap s) (sched s) (set_var (refs s) r (Some a))).
  Definition get_ref (r : nat) : M hst nat := fun s =>
    match refs s r with Some a => Ret a s | None => Ub UbUninit end.

  Definition hstep (o : hop) : M hst out :=
    match o with
    | OpNew d v => h_new d v ;;; ret ODone
    | OpNull d => h_null d ;;; ret ODone
    | OpCopy d s => h_copy d s ;;; ret ODone
    | OpMove d s => h_move d s ;;; ret ODone
    | OpAssign d s => h_assign d s ;;; ret ODone
    | OpMoveAssign d s => h_move_assign d s ;;; ret ODone
    | OpDestroy d => h_destroy d ;;; ret ODone
    | OpRead h => ac <- const_access h ;; ret (OVal (c_val (snd ac)))
    | OpWrite h f => ac <- access h ;; write (fst ac) f ;;; ret ODone
    | OpManaged d s => h_managed d s ;;; ret ODone
    | OpCast d s t => handle_cast d s t ;;; ret ODone
    | OpPtrExtract d s t => pointer_extract d s t ;;; ret ODone
    end.
  Definition rstep (o : rop) : M hst out :=
    match o with
    | RefGet r h => ac <- access h ;; set_ref r (fst ac) ;;; ret ODone
    | RefConst r h => ac <- const_access h ;; set_ref r (fst ac) ;;; ret ODone
    | RefExtract r h t => ao <- handle_extract h t ;; set_ref r (fst ao) ;;; ret (OSub (snd ao))
    | RefRead r => a <- get_ref r ;; c <- live_cell a ;; ret (OVal (c_val c))
    | RefWrite r f => a <- get_ref r ;; write a f ;;; ret ODone
    end.
  Definition step (o : op) : M hst out := match o with H o => hstep o | R o => rstep o end.

  (** a program: every statement in a try block; its outputs, and the final state or the undefined
      behaviour that stopped it *)
  Fixpoint run (p : list op) (s : hst) : list out * (hst + ub_reason) :=
    match p with
    | [] => ([], inl s)
    | o :: p' =>
        match step o s with
        | Ret x s' => let (l, f) := run p' s' in (x :: l, f)
        | Exc e s' => let (l, f) := run p' s' in (OExc e :: l, f)
        | Ub r => ([], inr r)
        | Abort | Fuel => ([], inr UbUninit)
        end
    end.
End Handle.
Arguments hop : clear implicits.
Arguments rop : clear implicits.
Arguments op : clear implicits.
Arguments cell : clear implicits.
Arguments hst : clear implicits.
Arguments out : clear implicits.
