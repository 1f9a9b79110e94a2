(** ArrayModel.v -- model of include/array.hpp, class Array (52-221) and complement (249-260), over a
    heap of blocks of storage.  Definitions only.

    - A block has a size in bytes and room for as many elements as fit; a cell of a block holds an
      element ([Some v]) or is raw storage ([None]).
    - operator new(n) throws std::bad_alloc for n >= 2^63 (no implementation provides objects larger than
      PTRDIFF_MAX) and whenever the environment says so.
    - [cd s = Some k]: the k-th operation from now that can fail (an allocation, or the construction or
      assignment of an element) throws.  At most one failure per member function call matters, since
      nothing is caught inside.
    - Sizes and indices (size_t) are natural numbers; the product n*sizeof(T) is computed modulo 2^64.
    - Simplified: element values have one type [V] of one size [sz] for all arrays, a conversion between
      element types is a function on [V]; destructors do not throw; a generator is a function of the index. *)
From Verif Require Import Base.
Local Open Scope monad_scope.

Section Array.
  Context {V : Type} (sz : Z) (dflt : V) (neq : V -> V -> bool).

  Record blk := mkBlk { b_bytes : Z; b_cells : list (option V); b_freed : bool }.
  (** an Array variable: not in scope, or with members _size and _ptr (219-220) *)
  Inductive avar := Dead | Arr (size : nat) (ptr : option nat).
  (** [made] and [gone]: number of elements constructed and destroyed so far *)
  Record st := mkSt { vars : list avar; heap : list blk; made : nat; gone : nat; cd : option nat }.
  Definition init (n : nat) : st := mkSt (repeat Dead n) [] 0 0 None.

  (** ** storage *)
  (** something that can fail *)
  Definition event (e : exn) : M st unit := fun s =>
    match cd s with
    | Some 0 => Exc e (mkSt (vars s) (heap s) (made s) (gone s) None)
    | Some (S k) => Ret tt (mkSt (vars s) (heap s) (made s) (gone s) (Some k))
    | None => Ret tt s
    end.
  (** 55: uninitialized_new *)
  Definition bytes_for (n : nat) : Z := wrap64 (Z.of_nat n * sz).
  Definition uninitialized_new (n : nat) : M st (option nat) :=
    event EBadAlloc ;;; (fun s =>
      if (2 ^ 63 <=? bytes_for n)%Z then Exc EBadAlloc s
      else Ret (Some (length (heap s)))
               (mkSt (vars s)
                     (heap s ++ [mkBlk (bytes_for n) (repeat None (Z.to_nat (bytes_for n / sz))) false])
                     (made s) (gone s) (cd s))).
  (** 56: uninitialized_delete; deleting the null pointer does nothing *)
  Definition uninitialized_delete (p : option nat) : M st unit := fun s =>
    match p with
    | None => Ret tt s
    | Some b =>
        match nth_error (heap s) b with
        | Some k => if b_freed k then Ub UbDoubleFree
                    else Ret tt (mkSt (vars s) (upd b (mkBlk (b_bytes k) (b_cells k) true) (heap s)) (made s) (gone s) (cd s))
        | None => Ub UbDoubleFree
        end
    end.
  (** the block a pointer points into *)
  Definition block (p : option nat) : M st (nat * blk) := fun s =>
    match p with
    | None => Ub UbNull
    | Some b => match nth_error (heap s) b with
                | Some k => if b_freed k then Ub UbDangling else Ret (b, k) s
                | None => Ub UbDangling
                end
    end.
  Definition cell (k : blk) (i : nat) : M st (option V) := fun s =>
    match nth_error (b_cells k) i with Some c => Ret c s | None => Ub UbOutOfBounds end.
  Definition set_cell (b : nat) (k : blk) (i : nat) (c : option V) (dm dg : nat) : M st unit := fun s =>
    Ret tt (mkSt (vars s) (upd b (mkBlk (b_bytes k) (upd i c (b_cells k)) (b_freed k)) (heap s)) (made s + dm) (gone s + dg) (cd s)).
  (** reading *(p+i) *)
  Definition load (p : option nat) (i : nat) : M st V :=
    bk <- block p ;; c <- cell (snd bk) i ;;
    match c with Some v => ret v | None => undefined UbUninit end.
  (** new (p+i) T(v) *)
  Definition construct (p : option nat) (i : nat) (v : V) : M st unit :=
    bk <- block p ;; c <- cell (snd bk) i ;; event (EUser 0) ;;; set_cell (fst bk) (snd bk) i (Some v) 1 0.
  (** *(p+i) = v *)
  Definition store_at (p : option nat) (i : nat) (v : V) : M st unit :=
    bk <- block p ;; c <- cell (snd bk) i ;;
    match c with
    | Some _ => event (EUser 0) ;;; set_cell (fst bk) (snd bk) i (Some v) 0 0
    | None => undefined UbUninit
    end.
  (** (p+i)->~T() *)
  Definition destroy_at (p : option nat) (i : nat) : M st unit :=
    bk <- block p ;; c <- cell (snd bk) i ;;
    match c with
    | Some _ => set_cell (fst bk) (snd bk) i None 0 1
    | None => undefined UbDangling
    end.

  (** loops: i, ..., i+n-1 and n-1, ..., 0 *)
  Fixpoint for_up (i n : nat) (body : nat -> M st unit) : M st unit :=
    match n with 0 => ret tt | S n => body i ;;; for_up (S i) n body end.
  Fixpoint for_down (n : nat) (body : nat -> M st unit) : M st unit :=
    match n with 0 => ret tt | S n => body n ;;; for_down n body end.

  (** ** variables *)
  Definition get_var (a : nat) : M st (nat * option nat) := fun s =>
    match nth_error (vars s) a with Some (Arr n p) => Ret (n, p) s | _ => Ub UbDangling end.
  Definition put_var (a : nat) (x : avar) : M st unit := fun s =>
    Ret tt (mkSt (upd a x (vars s)) (heap s) (made s) (gone s) (cd s)).
  (** storage for a new variable *)
  Definition fresh_var (d : nat) : M st unit := fun s =>
    match nth_error (vars s) d with Some Dead => Ret tt s | _ => Ub UbUninit end.

  (** 163-165: the element a[i], as a pointer *)
  Definition elem_ref (a i : nat) : M st (option nat * nat) :=
    np <- get_var a ;; bk <- block (snd np) ;; c <- cell (snd bk) i ;; ret (snd np, i).
  (** 181-187: the iterator a.begin()+i *)
  Definition iter (a i : nat) : M st (option nat * nat) :=
    np <- get_var a ;;
    match snd np with
    | None => if i =? 0 then ret (None, 0) else undefined UbOutOfBounds
    | Some b => bk <- block (snd np) ;;
                if i <=? length (b_cells (snd bk)) then ret (snd np, i) else undefined UbOutOfBounds
    end.

  (** ** arguments *)
  (** of type const T& : a value outside all arrays, or an element *)
  Inductive arg := AVal (v : V) | AElem (a i : nat).
  Definition bind_arg (t : arg) : M st (V + option nat * nat) :=
    match t with AVal v => ret (inl v) | AElem a i => p <- elem_ref a i ;; ret (inr p) end.
  Definition read_ref (r : V + option nat * nat) : M st V :=
    match r with inl v => ret v | inr (p, i) => load p i end.
  (** a pair of iterators: into a sequence outside all arrays, or a.begin()+i and a.begin()+j; an element x is
      converted to [f x] *)
  Inductive src := SList (f : V -> V) (l : list V) | SRange (f : V -> V) (a i j : nat).
  Inductive cursor := CList (f : V -> V) (l : list V) | CPtr (f : V -> V) (p : option nat) (i : nat).
  (** iterators and std::distance(first,last), converted to size_t *)
  Definition bind_src (x : src) : M st (cursor * nat) :=
    match x with
    | SList f l => ret (CList f l, length l)
    | SRange f a i j =>
        p <- iter a i ;; q <- iter a j ;;
        ret (CPtr f (fst p) (snd p), Z.to_nat (wrap64 (Z.of_nat (snd q) - Z.of_nat (snd p))))
    end.
  (** *(first+k) *)
  Definition read_cursor (c : cursor) (k : nat) : M st V :=
    match c with
    | CList f l => match nth_error l k with Some v => ret (f v) | None => undefined UbOutOfBounds end
    | CPtr f p i => v <- load p (i + k) ;; ret (f v)
    end.

  (** ** private functions *)
  (** 207 *)
  Definition destroy_elements (size : nat) (p : option nat) : M st unit := for_down size (destroy_at p).
  (** 208-217, and the loops in 81, 148, 154, 158 *)
  Definition uninitialized_fill (size : nat) (p : option nat) (rd : nat -> M st V) : M st unit :=
    for_up 0 size (fun i => v <- rd i ;; construct p i v).

  (** ** constructors and destructor *)
  (** 76 *)
  Definition a_destroy (a : nat) : M st unit :=
    np <- get_var a ;; destroy_elements (fst np) (snd np) ;;; uninitialized_delete (snd np) ;;; put_var a Dead.
  (** 79 *)
  Definition a_default (d : nat) : M st unit := fresh_var d ;;; put_var d (Arr 0 None).
  (** 81, 85, 88-89, 92-93, 96-97, 102-104, 108-109, 114-115, 119-120, 123-124: the constructors with n elements,
      the i-th of which is initialised by [rd i].  The object exists from the end of the constructor. *)
  Definition a_build (d n : nat) (rd : nat -> M st V) : M st unit :=
    p <- uninitialized_new n ;; uninitialized_fill n p rd ;;; put_var d (Arr n p).
  (** 81 *)
  Definition a_size (d n : nat) : M st unit := fresh_var d ;;; a_build d n (fun _ => ret dflt).
  (** 83 *)
  Definition a_uninit (d n : nat) : M st unit :=
    fresh_var d ;;; p <- uninitialized_new n ;; put_var d (Arr n p).
  (** 85 *)
  Definition a_value (d n : nat) (t : arg) : M st unit :=
    fresh_var d ;;; r <- bind_arg t ;; a_build d n (fun _ => read_ref r).
  (** 88-89, 92-93 (initializer lists), 100-104 (ranges; a negative distance is refused by the allocation, before the assert) *)
  Definition a_from (d : nat) (x : src) : M st unit :=
    fresh_var d ;;; cn <- bind_src x ;; a_build d (snd cn) (read_cursor (fst cn)).
  (** 95-97 *)
  Definition a_gen (d n : nat) (g : nat -> V) : M st unit := fresh_var d ;;; a_build d n (fun i => ret (g i)).
  (** 107-120, 123-124: conversion by [f], copy *)
  Definition a_copy (d s : nat) (f : V -> V) : M st unit :=
    fresh_var d ;;; np <- get_var s ;; a_build d (fst np) (read_cursor (CPtr f (snd np) 0)).
  (** 126-127 *)
  Definition a_move (d s : nat) : M st unit :=
    fresh_var d ;;; np <- get_var s ;; put_var s (Arr 0 None) ;;; put_var d (Arr (fst np) (snd np)).

  (** ** modifiers *)
  (** 198-199, 201-202 *)
  Definition fill_with (size : nat) (p : option nat) (rd : nat -> M st V) : M st unit :=
    for_up 0 size (fun i => v <- rd i ;; store_at p i v).
  Definition a_fill (a : nat) (t : arg) : M st unit :=
    r <- bind_arg t ;; np <- get_var a ;; fill_with (fst np) (snd np) (fun _ => read_ref r).
  Definition a_fill_from (a : nat) (x : src) : M st unit :=
    cn <- bind_src x ;; np <- get_var a ;; fill_with (fst np) (snd np) (read_cursor (fst cn)).
  (** 129-132 *)
  Definition a_assign (d s : nat) : M st unit :=
    np <- get_var d ;; mq <- get_var s ;;
    if fst np =? fst mq then fill_with (fst np) (snd np) (read_cursor (CPtr (fun v => v) (snd mq) 0))
    else destroy_elements (fst np) (snd np) ;;; uninitialized_delete (snd np) ;;;
         mq <- get_var s ;; put_var d (Arr (fst mq) (snd np)) ;;;
         p <- uninitialized_new (fst mq) ;; put_var d (Arr (fst mq) p) ;;;
         mq <- get_var s ;; uninitialized_fill (fst mq) p (read_cursor (CPtr (fun v => v) (snd mq) 0)).
  (** 134-135 *)
  Definition a_move_assign (d s : nat) : M st unit :=
    np <- get_var d ;; mq <- get_var s ;;
    if d =? s then ret tt else put_var d (Arr (fst mq) (snd mq)) ;;; put_var s (Arr 0 None).
  (** 144-149 ([None]: the new elements are T()), 151-155 *)
  Definition resize_to (a n : nat) (rd : M st V) : M st unit :=
    np <- get_var a ;;
    if fst np =? n then ret tt
    else q <- uninitialized_new n ;;
         uninitialized_fill n q (fun i => if i <? fst np then load (snd np) i else rd) ;;;
         destroy_elements (fst np) (snd np) ;;; uninitialized_delete (snd np) ;;; put_var a (Arr n q).
  Definition a_resize (a n : nat) (t : option arg) : M st unit :=
    match t with
    | None => resize_to a n (ret dflt)
    | Some t => r <- bind_arg t ;; resize_to a n (read_ref r)
    end.
  (** 157-158 *)
  Definition a_reallocate (a n : nat) : M st unit :=
    np <- get_var a ;;
    if fst np =? n then ret tt
    else destroy_elements (fst np) (snd np) ;;; uninitialized_delete (snd np) ;;;
         put_var a (Arr n (snd np)) ;;;
         q <- uninitialized_new n ;; put_var a (Arr n q) ;;; uninitialized_fill n q (fun _ => ret dflt).
  (** 160 *)
  Definition a_swap (a b : nat) : M st unit :=
    np <- get_var a ;; mq <- get_var b ;; put_var a (Arr (fst mq) (snd mq)) ;;; put_var b (Arr (fst np) (snd np)).
  (** 204-205 *)
  Definition a_assign_range (a : nat) (x : src) : M st unit :=
    cn <- bind_src x ;; a_resize a (snd cn) None ;;;
    np <- get_var a ;; fill_with (fst np) (snd np) (read_cursor (fst cn)).

  (** ** access *)
  (** 163-165: a[i] read, written to and constructed in place *)
  Definition a_get (a i : nat) : M st V := p <- elem_ref a i ;; load (fst p) (snd p).
  Definition a_set (a i : nat) (t : arg) : M st unit :=
    r <- bind_arg t ;; p <- elem_ref a i ;; v <- read_ref r ;; store_at (fst p) (snd p) v.
  Definition a_place (a i : nat) (t : arg) : M st unit :=
    r <- bind_arg t ;; p <- elem_ref a i ;; v <- read_ref r ;; construct (fst p) (snd p) v.
  (** 167-169 *)
  Definition at_ref (a i : nat) : M st (option nat * nat) :=
    np <- get_var a ;; if i <? fst np then elem_ref a i else throw EOutOfRange.
  Definition a_at (a i : nat) : M st V := p <- at_ref a i ;; load (fst p) (snd p).
  Definition a_set_at (a i : nat) (t : arg) : M st unit :=
    r <- bind_arg t ;; p <- at_ref a i ;; v <- read_ref r ;; store_at (fst p) (snd p) v.
  (** 172-178; _size-1 wraps to 2^64-1 in an empty array *)
  Definition a_front (a : nat) : M st V := a_get a 0.
  Definition a_back (a : nat) : M st V :=
    np <- get_var a ;; a_get a (match fst np with 0 => Z.to_nat (2 ^ 64 - 1) | S n => n end).
  (** 181-187: iteration from begin() to end() *)
  Fixpoint loads (p : option nat) (i n : nat) : M st (list V) :=
    match n with 0 => ret [] | S n => v <- load p i ;; l <- loads p (S i) n ;; ret (v :: l) end.
  Definition a_list (a : nat) : M st (list V) := np <- get_var a ;; loads (snd np) 0 (fst np).
  (** 190-193 *)
  Fixpoint eq_loop (p q : option nat) (i n : nat) : M st bool :=
    match n with
    | 0 => ret true
    | S n => v <- load p i ;; w <- load q i ;; if neq v w then ret false else eq_loop p q (S i) n
    end.
  Definition a_eq (a b : nat) : M st bool :=
    np <- get_var a ;; mq <- get_var b ;;
    if fst np =? fst mq then eq_loop (snd np) (snd mq) 0 (fst np) else ret false.
  (** 195 *)
  Definition a_ne (a b : nat) : M st bool := e <- a_eq a b ;; ret (negb e).
  (** 138-142 *)
  Definition a_len (a : nat) : M st nat := np <- get_var a ;; ret (fst np).
  Definition a_empty (a : nat) : M st bool := np <- get_var a ;; ret (fst np =? 0).

  (** ** programs *)
  Inductive op :=
  | OpDefault (d : nat) | OpSize (d n : nat) | OpUninit (d n : nat) | OpValue (d n : nat) (t : arg)
  | OpFrom (d : nat) (x : src) | OpGen (d n : nat) (g : nat -> V) | OpCopy (d s : nat) (f : V -> V) | OpMove (d s : nat)
  | OpDestroy (a : nat)
  | OpAssign (d s : nat) | OpMoveAssign (d s : nat) | OpSwap (a b : nat)
  | OpResize (a n : nat) (t : option arg) | OpReallocate (a n : nat)
  | OpFill (a : nat) (t : arg) | OpFillFrom (a : nat) (x : src) | OpAssignRange (a : nat) (x : src)
  | OpSet (a i : nat) (t : arg) | OpSetAt (a i : nat) (t : arg) | OpPlace (a i : nat) (t : arg)
  | OpGet (a i : nat) | OpAt (a i : nat) | OpFront (a : nat) | OpBack (a : nat) | OpList (a : nat)
  | OpEq (a b : nat) | OpNe (a b : nat) | OpLen (a : nat) | OpEmpty (a : nat).
  Inductive out := ODone | OVal (v : V) | OVals (l : list V) | OBool (b : bool) | ONat (n : nat) | OExc (e : exn).

  Definition done (m : M st unit) : M st out := m ;;; ret ODone.
  Definition exec_op (o : op) : M st out :=
    match o with
    | OpDefault d => done (a_default d) | OpSize d n => done (a_size d n) | OpUninit d n => done (a_uninit d n)
    | OpValue d n t => done (a_value d n t) | OpFrom d x => done (a_from d x) | OpGen d n g => done (a_gen d n g)
    | OpCopy d s f => done (a_copy d s f) | OpMove d s => done (a_move d s) | OpDestroy a => done (a_destroy a)
    | OpAssign d s => done (a_assign d s) | OpMoveAssign d s => done (a_move_assign d s) | OpSwap a b => done (a_swap a b)
    | OpResize a n t => done (a_resize a n t) | OpReallocate a n => done (a_reallocate a n)
    | OpFill a t => done (a_fill a t) | OpFillFrom a x => done (a_fill_from a x) | OpAssignRange a x => done (a_assign_range a x)
    | OpSet a i t => done (a_set a i t) | OpSetAt a i t => done (a_set_at a i t) | OpPlace a i t => done (a_place a i t)
    | OpGet a i => v <- a_get a i ;; ret (OVal v) | OpAt a i => v <- a_at a i ;; ret (OVal v)
    | OpFront a => v <- a_front a ;; ret (OVal v) | OpBack a => v <- a_back a ;; ret (OVal v)
    | OpList a => l <- a_list a ;; ret (OVals l)
    | OpEq a b => x <- a_eq a b ;; ret (OBool x) | OpNe a b => x <- a_ne a b ;; ret (OBool x)
    | OpLen a => n <- a_len a ;; ret (ONat n) | OpEmpty a => x <- a_empty a ;; ret (OBool x)
    end.
  (** A program: statements, each with the number of the operation inside it that fails, if any.  The program
      catches the exceptions and goes on. *)
  Fixpoint run (p : list (op * option nat)) : M st (list out) :=
    match p with
    | [] => ret []
    | (o, f) :: p => fun s =>
        match exec_op o (mkSt (vars s) (heap s) (made s) (gone s) f) with
        | Ret x s' => (l <- run p ;; ret (x :: l)) s'
        | Exc e s' => (l <- run p ;; ret (OExc e :: l)) s'
        | Ub r => Ub r | Abort => Abort | Fuel => Fuel
        end
    end.
End Array.
Arguments blk : clear implicits.
Arguments st : clear implicits.
Arguments arg : clear implicits.
Arguments src : clear implicits.
Arguments op : clear implicits.
Arguments out : clear implicits.
Arguments init {V} n.

(** 249-260: complement, with T = size_t; [d] is cmpl, the result, [v] the parameter vars *)
Section Complement.
  Fixpoint complement_loop (d v j n kr kv : nat) : M (st nat) unit :=
    match n with
    | 0 => ret tt
    | S n =>
        m <- a_len v ;;
        hit <- (if kv =? m then ret false else x <- a_get v kv ;; ret (j =? x)) ;;
        if hit : bool then complement_loop d v (S j) n kr (S kv)
        else a_set d kr (AVal j) ;;; complement_loop d v (S j) n (S kr) kv
    end.
  Definition complement (d nmax v : nat) : M (st nat) unit :=
    m <- a_len v ;;
    a_size 8 0 d (Z.to_nat (wrap64 (Z.of_nat nmax - Z.of_nat m))) ;;;
    complement_loop d v 0 nmax 0 0.
End Complement.
