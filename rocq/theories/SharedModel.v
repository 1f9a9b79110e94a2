(** SharedModel.v -- model of class SharedArray, include/array.hpp 223-247.  Definitions only.

    - A pointer to the share count is a block and an offset in it; only offset 0 may be accessed.
    - [dini]: what new T[n] leaves in the elements: [None] (indeterminate) for scalar types, [Some (T())] for
      class types, where each element is constructed and may fail.
    - [scd s = Some k]: the k-th operation from now that can fail (allocation, construction or assignment of an
      element) throws.
    - Simplified: operator new[] fails only if the environment says so (no limit on the size of the array);
      iterators are modelled by reading all elements from begin() to end(). *)
From Verif Require Import Base.
Local Open Scope monad_scope.

Section Shared.
  Context {V : Type} (dini : option V).

  Record cblk := mkC { c_val : Z; c_freed : bool }.
  Record ablk := mkA { a_cells : list (option V); a_freed : bool }.
  (** a variable: not in scope, or with members _count, _size and _ptr (229) *)
  Inductive svar := SDead | SArr (cnt : nat * Z) (size ptr : nat).
  Record sst := mkS { svars : list svar; counts : list cblk; arrays : list ablk; scd : option nat }.
  Definition sinit (n : nat) : sst := mkS (repeat SDead n) [] [] None.

  Definition sevent (e : exn) : M sst unit := fun s =>
    match scd s with
    | Some 0 => Exc e (mkS (svars s) (counts s) (arrays s) None)
    | Some (S k) => Ret tt (mkS (svars s) (counts s) (arrays s) (Some k))
    | None => Ret tt s
    end.
  Fixpoint sevents (n : nat) (e : exn) : M sst unit :=
    match n with 0 => ret tt | S n => sevent e ;;; sevents n e end.

  (** new size_t(1u) *)
  Definition new_count : M sst (nat * Z) :=
    sevent EBadAlloc ;;; (fun s => Ret (length (counts s), 0%Z) (mkS (svars s) (counts s ++ [mkC 1 false]) (arrays s) (scd s))).
  (** new T[n]; if the construction of an element throws, the language releases the array *)
  Definition new_array (n : nat) : M sst nat :=
    sevent EBadAlloc ;;;
    (match dini with None => ret tt | Some _ => sevents n (EUser 0) end) ;;;
    (fun s => Ret (length (arrays s)) (mkS (svars s) (counts s) (arrays s ++ [mkA (repeat dini n) false]) (scd s))).
  (** *c, *c=z, delete c *)
  Definition count_at (c : nat * Z) : M sst Z := fun s =>
    match nth_error (counts s) (fst c) with
    | Some k => if (snd c =? 0)%Z then if c_freed k then Ub UbDangling else Ret (c_val k) s else Ub UbOutOfBounds
    | None => Ub UbDangling
    end.
  Definition set_count (c : nat * Z) (z : Z) : M sst unit :=
    count_at c ;;; (fun s => Ret tt (mkS (svars s) (upd (fst c) (mkC z false) (counts s)) (arrays s) (scd s))).
  Definition delete_count (c : nat * Z) : M sst unit :=
    z <- count_at c ;; (fun s => Ret tt (mkS (svars s) (upd (fst c) (mkC z true) (counts s)) (arrays s) (scd s))).
  (** the elements behind a pointer; delete[] *)
  Definition array_at (p : nat) : M sst (list (option V)) := fun s =>
    match nth_error (arrays s) p with
    | Some k => if a_freed k then Ub UbDangling else Ret (a_cells k) s
    | None => Ub UbDangling
    end.
  Definition delete_array (p : nat) : M sst unit := fun s =>
    match nth_error (arrays s) p with
    | Some k => if a_freed k then Ub UbDoubleFree
                else Ret tt (mkS (svars s) (counts s) (upd p (mkA (a_cells k) true) (arrays s)) (scd s))
    | None => Ub UbDoubleFree
    end.
  (** p[i], and p[i]=v *)
  Definition sload (p i : nat) : M sst V :=
    l <- array_at p ;;
    match nth_error l i with Some (Some v) => ret v | Some None => undefined UbUninit | None => undefined UbOutOfBounds end.
  Definition sstore (p i : nat) (v : V) : M sst unit :=
    l <- array_at p ;;
    match nth_error l i with
    | Some _ => sevent (EUser 0) ;;;
                (fun s => Ret tt (mkS (svars s) (counts s) (upd p (mkA (upd i (Some v) l) false) (arrays s)) (scd s)))
    | None => undefined UbOutOfBounds
    end.

  Definition sget_var (a : nat) : M sst ((nat * Z) * nat * nat) := fun s =>
    match nth_error (svars s) a with Some (SArr c n p) => Ret (c, n, p) s | _ => Ub UbDangling end.
  Definition sput_var (a : nat) (x : svar) : M sst unit := fun s =>
    Ret tt (mkS (upd a x (svars s)) (counts s) (arrays s) (scd s)).
  Definition sfresh (d : nat) : M sst unit := fun s =>
    match nth_error (svars s) d with Some SDead => Ret tt s | _ => Ub UbUninit end.

  (** a const T& : a value outside, or an element *)
  Inductive sarg := TVal (v : V) | TElem (a i : nat).
  Definition sbind (t : sarg) : M sst (V + nat * nat) :=
    match t with
    | TVal v => ret (inl v)
    | TElem a i => m <- sget_var a ;; l <- array_at (snd m) ;;
                   if i <? length l then ret (inr (snd m, i)) else undefined UbOutOfBounds
    end.
  Definition sread (r : V + nat * nat) : M sst V := match r with inl v => ret v | inr (p, i) => sload p i end.

  (** 231: ~SharedArray decrements the pointer _count, then reads through it *)
  Definition s_destroy (a : nat) : M sst unit :=
    m <- sget_var a ;;
    let c := (fst (fst (fst m)), snd (fst (fst m)) - 1)%Z in
    sput_var a (SArr c (snd (fst m)) (snd m)) ;;;
    z <- count_at c ;;
    (if (z =? 0)%Z then delete_array (snd m) else ret tt) ;;;
    sput_var a SDead.

  (** 232 *)
  Definition s_new (d n : nat) : M sst unit :=
    sfresh d ;;; c <- new_count ;; p <- new_array n ;; sput_var d (SArr c n p).
  (** the body of a constructor that has delegated to 232: if it throws, the object is destroyed *)
  Definition delegated (d : nat) (body : M sst unit) : M sst unit := fun s =>
    match body s with
    | Exc e s' => (s_destroy d ;;; throw e) s'
    | r => r
    end.
  (** i, ..., i+n-1: p[i]=... *)
  Fixpoint sfill (p i n : nat) (rd : nat -> M sst V) : M sst unit :=
    match n with 0 => ret tt | S n => v <- rd i ;; sstore p i v ;;; sfill p (S i) n rd end.
  (** 233-234 *)
  Definition s_value (d n : nat) (t : sarg) : M sst unit :=
    sfresh d ;;; r <- sbind t ;; s_new d n ;;;
    delegated d (m <- sget_var d ;; sfill (snd m) 0 n (fun _ => sread r)).
  (** 235-236 *)
  Definition s_list (d : nat) (l : list V) : M sst unit :=
    s_new d (length l) ;;;
    delegated d (m <- sget_var d ;;
                 sfill (snd m) 0 (length l) (fun i => match nth_error l i with Some v => ret v | None => undefined UbOutOfBounds end)).
  (** 237 *)
  Definition s_copy (d s : nat) : M sst unit :=
    sfresh d ;;; m <- sget_var s ;;
    sput_var d (SArr (fst (fst m)) (snd (fst m)) (snd m)) ;;;
    z <- count_at (fst (fst m)) ;; set_count (fst (fst m)) (wrap64 (z + 1)).
  (** 238-239 *)
  Definition s_assign (d s : nat) : M sst unit :=
    m <- sget_var d ;; k <- sget_var s ;;
    if snd m =? snd k then ret tt
    else
      z <- count_at (fst (fst m)) ;; set_count (fst (fst m)) (wrap64 (z - 1)) ;;;
      z <- count_at (fst (fst m)) ;;
      (if (z =? 0)%Z then delete_count (fst (fst m)) ;;; delete_array (snd m) else ret tt) ;;;
      k <- sget_var s ;;
      sput_var d (SArr (fst (fst k)) (snd (fst k)) (snd k)) ;;;
      z <- count_at (fst (fst k)) ;; set_count (fst (fst k)) (wrap64 (z + 1)).
  (** 240 *)
  Definition s_size (a : nat) : M sst nat := m <- sget_var a ;; ret (snd (fst m)).
  (** 241-242 *)
  Definition s_get (a i : nat) : M sst V := m <- sget_var a ;; sload (snd m) i.
  Definition s_set (a i : nat) (t : sarg) : M sst unit :=
    r <- sbind t ;; m <- sget_var a ;; v <- sread r ;; sstore (snd m) i v.
  (** 243-246 *)
  Fixpoint sloads (p i n : nat) : M sst (list V) :=
    match n with 0 => ret [] | S n => v <- sload p i ;; l <- sloads p (S i) n ;; ret (v :: l) end.
  Definition s_elems (a : nat) : M sst (list V) := m <- sget_var a ;; sloads (snd m) 0 (snd (fst m)).

  (** ** programs *)
  Inductive sop :=
  | SNew (d n : nat) | SValue (d n : nat) (t : sarg) | SList (d : nat) (l : list V) | SCopy (d s : nat)
  | SAssign (d s : nat) | SSet (a i : nat) (t : sarg) | SGet (a i : nat) | SSize (a : nat) | SElems (a : nat) | SDestroy (a : nat).
  Inductive sout := SDone | SVal (v : V) | SNat (n : nat) | SVals (l : list V) | SExc (e : exn).
  Definition sdone (m : M sst unit) : M sst sout := m ;;; ret SDone.
  Definition sexec_op (o : sop) : M sst sout :=
    match o with
    | SNew d n => sdone (s_new d n) | SValue d n t => sdone (s_value d n t) | SList d l => sdone (s_list d l)
    | SCopy d s => sdone (s_copy d s) | SAssign d s => sdone (s_assign d s) | SSet a i t => sdone (s_set a i t)
    | SGet a i => v <- s_get a i ;; ret (SVal v) | SSize a => n <- s_size a ;; ret (SNat n)
    | SElems a => l <- s_elems a ;; ret (SVals l) | SDestroy a => sdone (s_destroy a)
    end.
  Fixpoint srun (p : list sop) : M sst (list sout) :=
    match p with
    | [] => ret []
    | o :: p => fun s =>
        match sexec_op o s with
        | Ret x s' => (l <- srun p ;; ret (x :: l)) s'
        | Exc e s' => (l <- srun p ;; ret (SExc e :: l)) s'
        | Ub r => Ub r | Abort => Abort | Fuel => Fuel
        end
    end.
End Shared.
Arguments ablk : clear implicits.
Arguments sst : clear implicits.
Arguments sarg : clear implicits.
Arguments sop : clear implicits.
Arguments sout : clear implicits.
