(** CallModel.v -- apply(f,lst) and elementwise(f,l), include/container.hpp:106-117, for functions f that use the list itself, and
    for functions f whose results point at their argument.  Definitions only. *)
From Verif Require Import Base.
Local Open Scope monad_scope.

(** ** Functions that use the list.
    - A vector has elements, and counts the operations that change its size: each of them invalidates the past-the-end
      iterator, at least.
    - f is a program over the list; it gets its argument as a value. *)
Section Using.
  Context {T R : Type}.
  Record vec := mkVec { elems : list T; epoch : nat }.

  Inductive prog :=
  | Return (r : R)
  | Throw (e : exn)
  | Get (i : nat) (k : T -> prog)             (* l[i] *)
  | Size (k : nat -> prog)                    (* l.size() *)
  | Assign (i : nat) (x : T) (k : prog)       (* l[i]=x *)
  | Push (x : T) (k : prog)                   (* l.append(x), container.hpp:88 *)
  | Pop (k : prog).                           (* l.pop_back() *)
  Fixpoint run_prog (p : prog) : M vec R := fun v =>
    match p with
    | Return r => Ret r v
    | Throw e => Exc e v
    | Get i k => match nth_error (elems v) i with Some x => run_prog (k x) v | None => Ub UbOutOfBounds end
    | Size k => run_prog (k (length (elems v))) v
    | Assign i x k => match nth_error (elems v) i with
                      | Some _ => run_prog k (mkVec (upd i x (elems v)) (epoch v))
                      | None => Ub UbOutOfBounds
                      end
    | Push x k => run_prog k (mkVec (elems v ++ [x]) (S (epoch v)))
    | Pop k => match elems v with [] => Ub UbOutOfBounds | _ => run_prog k (mkVec (removelast (elems v)) (S (epoch v))) end
    end.

  (** 106-110: for(auto itm : lst) res.append(f(itm)); begin() and end() are evaluated once, [e] is the epoch and [n] the size
      then; the iterators are used after each call *)
  Fixpoint apply_from (f : T -> prog) (e i n : nat) : M vec (list R) := fun v =>
    match n with
    | 0 => Ret [] v
    | S n' =>
        match nth_error (elems v) i with
        | None => Ub UbOutOfBounds
        | Some itm =>
            (r <- run_prog (f itm) ;;
             (fun v' => if epoch v' =? e then (l <- apply_from f e (S i) n' ;; ret (r :: l)) v' else Ub UbDangling)) v
        end
    end.
  Definition apply_call (f : T -> prog) : M vec (list R) := fun v => apply_from f (epoch v) 0 (length (elems v)) v.

  (** 112-117: for(size_t i=0; i!=l.size(); ++i) r.append(f(l[i])); one unit of fuel per turn *)
  Fixpoint elementwise_from (fuel : nat) (f : T -> prog) (i : nat) : M vec (list R) := fun v =>
    match fuel with
    | 0 => Fuel
    | S fuel' =>
        if i =? length (elems v) then Ret [] v
        else match nth_error (elems v) i with
             | None => Ub UbOutOfBounds
             | Some x => (r <- run_prog (f x) ;; l <- elementwise_from fuel' f (S i) ;; ret (r :: l)) v
             end
    end.
  Definition elementwise_call (fuel : nat) (f : T -> prog) : M vec (list R) := elementwise_from fuel f 0.
End Using.
Arguments vec : clear implicits.
Arguments prog : clear implicits.

(** ** Functions that return a pointer to their argument.
    - Objects of type T have addresses; the store says which are alive.  A list has its elements at consecutive addresses.
    - f takes a T const& and returns either a value of its own, or the address of its argument. *)
Section Pointing.
  Context {T X : Type}.
  Notation store := (list (option T)).
  Inductive outcome := Own (x : X) | Address (a : nat).
  Definition call (f : T -> option X) (a : nat) : M store outcome := fun s =>
    match nth_error s a with
    | Some (Some t) => Ret (match f t with Some x => Own x | None => Address a end) s
    | _ => Ub UbDangling
    end.
  (** the copy itm of container.hpp:109 lives for one turn *)
  Definition make_copy (a : nat) : M store nat := fun s =>
    match nth_error s a with Some (Some t) => Ret (length s) (s ++ [Some t]) | _ => Ub UbDangling end.
  Definition destroy_copy (a : nat) : M store unit := fun s => Ret tt (upd a None s).
  (** 106-110, for the list of n elements at address [a] *)
  Fixpoint apply_at (f : T -> option X) (a n : nat) : M store (list outcome) :=
    match n with
    | 0 => ret []
    | S n' => c <- make_copy a ;; r <- call f c ;; destroy_copy c ;;; l <- apply_at f (S a) n' ;; ret (r :: l)
    end.
  (** 112-117 *)
  Fixpoint elementwise_at (f : T -> option X) (a n : nat) : M store (list outcome) :=
    match n with
    | 0 => ret []
    | S n' => r <- call f a ;; l <- elementwise_at f (S a) n' ;; ret (r :: l)
    end.
  (** 119-125: f(l1[i],l2[i]); f may return the address of its first ([Some true]) or second ([Some false]) argument *)
  Definition call2 (f : T -> T -> X + bool) (a b : nat) : M store outcome := fun s =>
    match nth_error s a, nth_error s b with
    | Some (Some t), Some (Some u) => Ret (match f t u with inl x => Own x | inr true => Address a | inr false => Address b end) s
    | _, _ => Ub UbDangling
    end.
  Fixpoint elementwise2_at (f : T -> T -> X + bool) (a b n : nat) : M store (list outcome) :=
    match n with
    | 0 => ret []
    | S n' => r <- call2 f a b ;; l <- elementwise2_at f (S a) (S b) n' ;; ret (r :: l)
    end.
  (** using a result afterwards: reading what it points at *)
  Definition use (r : outcome) : M store (X + T) := fun s =>
    match r with
    | Own x => Ret (inl x) s
    | Address a => match nth_error s a with Some (Some t) => Ret (inr t) s | _ => Ub UbDangling end
    end.
End Pointing.
Arguments outcome : clear implicits.
