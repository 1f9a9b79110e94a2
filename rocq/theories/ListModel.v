(** ListModel.v -- model of class List and the list functions of include/container.hpp.
    Definitions only.  A std::vector<T> is the list of its elements; named variables make aliasing
    ([l.append(l)]) visible.  Copying of elements does not throw in this file. *)
From Verif Require Import Base.

Section ListModel.
  Context {T : Type}.
  (** the largest size a vector can reach before push_back throws (max_size(), or the memory) *)
  Context (limit : Z).

  Notation vstore := (nat -> list T).

  (** std::vector<T>::push_back on a value ([t] has been read before) *)
  Definition vpush (l : list T) (t : T) : option (list T) :=
    if (Z.of_nat (length l) <? limit)%Z then Some (l ++ [t]) else None.

  (** container.hpp:88 void append(const T& t) *)
  Definition append_elem (d : nat) (t : T) : M vstore unit := fun st =>
    match vpush (st d) t with
    | Some l => Ret tt (set_var st d l)
    | None => Exc ELength st
    end.

  (** container.hpp:89-90 (append) and 91-92 (concatenate), the same loop:
      for(unsigned int i=0; i!=t.size(); ++i) { this->push_back(t[i]); }
      [d] is the variable of [*this], [s] the variable of [t]; both may be the same.  [i] is a 32-bit
      unsigned int, t.size() a size_t.  One unit of fuel per iteration. *)
  Fixpoint append_loop (fuel : nat) (i : Z) (d s : nat) : M vstore unit := fun st =>
    match fuel with
    | O => Fuel
    | S fuel' =>
        if (i =? Z.of_nat (length (st s)))%Z then Ret tt st
        else match nth_error (st s) (Z.to_nat i) with
             | None => Ub UbOutOfBounds
             | Some x => (append_elem d x ;;; append_loop fuel' (wrap32 (i + 1)) d s)%M st
             end
    end.
  Definition append (fuel : nat) (d s : nat) : M vstore unit := append_loop fuel 0 d s.
  Definition concatenate (fuel : nat) (d s : nat) : M vstore unit := append_loop fuel 0 d s.

  (** container.hpp:94-100 catenate(l1,l2): iterators over l2, appending to the local copy r *)
  Fixpoint catenate_loop (r : list T) (rest : list T) : res unit (list T) :=
    match rest with
    | [] => Ret r tt
    | x :: rest' => match vpush r x with Some r' => catenate_loop r' rest' | None => Exc ELength tt end
    end.
  Definition catenate (l1 l2 : list T) : res unit (list T) := catenate_loop l1 l2.

  (** container.hpp:101-105 catenate(l1,t2) *)
  Definition catenate_elem (l1 : list T) (t2 : T) : res unit (list T) :=
    match vpush l1 t2 with Some r => Ret r tt | None => Exc ELength tt end.
End ListModel.

(** ** apply and elementwise: the function is an arbitrary stateful, possibly throwing, computation *)
Section Apply.
  Context {S T T1 T2 R : Type}.

  (** container.hpp:106-110 apply(f,lst); [res] was reserved to lst.size() *)
  Fixpoint apply_loop (f : T -> M S R) (rest : list T) (res : list R) : M S (list R) :=
    match rest with
    | [] => ret res
    | itm :: rest' => (r <- f itm ;; apply_loop f rest' (res ++ [r]))%M
    end.
  Definition apply (f : T -> M S R) (lst : list T) : M S (list R) := apply_loop f lst [].

  (** container.hpp:112-117 elementwise(f,l): for(size_t i=0; i!=l.size(); ++i) r.append(f(l[i])) *)
  Fixpoint elementwise_loop (fuel : nat) (i : Z) (f : T -> M S R) (l : list T) (r : list R) : M S (list R) :=
    match fuel with
    | O => fun _ => Fuel
    | Datatypes.S fuel' =>
        if (i =? Z.of_nat (length l))%Z then ret r
        else match nth_error l (Z.to_nat i) with
             | None => undefined UbOutOfBounds
             | Some x => (y <- f x ;; elementwise_loop fuel' (wrap64 (i + 1)) f l (r ++ [y]))%M
             end
    end.
  Definition elementwise (fuel : nat) (f : T -> M S R) (l : list T) : M S (list R) :=
    elementwise_loop fuel 0 f l [].

  (** container.hpp:119-125 elementwise(f,l1,l2); [ndebug] removes the assert *)
  Fixpoint elementwise2_loop (fuel : nat) (i : Z) (f : T1 -> T2 -> M S R) (l1 : list T1) (l2 : list T2)
           (r : list R) : M S (list R) :=
    match fuel with
    | O => fun _ => Fuel
    | Datatypes.S fuel' =>
        if (i =? Z.of_nat (length l1))%Z then ret r
        else match nth_error l1 (Z.to_nat i), nth_error l2 (Z.to_nat i) with
             | Some x, Some y =>
                 (z <- f x y ;; elementwise2_loop fuel' (wrap64 (i + 1)) f l1 l2 (r ++ [z]))%M
             | _, _ => undefined UbOutOfBounds
             end
    end.
  Definition elementwise2 (ndebug : bool) (fuel : nat) (f : T1 -> T2 -> M S R) (l1 : list T1) (l2 : list T2)
    : M S (list R) :=
    if ndebug then elementwise2_loop fuel 0 f l1 l2 []
    else if Nat.eqb (length l1) (length l2) then elementwise2_loop fuel 0 f l1 l2 []
    else fun _ => Abort.
End Apply.
