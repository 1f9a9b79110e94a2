(** ArrListModel.v -- lists of arrays: List<Array<T>> (include/container.hpp:71-93, whose operations on elements are
    those of std::vector), with the arrays of ArrayModel.v (include/array.hpp:52-221) as elements.

    A list of capacity N is N variables of ArrayModel.v, those numbered 1, ..., N, of which the first are in scope;
    variable 0 is the temporary of an expression or of a library function.  An operation on the list is the program of
    operations on arrays that libstdc++ performs.
    - Simplified: the capacity suffices (no reallocation), arrays are made from sequences of elements, and nothing
      fails.  The elements selected by the predicate of std::remove_if are given by a list of flags. *)
From Verif Require Import Base ArrayModel.

Section Lists.
  Context {V : Type}.
  (** operations on a list l of arrays *)
  Inductive lop :=
  | LPush (vs : list V)               (* l.push_back(Array<T>(vs)) *)
  | LAppend (i : nat)                 (* l.append(l[i]), container.hpp:88 *)
  | LPop                              (* l.pop_back() *)
  | LErase (i : nat)                  (* l.erase(l.begin()+i) *)
  | LInsert (i : nat) (vs : list V)   (* l.insert(l.begin()+i, Array<T>(vs)) *)
  | LSwap (i j : nat)                 (* std::swap(l[i],l[j]) *)
  | LSet (i : nat) (vs : list V)      (* l[i]=Array<T>(vs) *)
  | LCopy (i j : nat)                 (* l[i]=l[j] *)
  | LRemove (keep : list bool).       (* l.erase(std::remove_if(l.begin(),l.end(),pred),l.end()), keep: where pred is false *)

  (** Standard library (libstdc++).  Slots i, i+1, ... get their successors: std::move(pos+1,end,pos) *)
  Definition shift_down (i n : nat) : list (op V) := map (fun k => OpMoveAssign k (S k)) (seq i n).
  (** slots i+n, ..., i+1 get their predecessors: std::move_backward *)
  Definition shift_up (i n : nat) : list (op V) := map (fun k => OpMoveAssign (S k) k) (rev (seq i n)).
  (** the loop of std::remove_if: [res] is the slot to be filled, [pos] the one looked at; before the first element
      to be removed nothing is moved *)
  Fixpoint remove_loop (res pos : nat) (keep : list bool) : list (op V) :=
    match keep with
    | [] => []
    | true :: keep => (if res =? pos then [] else [OpMoveAssign res pos]) ++ remove_loop (S res) (S pos) keep
    | false :: keep => remove_loop res (S pos) keep
    end.
  Definition kept (keep : list bool) : nat := length (filter (fun b => b) keep).

  (** the program of an operation on a list of n arrays, and the number of arrays afterwards *)
  Definition program (n : nat) (o : lop) : list (op V) :=
    match o with
    | LPush vs => [OpFrom 0 (SList (fun v => v) vs); OpMove (S n) 0; OpDestroy 0]
    | LAppend i => [OpCopy (S n) (S i) (fun v => v)]
    | LPop => [OpDestroy n]
    | LErase i => shift_down (S i) (n - S i) ++ [OpDestroy n]
    | LInsert i vs =>
        OpFrom 0 (SList (fun v => v) vs) ::
        (if i =? n then [OpMove (S n) 0]
         else [OpMove (S n) n] ++ shift_up (S i) (n - S i) ++ [OpMoveAssign (S i) 0]) ++ [OpDestroy 0]
    | LSwap i j => [OpMove 0 (S i); OpMoveAssign (S i) (S j); OpMoveAssign (S j) 0; OpDestroy 0]
    | LSet i vs => [OpFrom 0 (SList (fun v => v) vs); OpMoveAssign (S i) 0; OpDestroy 0]
    | LCopy i j => [OpAssign (S i) (S j)]
    | LRemove keep => remove_loop 1 1 keep ++ map OpDestroy (seq (S (kept keep)) (n - kept keep))
    end.
  Definition size_after (n : nat) (o : lop) : nat :=
    match o with
    | LPush _ | LAppend _ | LInsert _ _ => S n
    | LPop | LErase _ => n - 1
    | LSwap _ _ | LSet _ _ | LCopy _ _ => n
    | LRemove keep => kept keep
    end.
  Fixpoint programs (n : nat) (os : list lop) : list (op V) :=
    match os with
    | [] => []
    | o :: os => program n o ++ programs (size_after n o) os
    end.
  Definition final_size (os : list lop) : nat := fold_left size_after os 0.
  (** the destructor of the list *)
  Definition destroy_list (n : nat) : list (op V) := map OpDestroy (seq 1 n).
  (** nothing fails *)
  Definition calm (p : list (op V)) : list (op V * option nat) := map (fun o => (o, None)) p.
End Lists.
Arguments lop : clear implicits.
