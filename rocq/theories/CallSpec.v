(** CallSpec.v -- what apply and elementwise should do with functions that use the list, or point at its elements. *)
From Verif Require Import Base CallModel.

Section Spec.
  Context {T R : Type}.
  (** f called for each element of a sequence, in order *)
  Fixpoint on_each (f : T -> prog T R) (l : list T) (v : vec T) : res (vec T) (list R) :=
    match l with
    | [] => Ret [] v
    | x :: l' =>
        match run_prog (f x) v with
        | Ret r v1 => match on_each f l' v1 with Ret rs v2 => Ret (r :: rs) v2 | o => o end
        | Exc e v1 => Exc e v1 | Ub u => Ub u | Abort => Abort | Fuel => Fuel
        end
    end.
  (** f called n times, each time for the element that is at the next position by then *)
  Fixpoint on_current (f : T -> prog T R) (i n : nat) (v : vec T) : res (vec T) (list R) :=
    match n with
    | 0 => Ret [] v
    | S n' =>
        match nth_error (elems v) i with
        | None => Ub UbOutOfBounds
        | Some x =>
            match run_prog (f x) v with
            | Ret r v1 => match on_current f (S i) n' v1 with Ret rs v2 => Ret (r :: rs) v2 | o => o end
            | Exc e v1 => Exc e v1 | Ub u => Ub u | Abort => Abort | Fuel => Fuel
            end
        end
    end.
  (** the program reads the list at most; or it assigns to elements at most *)
  Fixpoint reads_only (p : prog T R) : Prop :=
    match p with
    | Return _ | Throw _ => True
    | Get _ k => forall x, reads_only (k x)
    | Size k => forall n, reads_only (k n)
    | Assign _ _ _ | Push _ _ | Pop _ => False
    end.
  Fixpoint keeps_size (p : prog T R) : Prop :=
    match p with
    | Return _ | Throw _ => True
    | Get _ k => forall x, keeps_size (k x)
    | Size k => forall n, keeps_size (k n)
    | Assign _ _ k => keeps_size k
    | Push _ _ | Pop _ => False
    end.
End Spec.

(** the list l is at address a *)
Definition list_at {T} (s : list (option T)) (a : nat) (l : list T) : Prop :=
  forall i t, nth_error l i = Some t -> nth_error s (a + i) = Some (Some t).
