(** ArrayRefSpec.v -- what becomes of a reference to an element of an array. *)
From Verif Require Import Base ArrayModel ArraySpec.

Section Spec.
  Context {V : Type} (sz : Z) (dflt : V) (eq_dec : forall x y : V, {x = y} + {x <> y}).

  (** The element is an element of array [a] now; it has been destroyed and its storage released; or another array
      has been moved to the array of which it was an element. *)
  Inductive fate := InArray (a : nat) | Released | MovedOver.
  Definition len (m : vst V) (a : nat) : nat := match lookup m a with Some (_, l) => length l | None => 0 end.
  (** creating n elements succeeds *)
  Definition creates (n : nat) (fail : option nat) : bool := match try_new sz n fail with Success => true | _ => false end.
  Definition released_if (b : bool) (a : nat) : fate := if b then Released else InArray a.

  (** the elements of [a] after one statement, and the number of the operation in it that fails *)
  Definition fate1 (m : vst V) (o : op V) (fail : option nat) (a : nat) : fate :=
    match o with
    | OpDestroy b => released_if (a =? b) a
    | OpAssign d s => released_if ((a =? d) && negb (len m s =? len m d)) a
    | OpReallocate b n => released_if ((a =? b) && negb (n =? len m b)) a
    | OpResize b n _ => released_if ((a =? b) && negb (n =? len m b) && creates n fail) a
    | OpAssignRange b x =>
        match src_val m x with
        | Some vs => released_if ((a =? b) && negb (length vs =? len m b) && creates (length vs) fail) a
        | None => InArray a
        end
    | OpMove d s => InArray (if a =? s then d else a)
    | OpMoveAssign d s => if d =? s then InArray a else if a =? s then InArray d else if a =? d then MovedOver else InArray a
    | OpSwap b c => InArray (if a =? b then c else if a =? c then b else a)
    | _ => InArray a
    end.
  (** after a program *)
  Fixpoint fate_of (m : vst V) (p : list (op V * option nat)) (a : nat) : fate :=
    match p with
    | [] => InArray a
    | (o, f) :: p =>
        match fate1 m o f a, sstep sz dflt eq_dec m o f with
        | InArray a', Some (_, m') => fate_of m' p a'
        | x, _ => x
        end
    end.
End Spec.
