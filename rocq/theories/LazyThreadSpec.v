(** LazyThreadSpec.v -- what is expected of Lazy objects called by several threads. *)
From Verif Require Import Base HandleModel LazyModel LazyThreadModel.

Section Spec.
  Context {O F E : Type} (call : F -> E -> outcome O * F * E).

  (** variable [d] has its object already: a call gives it and changes nothing *)
  Definition evaluated (s : lst O F E) (d a : nat) (v : O) : Prop := lstep call (LCall d) s = Ret (LObj a v) s.
  (** variable [d] has a function and no object yet *)
  Definition unevaluated (s : lst O F E) (d : nat) : Prop :=
    nth_error (vars (ptrs s)) d = Some Null /\ exists f, nth_error (funs s) d = Some (Some f).
  (** thread [i] may call [d]: it is evaluated before the threads start, or no other thread calls it *)
  Definition may_call (owner : nat -> option nat) (s : lst O F E) (i : nat) (o : top) : Prop :=
    match o with
    | TCall d => (exists a v, evaluated s d a v) \/ (owner d = Some i /\ unevaluated s d)
    | TReread => True
    end.

  (** ** in the record of the calls of functions *)
  Fixpoint returned (d : nat) (l : list (nat * outcome O)) : list O :=
    match l with
    | [] => []
    | (k, OutObj v) :: l' => if Nat.eqb k d then v :: returned d l' else returned d l'
    | _ :: l' => returned d l'
    end.
  Fixpoint thrown (d : nat) (l : list (nat * outcome O)) : list exn :=
    match l with
    | [] => []
    | (k, OutThrow e) :: l' => if Nat.eqb k d then e :: thrown d l' else thrown d l'
    | _ :: l' => thrown d l'
    end.
  (** ** in the outputs of a thread *)
  Fixpoint caught (d : nat) (l : list (top * lout O)) : list exn :=
    match l with
    | [] => []
    | (TCall k, LExc e) :: l' => if Nat.eqb k d then e :: caught d l' else caught d l'
    | _ :: l' => caught d l'
    end.
  (** reading again gives what the last successful call gave ([k]: before the outputs) *)
  Fixpoint rereads (k : lout O) (l : list (top * lout O)) : Prop :=
    match l with
    | [] => True
    | (TCall _, LObj a v) :: l' => rereads (LObj a v) l'
    | (TCall _, _) :: l' => rereads k l'
    | (TReread, x) :: l' => x = k /\ rereads k l'
    end.
End Spec.
