(** ThreadSpec.v -- which variables a thread may use. *)
From Verif Require Import Base HandleModel.

Section Owned.
  Context {V Ty : Type} (owner : nat -> option nat) (i : nat).
  (** thread [i] may modify variable [h]: it is its own *)
  Definition mine (h : nat) : Prop := owner h = Some i.
  (** thread [i] may read variable [h]: it is its own, or nobody's and modified by none *)
  Definition visible (h : nat) : Prop := owner h = Some i \/ owner h = None.
  Definition uses (o : hop V Ty) : Prop :=
    match o with
    | OpNew d _ | OpNull d | OpDestroy d => mine d
    | OpCopy d s | OpAssign d s | OpCast d s _ | OpPtrExtract d s _ => mine d /\ visible s
    | OpMove d s | OpMoveAssign d s | OpManaged d s => mine d /\ mine s
    | OpRead h => visible h
    | OpWrite h _ => mine h
    end.
End Owned.
