(** SharedSyncSpec.v -- what is expected of SharedArrays used by several threads. *)
From Verif Require Import Base SharedModel SharedSpec SyncModel SyncSpec SharedSyncModel.

Section Spec.
  Context {V : Type} (dini : option V).
  (** a state reached by a program without undefined behaviour, and what its variables refer to *)
  Definition shared_state (s0 : sst V) (m0 : shst V) : Prop :=
    exists n p l, (Z.of_nat n < 2 ^ 64)%Z /\ shexec dini (shinit n) p = Some (l, m0) /\ srun dini p (sinit n) = Ret l s0.
  (** whatever the order of the calls, they are well formed *)
  Definition any_order (m0 : shst V) (ts : list (list (stm (top V)))) : Prop :=
    forall l, merged ts l -> shexec dini m0 (map seq_op (map snd l)) <> None.
  (** what the variables refer to is what the state shows *)
  Definition shows (s : sst V) (m : shst V) : Prop :=
    forall a o k, obj_of m a = Some (o, k) -> seen_elems s a = Some k /\ seen_count s a = Some (Z.of_nat (sharers m o)).
  (** the program only reads elements, and sizes, that are there *)
  Definition only_reads (m0 : shst V) (p : list (stm (top V))) : Prop :=
    forall o, In o (does p) ->
      match o with TGet a i => elem_of m0 a i <> None | TSize a => obj_of m0 a <> None | _ => False end.
  (** the variables that a call, a program uses *)
  Definition names (o : top V) : list nat :=
    match o with TCopy d s | TAssign d s => [d; s] | TSet a _ _ | TGet a _ | TSize a => [a] end.
  Definition uses (p : list (stm (top V))) (a : nat) : Prop := exists o, In o (does p) /\ In a (names o).
  (** no two programs use the same variable, or variables that share their elements *)
  Definition apart (m0 : shst V) (ts : list (list (stm (top V)))) : Prop :=
    forall i j p q a b, i <> j -> nth_error ts i = Some p -> nth_error ts j = Some q -> uses p a -> uses q b ->
      a <> b /\ forall o, ref_of m0 a = Some o -> ref_of m0 b <> Some o.
  (** the variables of a program in two states: the same members, elements and counts *)
  Definition same_for (p : list (stm (top V))) (s s' : sst V) : Prop :=
    forall a, uses p a -> nth_error (svars s) a = nth_error (svars s') a /\
      seen_elems s a = seen_elems s' a /\ seen_count s a = seen_count s' a.
End Spec.
