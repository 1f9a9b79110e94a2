(** FailProps.v -- property C92. *)
From Verif Require Import Base StdOrd SetModel SetSpec MapModel MapSpec FailModel FailSpec FailProofs.

(** C92: whatever element operations throw, a program of calls on sets, each in a try block, never gets stuck; each call either
    does its work or leaves what [sfails] says, the sets stay increasing and every exception reaches its caller. *)
Theorem C92_sets : forall (T : Type) (ltb : T -> T -> bool), SWO ltb ->
  forall (ops : list (sop T)) (sc : sched), Forall no_member_restrict ops ->
  exists outs st sc' p, fsrun ltb ops (fun _ => [], sc) = (outs, inl (st, sc')) /\
    sexec ltb ops outs (fun _ _ => false) p /\
    (forall v, increasing ltb (st v)) /\ (forall v x, contains ltb (st v) x = p v x) /\ nothing_swallowed as_is outs sc sc'.
Proof. exact @sets_throwing. Qed.
Print Assumptions C92_sets.

(** C92: likewise for maps *)
Theorem C92_maps : forall (K V : Type) (ltb : K -> K -> bool), SWO ltb -> forall (dflt : V) (ops : list (mop K V)) (sc : sched),
  exists outs st sc' p, fmrun ltb dflt ops (fun _ => [], sc) = (outs, inl (st, sc')) /\
    mexec ltb dflt ops outs (fun _ => fempty) p /\
    (forall v, tabulates ltb (p v) (keys ltb (st v)) (values (st v))) /\ nothing_swallowed thrown outs sc sc'.
Proof. exact @maps_throwing. Qed.
Print Assumptions C92_maps.

(** C92: and for lists, if no list is appended to itself (C22) and no list reaches 2^32 elements (C21) *)
Theorem C92_lists : forall (T : Type) (ops : list (lsop T)) (sc : sched),
  Forall no_self_append ops -> (Z.of_nat (size_bound ops 0) < 2 ^ 32)%Z ->
  exists fuel, forall fuel', fuel <= fuel' ->
  exists outs st sc', flrun fuel' ops (fun _ => [], sc) = (outs, inl (st, sc')) /\
    lsexec ops outs (fun _ => []) st /\ nothing_swallowed as_is outs sc sc'.
Proof. exact @lists_throwing. Qed.
Print Assumptions C92_lists.

(** the functions are those of SetModel.v and MapModel.v: without exceptions they do the same *)
Theorem C92_same_sets : forall (T : Type) (ltb : T -> T -> bool) (o : sop T) (st : nat -> list T), fsstep ltb o (st, []) =
  match sstep ltb o st with Ret _ st' => Ret tt (st', []) | Exc e st' => Exc e (st', []) | Ub r => Ub r | Abort => Abort | Fuel => Fuel end.
Proof. exact @sets_quiet. Qed.
Print Assumptions C92_same_sets.
Theorem C92_same_maps : forall (K V : Type) (ltb : K -> K -> bool) (dflt : V) (o : mop K V) (st : nat -> list (K * V)),
  match mstep ltb dflt o st with
  | Ret x st' => exists st2, fmstep ltb dflt o (st, []) = Ret x (st2, []) /\ forall v, st2 v = st' v
  | Exc e _ => False
  | Ub r => fmstep ltb dflt o (st, []) = Ub r
  | Abort => fmstep ltb dflt o (st, []) = Abort
  | Fuel => fmstep ltb dflt o (st, []) = Fuel
  end.
Proof. exact @maps_quiet. Qed.
Print Assumptions C92_same_maps.

(** adjoining {1,2,3} to {5} fails at the second insertion: 1 has been inserted; the union into a new set leaves its target *)
Example C92_adjoin_half : let ok := None in let bad := Some EBadAlloc in
  exists st sc, fsrun Nat.ltb [SFromList 0 [3; 1; 2]; SInsert 1 5; SAdjoin 1 0; SJoin 2 0 1; SRemoveSet 0 1]
    (fun _ => [], [ok; ok; ok; ok; ok; bad; ok; bad; ok; bad; ok]) =
    ([None; None; bad; bad; bad], inl (st, sc)) /\ st 0 = [2; 3] /\ st 1 = [1; 5] /\ st 2 = [].
Proof. eexists. eexists. vm_compute. repeat split; reflexivity. Qed.
(** [m[k] = v]: the key is there with the default value although the assignment has thrown *)
Example C92_index_half :
  exists st, fmrun Nat.ltb 0 [MIndexWrite 0 7 42; MGet 0 7; MGet 0 8; MIndexWrite 0 7 43]
    (fun _ => [], [None; Some ERuntime; None; Some EBadAlloc; None; None]) =
    ([inr ERuntime; inl (OutVal 0); inr EBadAlloc; inl OutUnit], inl (st, [])) /\ st 0 = [(7, 43)].
Proof. eexists. vm_compute. split; reflexivity. Qed.
Example C92_append_half :
  exists st sc, flrun 10 [LsNew 0 [1; 2; 3]; LsAppendList 1 0; LsCatenate 2 0 1; LsCatenate 2 0 1]
    (fun _ => [], [None; None; None; None; None; Some EBadAlloc; None; Some EBadAlloc]) =
    ([None; Some EBadAlloc; Some EBadAlloc; None], inl (st, sc)) /\ st 1 = [1; 2] /\ st 2 = [1; 2; 3; 1; 2].
Proof. eexists. eexists. vm_compute. repeat split; reflexivity. Qed.
Example C92_hypotheses : Forall no_self_append [LsNew 0 [1; 2; 3]; LsAppendList 1 0; LsCatenate 2 0 1] /\
  (Z.of_nat (size_bound [LsNew 0 [1; 2; 3]; LsAppendList 1 0; LsCatenate 2 0 1] 0) < 2 ^ 32)%Z /\
  Forall (@no_member_restrict nat) [SFromList 0 [3; 1]; SAdjoin 1 0; SFreeRestrict 1 0].
Proof. split; [repeat constructor; simpl; congruence|split; [vm_compute; reflexivity|repeat constructor]]. Qed.
