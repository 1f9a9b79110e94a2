(** CanProps.v -- C156: CanAdd<A1,A2> and SumType<A1,A2>, and the like. *)
From Verif Require Import Base CanModel CanSpec CanProofs.

(** C156, refuted: the concept may hold when there is no such type (operators that take lvalues only) ... and there may be such a type though the
    concept does not hold: operators that take rvalues only; abstract classes; operators that take by value what can only be moved. *)
Theorem C156_refuted :
  (exists t ops, ordinary t /\ can_op t t ops = true /\ op_type t t ops = false) /\
  (exists t ops, ordinary t /\ can_op t t ops = false /\ op_type t t ops = true) /\
  (exists t ops, forallb indifferent_op ops = true /\ from_lvalue t = from_xvalue t /\ can_op t t ops = false /\ op_type t t ops = true) /\
  (exists t ops, is_abstract t = false /\ forallb indifferent_op ops = true /\ can_op t t ops = false /\ op_type t t ops = true).
Proof. exact differ. Qed.
Print Assumptions C156_refuted.

(** C156, missing those: for operators that take their operands by value or by reference to const, and types that are not abstract and can be copied
    if they can be moved, the concept holds iff there is the type. *)
Theorem C156_agree_partial :
  forall (t1 t2 : optype) (ops : list cand), ordinary t1 -> ordinary t2 -> forallb indifferent_op ops = true -> can_op t1 t2 ops = op_type t1 t2 ops.
Proof. exact agree. Qed.
Print Assumptions C156_agree_partial.

(** C156: for a single operator, exactly when each of them holds. *)
Theorem C156_one_operator :
  forall (t1 t2 : optype) (p q : param),
  can_op t1 t2 [(p, q)] = negb (is_abstract t1) && negb (is_abstract t2) &&
    (binds true t1 p && binds true t2 q && (initialises true t1 p && initialises true t2 q)) /\
  op_type t1 t2 [(p, q)] = binds false t1 p && binds false t2 q && (initialises false t1 p && initialises false t2 q).
Proof. exact only_one. Qed.
Print Assumptions C156_one_operator.

(** C156: for any number of operators, each of the two holds exactly if the expression is well formed by the rules of the language, with lvalues
    for the one and xvalues for the other. *)
Theorem C156_by_the_rules :
  forall (t1 t2 : optype) (ops : list cand),
  (can_op t1 t2 ops = true <-> is_abstract t1 = false /\ is_abstract t2 = false /\ well_formed true t1 t2 ops) /\
  (op_type t1 t2 ops = true <-> well_formed false t1 t2 ops).
Proof. exact by_the_rules. Qed.
Print Assumptions C156_by_the_rules.

(** the operator that takes a temporary on the left is the one for xvalues, the other the one for lvalues *)
Example C156_example_rules : let t := mkType false false true true in let ops := [(PCRef, PCRef); (PRv, PCRef)] in
  chosen true t t ops (PCRef, PCRef) /\ chosen false t t ops (PRv, PCRef) /\ well_formed false t t ops.
Proof.
  cbv zeta.
  assert (H : chosen false (mkType false false true true) (mkType false false true true) [(PCRef, PCRef); (PRv, PCRef)] (PRv, PCRef)).
  { split; [cbn; auto|]. split; [split; constructor; reflexivity|]. intros d [<-|[<-|[]]] _; [right|left; reflexivity].
    split; [intros X; inversion X; subst; cbn in *; intuition discriminate|]. split; [intros X; inversion X; subst; cbn in *; intuition discriminate|].
    left. constructor. cbn. auto. }
  split; [|split; [exact H|]].
  - split; [cbn; auto|]. split; [split; constructor|]. intros d [<-|[<-|[]]] Hd; [left; reflexivity|].
    destruct Hd as [Hd _]. inversion Hd.
  - exists (PRv, PCRef). split; [exact H|]. split; constructor; discriminate.
Qed.

(** overloads for const and other references are no ambiguity; by value and by reference are, in both *)
Example C156_example : let t := mkType false false true true in let c := mkType true false true true in
  ordinary t /\ can_op t t [(PCRef, PCRef); (PRv, PCRef)] = true /\ op_type t t [(PCRef, PCRef); (PRv, PCRef)] = true /\
  can_op t t [(PVal, PVal); (PCRef, PCRef)] = false /\ op_type t t [(PVal, PVal); (PCRef, PCRef)] = false /\
  can_op t c [(PVal, PCRef)] = true /\ op_type t c [(PVal, PCRef)] = true /\ can_op t c [(PCRef, PRef)] = false /\
  op_type t t [(PRv, PCRef); (PCRef, PRv)] = false /\ can_op t t [] = false.
Proof. vm_compute. repeat split. Qed.
