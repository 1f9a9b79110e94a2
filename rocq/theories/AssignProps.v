(** AssignProps.v -- C165: the concepts of assignment.  Statements only; the lemmas are in AssignProofs.v. *)
From Verif Require Import Base AssignModel AssignSpec AssignProofs.

(** ** C165
    intended: Assignable<T,F>, AssignableFrom<T,F> and AssignableTo<F,T> hold exactly if a variable of type T may be assigned a value of type F *)
(** holds for references to variables, *)
Theorem C165_reference_partial :
  forall (F : Type) (conv : F -> nat -> bool) (u : type F) (f : F), Assignable conv (mkT u false LRef) f = true <-> may_assign conv u f.
Proof. exact @reference_iff. Qed.
Print Assumptions C165_reference_partial.
(** for classes without ref-qualified assignment operators, *)
Theorem C165_class_partial :
  forall (F : Type) (conv : F -> nat -> bool) (ops : list (op F)) (ref : reference) (f : F), (forall o, In o ops -> qual o = Unqualified) ->
  (Assignable conv (mkT (Class ops) false ref) f = true <-> may_assign conv (Class ops) f).
Proof. exact @class_iff. Qed.
Print Assumptions C165_class_partial.
(** for const types, and the three concepts agree *)
Theorem C165_const :
  forall (F : Type) (conv : F -> nat -> bool) (u : type F) (r : reference) (f : F), Assignable conv (mkT u true r) f = false.
Proof. exact @const_never. Qed.
Print Assumptions C165_const.
Theorem C165_same_concepts :
  forall (F : Type) (conv : F -> nat -> bool) (T : targ F) (f : F), AssignableFrom conv T f = Assignable conv T f /\ AssignableTo conv f T = Assignable conv T f.
Proof. exact @same_concepts. Qed.
Print Assumptions C165_same_concepts.
(** violated for all numbers, enumerations and pointers, which can be assigned whatever converts to them, *)
Theorem C165_builtin_refuted :
  forall (F : Type) (conv : F -> nat -> bool) (n : nat) (ref : reference) (f : F), ref <> LRef ->
  Assignable conv (mkT (Builtin n) false ref) f = false /\ (conv f n = true -> may_assign conv (Builtin n) f).
Proof. exact (fun F conv n ref f H => conj (builtin_never conv n ref f H) (M_builtin conv n f)). Qed.
Print Assumptions C165_builtin_refuted.
(** for classes whose operators are for variables only, and for one whose operator is for temporaries only *)
Theorem C165_lvalues_refuted :
  forall (F : Type) (conv : F -> nat -> bool) (ops : list (op F)) (ref : reference) (f : F), ref <> LRef -> (forall o, In o ops -> qual o = OnLvalues) ->
  Assignable conv (mkT (Class ops) false ref) f = false.
Proof. exact @lvalues_only. Qed.
Print Assumptions C165_lvalues_refuted.
Theorem C165_rvalues_refuted :
  forall (F : Type) (conv : F -> nat -> bool) (o : op F) (ref : reference) (f : F) (r : nat), ref <> LRef -> qual o = OnRvalues -> takes o f = Some r -> is_deleted o = false ->
  Assignable conv (mkT (Class [o]) false ref) f = true /\ ~ may_assign conv (Class [o]) f.
Proof. exact @rvalues_only. Qed.
Print Assumptions C165_rvalues_refuted.

(** the types of values are numbers f; a class takes them with rank |f-k| up to 2 *)
Definition near (k f : nat) : option nat := let d := (f - k) + (k - f) in if d <=? 2 then Some d else None.
Definition plain (k : nat) : op nat := mkOp Unqualified false (near k).
Definition deleted (k : nat) : op nat := mkOp Unqualified true (near k).
Definition for_variables (k : nat) : op nat := mkOp OnLvalues false (near k).
Definition for_temporaries (k : nat) : op nat := mkOp OnRvalues false (near k).
Example C165_example :
  let conv f n := f <=? n in
  let a u r f := Assignable conv (mkT u false r) f in
  a (Builtin 5) NoRef 3 = false /\ a (Builtin 5) LRef 3 = true /\ a (Builtin 5) LRef 7 = false /\ a (Builtin 5) RRef 3 = false /\
  a (Class [plain 3; deleted 6]) NoRef 4 = true /\ a (Class [plain 3; deleted 6]) NoRef 5 = false /\ a (Class [plain 3; plain 5]) NoRef 4 = false /\
  a (Class [plain 3; plain 5]) NoRef 9 = false /\ a (Class [for_variables 3]) NoRef 3 = false /\ a (Class [for_variables 3]) LRef 3 = true /\
  a (Class [for_temporaries 3; plain 4]) NoRef 3 = true /\ a (Class [for_temporaries 3]) LRef 3 = false.
Proof. vm_compute. repeat split. Qed.
Example C165_hypotheses :
  (forall o, In o [plain 3; deleted 6] -> qual o = Unqualified) /\ (forall o, In o [for_variables 3] -> qual o = OnLvalues) /\
  takes (for_temporaries 3) 4 = Some 1 /\ may_assign (fun _ _ => false) (Class [for_variables 3]) 3.
Proof.
  split; [intros o [<- | [<- | []]]; reflexivity |]. split; [intros o [<- | []]; reflexivity |]. split; [reflexivity |].
  apply (M_class _ [] (for_variables 3) [] 3 0); [split; [discriminate | reflexivity] | reflexivity | intros o r []].
Qed.
