(** CalleeProps.v -- C140: apply and elementwise take every function that can be called with the elements.  Statements only; the lemmas are in
    CalleeProofs.v. *)
From Verif Require Import Base CalleeModel CalleeSpec CalleeProofs.
Open Scope list_scope.
Open Scope nat_scope.

(** ** C140
    intended: usable 1 f o n -> apply_call conv f = Calls o n, and usable k f o n -> elementwise_call conv k f = Calls o n *)
(** holds for apply if f is one function that takes its argument by value or by const reference and returns an object *)
Theorem C140_apply_partial :
  forall conv f o n, reads 1 o -> one f o -> o_result o = RVal n -> usable 1 f o n /\ apply_call conv f = Calls o n.
Proof. exact apply_one. Qed.
Print Assumptions C140_apply_partial.
(** for elementwise if moreover it is a pointer or has a const call operator *)
Theorem C140_elementwise_partial :
  forall conv k f o n, reads k o -> o_result o = RVal n ->
  f = FunctionPointer o \/ (o_const o = true /\ exists c, f = Object c [o]) -> usable k f o n /\ elementwise_call conv k f = Calls o n.
Proof. exact elementwise_one. Qed.
Print Assumptions C140_elementwise_partial.

(** of functions that are not overloaded, apply takes exactly those that return an object, and elementwise those of them that are pointers or
    have a const call operator *)
Theorem C140_apply_exact_partial :
  forall conv f o n, one f o -> usable 1 f o n -> (apply_call conv f = Calls o n <-> o_result o = RVal n).
Proof. exact apply_exact. Qed.
Print Assumptions C140_apply_exact_partial.
Theorem C140_elementwise_exact_partial :
  forall conv k f o n, one f o -> usable k f o n ->
  (elementwise_call conv k f = Calls o n <->
   o_result o = RVal n /\ (f = FunctionPointer o \/ (o_const o = true /\ exists c, f = Object c [o]))).
Proof. exact elementwise_exact. Qed.
Print Assumptions C140_elementwise_exact_partial.

(** elementwise takes no function by its name *)
Theorem C140_name_refuted :
  forall conv k o n, reads k o -> object_of (o_result o) = Some n ->
  usable k (FunctionName o) o n /\ elementwise_call conv k (FunctionName o) = NotFound.
Proof. exact name_rejected. Qed.
Print Assumptions C140_name_refuted.
(** nor an object with a call operator that is not const, such as a lambda that is mutable *)
Theorem C140_mutable_refuted :
  forall conv k o n, reads k o -> object_of (o_result o) = Some n -> o_const o = false ->
  usable k (Object false [o]) o n /\ elementwise_call conv k (Object false [o]) = IllFormed.
Proof. exact mutable_rejected. Qed.
Print Assumptions C140_mutable_refuted.
(** neither takes a function that returns a reference or something const *)
Theorem C140_reference_refuted :
  forall conv k f o n, reads k o -> one f o -> o_result o = RRefTo n \/ o_result o = RConst n ->
  usable k f o n /\ (k = 1 -> apply_call conv f = IllFormed) /\ forall p m, elementwise_call conv k f <> Calls p m.
Proof. exact reference_rejected. Qed.
Print Assumptions C140_reference_refuted.
(** an overload for temporaries, which is never called, determines the type of the list *)
Theorem C140_temporary_refuted :
  forall conv c a b, a <> b ->
  let keep := mkO true [ConstRef] (RVal b) in let f := Object c [mkO true [RRef] (RVal a); keep] in
  usable 1 f keep b /\ apply_call conv f = (if conv b a then Calls keep a else IllFormed) /\
  elementwise_call conv 1 f = (if conv b a then Calls keep a else IllFormed).
Proof. exact temporary_overload. Qed.
Print Assumptions C140_temporary_refuted.
(** apply calls the overload for variables, though the list is const; elementwise does not *)
Theorem C140_variable_refuted :
  forall conv c n,
  let keep := mkO true [ConstRef] (RVal n) in let change := mkO true [Ref] (RVal n) in let f := Object c [change; keep] in
  usable 1 f keep n /\ apply_call conv f = Calls change n /\ elementwise_call conv 1 f = Calls keep n.
Proof. exact writing_overload. Qed.
Print Assumptions C140_variable_refuted.

(** double square(double); [](double){...}; two lists *)
Example C140_example :
  let square := mkO true [ByValue] (RVal 0) in let plus := mkO true [ConstRef; ByValue] (RVal 0) in
  reads 1 square /\ reads 2 plus /\
  apply_call (fun _ _ => false) (FunctionName square) = Calls square 0 /\
  elementwise_call (fun _ _ => false) 2 (Object false [plus]) = Calls plus 0 /\
  elementwise_call (fun _ _ => false) 1 (FunctionName square) = NotFound /\
  elementwise_call (fun _ _ => false) 1 (FunctionPointer square) = Calls square 0 /\
  elementwise_call (fun _ _ => false) 1 (Object false [mkO false [ByValue] (RVal 0)]) = IllFormed /\
  elementwise_call (fun _ _ => false) 1 (Object false [square; plus]) = Calls square 0 /\
  apply_call (fun _ _ => true) (Object false [mkO true [RRef] (RVal 1); mkO true [ConstRef] (RVal 0)]) = Calls (mkO true [ConstRef] (RVal 0)) 1.
Proof.
  cbv zeta. split; [split; [reflexivity|intros f [<-|[]]; auto]|]. split; [split; [reflexivity|intros f [<-|[<-|[]]]; auto]|].
  repeat split.
Qed.
