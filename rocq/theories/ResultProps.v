(** ResultProps.v -- C142: ResultOf<F(AS...)> is InvokeResult<F,AS...>.  Statements only; the lemmas are in ResultProofs.v. *)
From Verif Require Import Base ResultModel ResultSpec ResultProofs.
Open Scope list_scope.
Open Scope nat_scope.

(** ** C142
    intended: result_of c f args = invoke_result c f args *)
(** holds if F is not a function or array, and each argument an object type without const, a pointer or a reference *)
Theorem C142_same_partial :
  forall c f args, callee_kept f -> (forall t, In t args -> kept t) -> result_of c f args = invoke_result c f args.
Proof. exact result_kept. Qed.
Print Assumptions C142_same_partial.
(** there is none for the type of a function, whatever it returns *)
Theorem C142_function_refuted :
  forall f args r, ~ callee_kept f -> ~ In TVoid args ->
  let c := [(declval f, map declval args, r)] in invoke_result c f args = Some r /\ result_of c f args = None.
Proof. exact callee_lost. Qed.
Print Assumptions C142_function_refuted.
(** const arguments, arrays and functions: a callee can tell them from what they become *)
Theorem C142_adjusted_refuted :
  forall f t r s, callee_kept f ->
  plain_const t \/ (exists u n, t = TArray u n) \/ (exists u ps, t = TFunction u ps) ->
  let c := [(declval f, [declval t], r); (declval f, [declval (adjust t)], s)] in
  invoke_result c f [t] = Some r /\ result_of c f [t] = Some s.
Proof. exact adjusted. Qed.
Print Assumptions C142_adjusted_refuted.
(** void is no argument *)
Theorem C142_void_refuted :
  forall c f r, callee_kept f -> invoke_result c f [TVoid] = None /\ result_of ((declval f, [], r) :: c) f [TVoid] = Some r.
Proof. exact void_argument. Qed.
Print Assumptions C142_void_refuted.

(** an object 0 called with int& and double; a function int(int) *)
Example C142_example :
  let c := [(TRref (TName 0), [TLref (TName 1); TRref (TName 2)], TName 3); (TRref (TFunction (TName 1) [TName 1]), [TRref (TName 1)], TName 1)] in
  result_of c (TName 0) [TLref (TName 1); TName 2] = Some (TName 3) /\ invoke_result c (TName 0) [TLref (TName 1); TName 2] = Some (TName 3) /\
  invoke_result c (TFunction (TName 1) [TName 1]) [TName 1] = Some (TName 1) /\ result_of c (TFunction (TName 1) [TName 1]) [TName 1] = None.
Proof. repeat split. Qed.
