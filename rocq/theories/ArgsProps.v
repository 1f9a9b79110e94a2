(** ArgsProps.v -- the property C136: the arguments of the macros.  Statements only; the lemmas are in ArgsProofs.v. *)
From Verif Require Import Base ArgsModel ArgsSpec ArgsProofs.
From Coq Require Import String.
Local Open Scope string_scope.
Open Scope list_scope.
Open Scope nat_scope.

(** ** C136
    intended: a call with as many expressions or types as there are parameters is accepted, and the parameters get them:
      parameters m = Some n -> length es = n -> accepted ndebug m (client_call es) = true /\ take m (client_call es) = Taken (map print es) *)
(** it is accepted exactly if no comma is in view of the preprocessor *)
Theorem C136_accepted_partial :
  forall ndebug m n es, parameters m = Some n -> Datatypes.length es = n ->
  (accepted ndebug m (client_call es) = true <-> separable ndebug m es).
Proof. exact accepted_iff. Qed.
Print Assumptions C136_accepted_partial.
Theorem C136_arguments_partial :
  forall ndebug m n es, parameters m = Some n -> Datatypes.length es = n -> separable ndebug m es ->
  take m (client_call es) = Taken (map print es).
Proof. exact taken_arguments. Qed.
Print Assumptions C136_arguments_partial.
(** expressions in parentheses always are *)
Theorem C136_parentheses_partial :
  forall ndebug m n es, parameters m = Some n -> Datatypes.length es = n -> (forall e, In e es -> exists e', e = CParen e') ->
  accepted ndebug m (client_call es) = true.
Proof. exact parens_accepted. Qed.
Print Assumptions C136_parentheses_partial.
(** the macros with "..." take everything, as it is written *)
Theorem C136_variadic_partial :
  forall ndebug m es, parameters m = None -> es <> [] ->
  take m (client_call es) = Taken [separated (map print es)] /\ accepted ndebug m (client_call es) = true.
Proof. exact variadic_taken. Qed.
Print Assumptions C136_variadic_partial.

(** no other macro takes a template with two arguments, or braces with two elements *)
Theorem C136_template_refuted :
  forall ndebug m n es f a b l, parameters m = Some n -> Datatypes.length es = n -> In (CTemplate f (a :: b :: l)) es ->
  accepted ndebug m (client_call es) = false.
Proof. exact template_rejected. Qed.
Print Assumptions C136_template_refuted.
Theorem C136_braces_refuted :
  forall ndebug m n es t a b l, parameters m = Some n -> Datatypes.length es = n -> In (CBraces t (a :: b :: l)) es ->
  accepted ndebug m (client_call es) = false.
Proof. exact braces_rejected. Qed.
Print Assumptions C136_braces_refuted.
(** and some do not even take a macro that stands for one *)
Theorem C136_handed_on_refuted :
  forall ndebug m n es i e, parameters m = Some n -> Datatypes.length es = n -> In i (handed_on ndebug m) ->
  nth_error es i = Some (CDefined e) -> exposed_expanded e <> 0 -> accepted ndebug m (client_call es) = false.
Proof. exact handed_rejected. Qed.
Print Assumptions C136_handed_on_refuted.

(** Map<int,int> m cannot be declared, f(1,2)==3 and a[i] can be checked *)
Example C136_example :
  let atom := CAtom in let map_type := CTemplate "Map" [atom "int"; atom "int"] in
  let point := CBraces (atom "Point") [atom "1"; atom "2"] in
  let call := CBinary "==" (CCall (atom "f") [atom "1"; atom "2"]) (atom "3") in
  accepted false TEST_CONSTRUCT (client_call [map_type; atom "m"; CParen (atom "n")]) = false /\
  accepted false TEST_CONSTRUCT (client_call [CTemplate "Set" [atom "int"]; atom "m"; CParen point]) = true /\
  accepted false TEST_ASSERT (client_call [call]) = true /\
  accepted false TEST_EQUAL (client_call [CIndex (atom "a") (atom "i"); point]) = false /\
  accepted false TEST_EQUAL (client_call [CIndex (atom "a") (atom "i"); CParen point]) = true /\
  accepted false TEST_SAME_TYPE (client_call [map_type; atom "T"]) = true /\
  accepted false WARN (client_call [CDefined point]) = true /\ accepted false FAIL_MSG (client_call [CDefined point]) = false /\
  accepted false DEBUG_ASSERT_MSG (client_call [call; CDefined point]) = false /\
  accepted true DEBUG_ASSERT_MSG (client_call [call; CDefined point]) = true /\
  separable false ASSERT_MSG [call; CParen point].
Proof.
  cbv zeta. repeat (split; [reflexivity|]). split.
  - intros e [<-|[<-|[]]]; reflexivity.
  - intros i e [<-|[]] H. inversion H. reflexivity.
Qed.
