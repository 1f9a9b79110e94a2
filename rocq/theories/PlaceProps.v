(** PlaceProps.v -- C137: a macro called with a semicolon behind it is one statement. *)
From Verif Require Import Base ArgsModel PlaceModel PlaceSpec PlaceProofs.
From Coq Require Import String.
Local Open Scope string_scope.
Open Scope list_scope.
Open Scope nat_scope.

(** Holds where macros stand as statements of a block, or as the whole branch of an if if they are one statement and, should an else
    follow, have no semicolon: the function is parsed and does what the client means. *)
Theorem C137_one_statement_partial ps : forallb (well_placed false) ps = true ->
  exists l, parse_body (flat_map client_tokens ps) = Body l /\ forall v, flat_map (trace v) l = flat_map (meaning v) ps.
Proof. exact (placed_means ps). Qed.
Print Assumptions C137_one_statement_partial.
(** These macros are one statement: all but the two that are none, and seven others. *)
Theorem C137_single_partial k : single k = true <->
  ~ In k (map Call [USING_CONSTRUCTORS; TEST_CATCH; DEPRECATED; WARN_ONCE;
                    TEST_DECLARE; TEST_CONSTRUCT; TEST_DEFAULT_CONSTRUCT; TEST_NAMED_CONSTRUCT; TEST_ASSIGN_CONSTRUCT]).
Proof. exact (single_macros k). Qed.
Print Assumptions C137_single_partial.
(** Every macro with a semicolon before an else is a syntax error. *)
Theorem C137_else_refuted before k l c e after : forallb (well_placed false) before = true -> replacement k = Some l ->
  parse_body (flat_map client_tokens (before ++ [CIf c (CMacro k true) (Some e)]) ++ after) = SyntaxError.
Proof. exact (else_rejected before k l c e after). Qed.
Print Assumptions C137_else_refuted.
(** All statements of a macro but its first are executed whatever the condition before it. *)
Theorem C137_guard_refuted before k c s l semi : forallb (well_placed false) before = true -> replacement k = Some (s :: l) ->
  exists ss, parse_body (flat_map client_tokens (before ++ [CIf c (CMacro k semi) None])) = Body ss /\
  forall v, v c = false -> flat_map (trace v) ss = flat_map (meaning v) before ++ flat_map (trace v) l.
Proof. exact (guard_ignored before k c s l semi). Qed.
Print Assumptions C137_guard_refuted.
(** So the macros that construct a variable do something though the condition is false. *)
Theorem C137_construct_refuted k semi c v : In k (map Call [TEST_DECLARE; TEST_CONSTRUCT; TEST_DEFAULT_CONSTRUCT; TEST_NAMED_CONSTRUCT; TEST_ASSIGN_CONSTRUCT]) ->
  v c = false -> meaning v (CIf c (CMacro k semi) None) = [] /\
  exists ss, parse_body (client_tokens (CIf c (CMacro k semi) None)) = Body ss /\ flat_map (trace v) ss <> [].
Proof. exact (construct_ignored k semi c v). Qed.
Print Assumptions C137_construct_refuted.

(** "if(a) { ASSERT(x); } else b;  if(a) ASSERT(x)  else b;  CONSTRUCT(..); if(a) if(b) WARN(x); d;" *)
Definition good : list client :=
  [CIf 1 (CBlock [CMacro (Call ASSERT) true]) (Some (CPlain "b")); CIf 1 (CMacro (Call ASSERT) false) (Some (CPlain "b"));
   CMacro (Call TEST_CONSTRUCT) true; CIf 1 (CIf 2 (CMacro (Call WARN) true) None) None; CPlain "d"].
Example C137_placed : forallb (well_placed false) good = true.
Proof. reflexivity. Qed.
Example C137_placed_body :
  parse_body (flat_map client_tokens good) =
  Body [If 1 (Block [Block [Plain "everything"]; Empty]) (Some (Plain "b")); If 1 (Block [Plain "everything"]) (Some (Plain "b"));
        Plain "print"; Plain "Class variable expression"; Plain "print variable"; Empty; If 1 (If 2 (Block [Plain "everything"]) None) None;
        Empty; Plain "d"].
Proof. vm_compute. reflexivity. Qed.
(** the statements the theorems refute are correct for a function in place of the macro *)
Example C137_proper :
  proper (CIf 1 (CMacro (Call ASSERT) true) (Some (CPlain "b"))) = true /\ proper (CIf 1 (CMacro (Call TEST_DECLARE) true) None) = true.
Proof. split; reflexivity. Qed.
Example C137_else : parse_body (client_tokens (CIf 1 (CMacro (Call ASSERT) true) (Some (CPlain "b")))) = SyntaxError.
Proof. vm_compute. reflexivity. Qed.
Example C137_guard :
  parse_body (client_tokens (CIf 1 (CMacro (Call TEST_CONSTRUCT) true) None)) =
  Body [If 1 (Plain "print") None; Plain "Class variable expression"; Plain "print variable"; Empty].
Proof. vm_compute. reflexivity. Qed.
