(** ExprProps.v -- C63: the values of the conditions. *)
From Verif Require Import Base StreamModel MacroModel ExprSpec ExprProofs.
From Coq Require Import String.
Open Scope list_scope.
Open Scope Z_scope.

(** C63: an expression that has a value by the rules of C++ is evaluated to it, in either order of the operands, without an effect. *)
Theorem C63_values_partial :
  forall W (call : nat -> list Z -> W -> callres W) ltr (s : st W) e z, means (holds s) e z -> eval call ltr e s = Norm z s.
Proof. exact @means_eval. Qed.
Print Assumptions C63_values_partial.

(** C63: and to no other, if it has no calls, assignments and checks that print, and no static variable is in scope. *)
Theorem C63_only_values_partial :
  forall W (call : nat -> list Z -> W -> callres W) ltr (s : st W) e, effectless e -> no_statics s ->
  forall z s', eval call ltr e s = Norm z s' -> s' = s /\ means (holds s) e z.
Proof. exact @eval_means. Qed.
Print Assumptions C63_only_values_partial.

(** a == 3 && !(b < -2) with a = 3 in the outer scope, hidden a = 7, b = 5; 0 && x with no x *)
Example C63_values_example :
  let s := mkSt [[("b"%string, CVal 5)]; [("a"%string, CVal 3)]; [("a"%string, CVal 7)]] (fun _ => None) [] [] tt in
  means (holds s) (EAnd (ECmp CEq (EVar "a") (ELit 3)) (ENot (ECmp CLt (EVar "b") (ELit (-2))))) 1 /\
  means (holds s) (EAnd (ELit 0) (EVar "x")) 0 /\ means (holds s) (EAbs (ESub (EVar "a") (EVar "b"))) 2 /\ no_statics s.
Proof.
  intros s. assert (holds s "a" 3 /\ holds s "b" 5) as [A B] by (split; apply lookup_holds; reflexivity).
  split; [|split; [|split]].
  - apply M_and_true with (a := 1) (b := 1); [eapply M_cmp_true; [now apply M_var, A|apply M_lit|reflexivity]|lia| |lia].
    apply M_not_true. eapply M_cmp_false; [now apply M_var, B|apply M_lit|]. cbn. lia.
  - apply M_and_first. apply M_lit.
  - change 2 with (- (3 - 5)). apply M_abs_neg; [|reflexivity]. apply M_sub; apply M_var; assumption.
  - intros f x i Hf Hx. cbn in Hf. destruct Hf as [<-|[<-|[<-|[]]]]; cbn in Hx; destruct Hx as [Hx|[]]; discriminate Hx.
Qed.
