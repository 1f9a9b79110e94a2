(** WordCompareProps.v -- C139: all comparisons of binary words agree. *)
From Verif Require Import Base StreamModel WordModel WordSpec WordCompareModel WordCompareSpec WordCompareProofs.

Theorem C139_operators o a b : exists r, apply_operator o a b = Ret r tt /\ (r = true <-> means o (bits a) (bits b)).
Proof. exact (operator_ok o a b). Qed.
Print Assumptions C139_operators.
(** Exactly one of <, == and > holds, and the other three operators are their negations. *)
Theorem C139_agree a b :
  exists l e g, apply_operator OLess a b = Ret l tt /\ apply_operator OEqual a b = Ret e tt /\ apply_operator OGreater a b = Ret g tt /\
  In (l, e, g) [(true, false, false); (false, true, false); (false, false, true)] /\
  apply_operator OLess b a = Ret g tt /\ apply_operator OLessEq a b = Ret (negb g) tt /\ apply_operator OGreaterEq a b = Ret (negb l) tt /\
  apply_operator ONotEqual a b = Ret (negb e) tt.
Proof. exact (trichotomy a b). Qed.
Print Assumptions C139_agree.

Example C139_example :
  map (fun o => apply_operator o (AWordBW [true; false]) (AWordBW [true; false; false])) [OLess; OGreater; OLessEq; OGreaterEq; OEqual; ONotEqual] =
  map (fun r => Ret r tt) [true; false; true; false; false; true] /\
  map (fun o => apply_operator o (AVector [true]) (AWordBW [false; true])) [OLess; OGreater; OLessEq; OGreaterEq; OEqual; ONotEqual] =
  map (fun r => Ret r tt) [false; true; false; true; false; true] /\
  apply_operator OEqual (AWordBW [true; false]) (AWordBW [true; false]) = Ret true tt.
Proof. vm_compute. repeat split. Qed.
