(** GroupProps.v -- C109 and C110, see /verif/properties.jsonl. *)
From Verif Require Import Base StreamModel GroupModel GroupSpec GroupProofs.
From Coq Require Import Lia.
Local Open Scope Z_scope.

(** C109 (HELPER_TEST_WITHIN compares the values of its arguments):
      forall e x tol v1 v2 t, has_value e v1 -> has_value x v2 -> has_value tol t ->
        within_passes e x tol = Some (within v1 v2 t).
    FALSE: the arguments are not put in parentheses, so an expected value a - b is subtracted as "- a - b", a + b as
    "- a + b", and in a conditional expected value or tolerance the condition swallows what stands before it.  [partial]: it
    holds when the expression has no operator looser than + and -, the expected value none looser than * and /, and the
    tolerance none looser than the shifts. *)
(** the trees are those of the C++ grammar, for every text *)
Theorem C109_grouping : forall c t, reads c t <-> group c = t.
Proof. exact grammar_sound. Qed.
(** with the levels of the C++ operators *)
Theorem C109_levels : forall b i, (exists p, nth_error productions i = Some p /\ In b p) <-> (prec b + i = 13)%nat.
Proof. exact levels. Qed.
(** and the values of the arguments are those of C++ *)
Theorem C109_values : forall pr env b a c va vc z, at_least (prec b) a -> at_least (S (prec b)) c ->
  has_value pr env a va -> has_value pr env c vc -> op_value b va vc z -> has_value pr env (join a (LBin b) c) z.
Proof. exact values. Qed.
Theorem C109_unary_values : forall pr env a c t v w, has_value pr env (CLast a) v -> has_value pr env c w ->
  has_value pr env (CLast (ANeg a)) (- v) /\ (forall z, says (v = 0) z -> has_value pr env (CLast (ANot a)) z) /\
  has_value pr env (CLast (APar c)) w /\ has_value pr env (CLast (AAbs c)) (Z.abs w) /\
  has_value pr env (CLast (ANot (AStr t))) 0 /\ has_value pr env (CLast (ANot AStream)) 0.
Proof. exact unary_values. Qed.
Theorem C109_within_partial : forall pr env e x tol v1 v2 t,
  at_least 12 e -> at_least 13 x -> at_least 11 tol ->
  has_value pr env e v1 -> has_value pr env x v2 -> has_value pr env tol t ->
  within_passes pr env e x tol = Some (within v1 v2 t).
Proof. exact within_plain. Qed.
Theorem C109_minus_refuted : forall pr env e a b tol v1 va vb t,
  at_least 12 e -> at_least 13 a -> at_least 13 b -> at_least 11 tol ->
  has_value pr env e v1 -> has_value pr env a va -> has_value pr env b vb -> has_value pr env tol t ->
  has_value pr env (join a (LBin OSub) b) (va - vb) /\
  within_passes pr env e (join a (LBin OSub) b) tol = Some (within v1 (va + vb) t).
Proof. exact within_minus. Qed.
Theorem C109_plus_refuted : forall pr env e a b tol v1 va vb t,
  at_least 12 e -> at_least 13 a -> at_least 13 b -> at_least 11 tol ->
  has_value pr env e v1 -> has_value pr env a va -> has_value pr env b vb -> has_value pr env tol t ->
  has_value pr env (join a (LBin OAdd) b) (va + vb) /\
  within_passes pr env e (join a (LBin OAdd) b) tol = Some (within v1 (va - vb) t).
Proof. exact within_plus. Qed.
(** the tolerance c ? a : b: if a and b are not zero, the check passes whatever the values *)
Theorem C109_conditional_tolerance_refuted : forall pr env e x c a b v1 v2 vc va vb,
  at_least 12 e -> at_least 13 x -> at_least 11 c ->
  has_value pr env e v1 -> has_value pr env x v2 -> has_value pr env c vc -> has_value pr env a va -> has_value pr env b vb ->
  has_value pr env (join c (LCond a) b) (if (vc =? 0) then vb else va) /\
  within_passes pr env e x (join c (LCond a) b) = Some (negb ((if within v1 v2 vc then va else vb) =? 0)).
Proof. exact within_cond_tolerance. Qed.
(** the expected value c ? a : b: one of a and b is compared with zero, and the expression only with the condition *)
Theorem C109_conditional_expected_refuted : forall pr env e c a b tol v1 vc va vb t,
  at_least 12 e -> at_least 13 c -> at_least 11 tol ->
  has_value pr env e v1 -> has_value pr env c vc -> has_value pr env a va -> has_value pr env b vb -> has_value pr env tol t ->
  has_value pr env (join c (LCond a) b) (if (vc =? 0) then vb else va) /\
  within_passes pr env e (join c (LCond a) b) tol = Some (within (if (v1 =? vc) then vb else va) 0 t).
Proof. exact within_cond_expected. Qed.

(** numbers shown as so many strokes, negative ones as none; variable n has the value n+10 *)
Definition strokes (z : Z) : text := repeat "|"%char (Z.to_nat z).
Definition ten (n : nat) : Z := Z.of_nat n + 10.
Definition num (z : Z) : chain := CLast (ANum z).
Definition var (n : nat) : chain := CLast (AVar n).
Ltac value := match goal with |- has_value _ _ ?c _ => exists (group c); split; [now apply C109_grouping | split; reflexivity] end.
(** x*2 - y/3 with x = 10, y = 11: all hypotheses of the partial theorem are met *)
Definition demo_e : chain := join (join (var 0) (LBin OMul) (num 2)) (LBin OSub) (join (var 1) (LBin ODiv) (num 3)).
Example C109_example : at_least 12 demo_e /\ has_value strokes ten demo_e 17 /\
  within_passes strokes ten demo_e (join (num 4) (LBin OMul) (num 4)) (join (num 1) (LBin OAdd) (num 0)) = Some true /\
  within_passes strokes ten demo_e (join (num 5) (LBin OMul) (num 4)) (num 2) = Some false.
Proof. split; [cbn; lia | split; [value | vm_compute; split; reflexivity]]. Qed.
(** -7 / 2 is -3 and 10 < 11 is 1 *)
Example C109_values_example : op_value ODiv (-7) 2 (-3) /\ op_value OLt 10 11 1 /\ op_value OMod (-7) 2 (-1) /\
  has_value strokes ten (join (var 0) (LBin OLt) (var 1)) 1 /\ has_value strokes ten (join (num (-7)) (LBin ODiv) (num 2)) (-3).
Proof.
  split; [split; [discriminate | exists (-1); cbn; lia] |]. split; [left; split; [lia | reflexivity] |].
  split; [split; [discriminate | exists (-3); cbn; lia] |]. split; value.
Qed.
(** - x is -10, ! x is 0 and ! ! x is 1 *)
Example C109_unary_example : has_value strokes ten (CLast (AVar 0)) 10 /\ has_value strokes ten (CLast (ANeg (AVar 0))) (-10) /\
  has_value strokes ten (CLast (ANot (AVar 0))) 0 /\ has_value strokes ten (CLast (ANot (ANot (AVar 0)))) 1.
Proof. split; [value|]. split; [value|]. split; value. Qed.
(** HELPER_TEST_WITHIN(5, 7-2, 0) fails and HELPER_TEST_WITHIN(9, 7-2, 0) passes; parentheses help *)
Example C109_minus_example : let seven_two := join (num 7) (LBin OSub) (num 2) in
  has_value strokes ten seven_two 5 /\
  within_passes strokes ten (num 5) seven_two (num 0) = Some false /\ within 5 5 0 = true /\
  within_passes strokes ten (num 9) seven_two (num 0) = Some true /\ within 9 5 0 = false /\
  within_passes strokes ten (num 5) (CLast (APar seven_two)) (num 0) = Some true.
Proof. cbn zeta. split; [value | vm_compute; repeat split; reflexivity]. Qed.
(** HELPER_TEST_WITHIN(0, 1000, strict ? 1 : 10) passes *)
Example C109_tolerance_example :
  within_passes strokes ten (num 0) (num 1000) (join (num 1) (LCond (num 1)) (num 10)) = Some true /\
  within 0 1000 1 = false /\ within 0 1000 10 = false.
Proof. vm_compute. repeat split. Qed.
(** HELPER_TEST_WITHIN(1, c ? 5 : 1, 0) with c = 0 compares 5 with 0 *)
Example C109_expected_example : let x := join (num 0) (LCond (num 5)) (num 1) in
  has_value strokes ten x 1 /\ within_passes strokes ten (num 1) x (num 0) = Some false.
Proof. cbn zeta. split; [value | reflexivity]. Qed.
(** grouping: 1 + 2 * 3 - 4 << 1 < 2 == 3 && 4 || 5 ? 6 : 7 ? 8 : 9 *)
Example C109_grouping_example :
  group (CMore (ANum 1) (LBin OAdd) (CMore (ANum 2) (LBin OMul) (CMore (ANum 3) (LBin OSub) (CMore (ANum 4) (LBin OShl)
    (CMore (ANum 1) (LBin OLt) (CMore (ANum 2) (LBin OEq) (CMore (ANum 3) (LBin OAnd) (CMore (ANum 4) (LBin OOr)
    (CMore (ANum 5) (LCond (num 6)) (CMore (ANum 7) (LCond (num 8)) (num 9))))))))))) =
  TCond (TBin OOr (TBin OAnd (TBin OEq (TBin OLt (TBin OShl (TBin OSub (TBin OAdd (TNum 1) (TBin OMul (TNum 2) (TNum 3))) (TNum 4))
    (TNum 1)) (TNum 2)) (TNum 3)) (TNum 4)) (TNum 5)) (TNum 6) (TCond (TNum 7) (TNum 8) (TNum 9)).
Proof. reflexivity. Qed.
Example C109_grouping_example_all :
  group (CMore (ANum 1) (LBin OBitOr) (CMore (ANum 2) (LBin OBitXor) (CMore (ANum 3) (LBin OBitAnd) (CMore (ANum 4) (LBin ONe)
    (CMore (ANum 5) (LBin OGe) (CMore (ANum 6) (LBin OShr) (CMore (ANum 7) (LBin OSub) (CMore (ANum 8) (LBin OMod)
    (CMore (ANum 9) (LBin ODiv) (num 10)))))))))) =
  TBin OBitOr (TNum 1) (TBin OBitXor (TNum 2) (TBin OBitAnd (TNum 3) (TBin ONe (TNum 4) (TBin OGe (TNum 5) (TBin OShr (TNum 6)
    (TBin OSub (TNum 7) (TBin ODiv (TBin OMod (TNum 8) (TNum 9)) (TNum 10)))))))).
Proof. reflexivity. Qed.
Print Assumptions C109_grouping.
Print Assumptions C109_levels.
Print Assumptions C109_values.
Print Assumptions C109_unary_values.
Print Assumptions C109_within_partial.
Print Assumptions C109_minus_refuted.
Print Assumptions C109_plus_refuted.
Print Assumptions C109_conditional_tolerance_refuted.
Print Assumptions C109_conditional_expected_refuted.

(** C110 (failure messages show the values of the arguments):
      forall ts ne e1 e2 v1 v2, has_value e1 v1 -> has_value e2 v2 ->
        write (equal_message ts ne e1 e2) = Written (intended_message (concat ts) v1 ne v2),
      and HELPER_ASSERT_MSG and the others write the value of their message argument.
    FALSE: the arguments are inserted without parentheses.  A second argument p && q, p || q or p ? a : b shows only p, p << q
    shows p and q one after the other, and other operators looser than << do not compile; a first argument with an operator
    looser than << never compiles; a message c ? "x" : "y" shows c.  [partial]: the message is right when the arguments have no
    operator looser than + and -, and a message put together with << is shown part by part. *)
Theorem C110_equal_partial : forall pr env ts ne e1 e2 v1 v2,
  at_least 12 e1 -> at_least 12 e2 -> has_value pr env e1 v1 -> has_value pr env e2 v2 ->
  write pr env (equal_message ts ne e1 e2) = Written (intended_message pr (concat ts) v1 ne v2).
Proof. exact equal_plain. Qed.
Theorem C110_message_partial : forall pr env ts p ps xs, Forall2 (part_text pr env) (p :: ps) xs ->
  write pr env (error_message ts (parts_chain p ps)) = Written (concat ts ++ concat xs).
Proof. exact parts_message. Qed.
Theorem C110_second_refuted : forall pr env ts ne e1 v1 p q vp vq, at_least 12 e1 -> has_value pr env e1 v1 ->
  at_least 12 p -> at_least 12 q -> has_value pr env p vp -> has_value pr env q vq ->
  let said := (concat ts ++ pr v1 ++ ne)%list in
  write pr env (equal_message ts ne e1 (join p (LBin OAnd) q)) = Written (said ++ pr vp) /\
  write pr env (equal_message ts ne e1 (join p (LBin OOr) q)) = Written (said ++ pr vp) /\
  write pr env (equal_message ts ne e1 (join p (LBin OShl) q)) = Written (said ++ pr vp ++ pr vq) /\
  (forall b, (prec b < 11)%nat -> b <> OAnd -> b <> OOr -> write pr env (equal_message ts ne e1 (join p (LBin b) q)) = NoCompile) /\
  (forall b vb, has_value pr env b vb -> write pr env (equal_message ts ne e1 (join p (LCond q) b)) = Written (said ++ pr vp)).
Proof. exact second_loose. Qed.
Theorem C110_first_refuted : forall pr env b ts ne p q e2 vq, (prec b < 11)%nat ->
  at_least 12 p -> at_least 12 q -> at_least 12 e2 -> has_value pr env q vq ->
  write pr env (equal_message ts ne (join p (LBin b) q) e2) = NoCompile.
Proof. exact first_loose. Qed.
Theorem C110_first_conditional_refuted : forall pr env ts ne p a q e2 vq,
  at_least 12 p -> at_least 12 q -> at_least 12 e2 -> has_value pr env q vq ->
  write pr env (equal_message ts ne (join p (LCond a) q) e2) = NoCompile.
Proof. exact first_cond. Qed.
Theorem C110_chosen_message_refuted : forall pr env ts p vp x y, at_least 12 p -> has_value pr env p vp ->
  write pr env (error_message ts (join p (LCond (CLast (AStr x))) (CLast (AStr y)))) = Written (concat ts ++ pr vp).
Proof. exact chosen_message. Qed.

(** HELPER_ASSERT_EQUAL(3, 1+1) says  |||!=|| *)
Example C110_example :
  write strokes ten (equal_message [chars "A"; chars "B"] (chars "!=") (num 3) (join (num 1) (LBin OAdd) (num 1))) =
  Written (chars "AB|||!=||").
Proof. reflexivity. Qed.
(** "x" << 1+1 << "y" *)
Example C110_message_example :
  let ps := [PExpr (join (num 1) (LBin OAdd) (num 1)); PText (chars "y")] in
  Forall2 (part_text strokes ten) (PText (chars "x") :: ps) [chars "x"; chars "||"; chars "y"] /\
  write strokes ten (error_message [chars "A"] (parts_chain (PText (chars "x")) ps)) = Written (chars "Ax||y").
Proof.
  cbn zeta. split; [|reflexivity]. repeat constructor. exists 2. split; [cbn; lia | split; [value | reflexivity]].
Qed.
(** HELPER_ASSERT_EQUAL(1, 3 && 0) says 1 != 3, though the value is 0; HELPER_ASSERT_EQUAL(1, 1<<2) says 1 != 12 *)
Example C110_second_example :
  has_value strokes ten (join (num 3) (LBin OAnd) (num 0)) 0 /\
  write strokes ten (equal_message [] (chars "!") (num 1) (join (num 3) (LBin OAnd) (num 0))) = Written (chars "|!|||") /\
  has_value strokes ten (join (num 1) (LBin OShl) (num 2)) 4 /\
  write strokes ten (equal_message [] (chars "!") (num 1) (join (num 1) (LBin OShl) (num 2))) = Written (chars "|!|||") /\
  write strokes ten (equal_message [] (chars "!") (num 1) (join (num 1) (LBin OLt) (num 2))) = NoCompile.
Proof. split; [value | split; [reflexivity | split; [value | split; reflexivity]]]. Qed.
Example C110_first_example :
  has_value strokes ten (join (num 1) (LBin OEq) (num 1)) 1 /\
  write strokes ten (equal_message [] (chars "!") (join (num 1) (LBin OEq) (num 1)) (num 1)) = NoCompile /\
  write strokes ten (equal_message [] (chars "!") (CLast (APar (join (num 1) (LBin OEq) (num 1)))) (num 1)) = Written (chars "|!|").
Proof. split; [value | split; reflexivity]. Qed.
Example C110_chosen_example :
  write strokes ten (error_message [chars "A"] (join (num 1) (LCond (CLast (AStr (chars "x")))) (CLast (AStr (chars "y"))))) = Written (chars "A|") /\
  write strokes ten (error_message [chars "A"] (CLast (APar (join (num 1) (LCond (CLast (AStr (chars "x")))) (CLast (AStr (chars "y"))))))) = Written (chars "Ax").
Proof. split; reflexivity. Qed.
Print Assumptions C110_equal_partial.
Print Assumptions C110_message_partial.
Print Assumptions C110_second_refuted.
Print Assumptions C110_first_refuted.
Print Assumptions C110_first_conditional_refuted.
Print Assumptions C110_chosen_message_refuted.
