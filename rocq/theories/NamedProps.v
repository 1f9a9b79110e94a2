(** NamedProps.v -- C138: the message of a failed static check names the class under test. *)
From Verif Require Import Base StreamModel NamedModel NamedSpec NamedProofs.
Open Scope list_scope.

(** Holds for programs without a check after the test of another class in the same test, whatever is thrown. *)
Theorem C138_class_named_partial p : tidy_list tidy p = true -> run p = blames p.
Proof. exact (tidy_right p). Qed.
Print Assumptions C138_class_named_partial.
(** After tests of other classes a check is said to belong to the class whose test began last. *)
Theorem C138_nested_refuted before outer pre what : existsb throws before = false -> existsb throws pre = false ->
  (exists m, run (before ++ [TestClass outer (pre ++ [Check what false])]) = m ++ [(fold_left last_class pre outer, what)]) /\
  (exists m, blames (before ++ [TestClass outer (pre ++ [Check what false])]) = m ++ [(outer, what)]).
Proof. exact (named_wrongly before outer pre what). Qed.
Print Assumptions C138_nested_refuted.
(** So is a check outside of all tests of classes that comes after one. *)
Theorem C138_after_refuted pre what : existsb throws pre = false ->
  (exists m, run (pre ++ [Check what false]) = m ++ [(fold_left last_class pre no_class, what)]) /\
  (exists m, blames (pre ++ [Check what false]) = m ++ [(no_class, what)]).
Proof. exact (named_after pre what). Qed.
Print Assumptions C138_after_refuted.
(** An exception that ends the other test changes nothing. *)
Theorem C138_thrown_refuted outer inner what :
  run [TestClass outer [CallStd [TestClass inner [ThrowStd]]; Check what false]] = [(inner, what)] /\
  blames [TestClass outer [CallStd [TestClass inner [ThrowStd]]; Check what false]] = [(outer, what)].
Proof. exact (named_thrown outer inner what). Qed.
Print Assumptions C138_thrown_refuted.

Definition A := chars "A". Definition B := chars "B". Definition x := chars "x". Definition y := chars "y".
Example C138_tidy :
  tidy_list tidy [TestClass A [Check x false; CallStd [Check y false; ThrowStd; Check x false]; TestClass B [Check y true; Check x false]]; TestClass B [Check y false]] = true /\
  run [TestClass A [Check x false; CallStd [Check y false; ThrowStd; Check x false]; TestClass B [Check y true; Check x false]]; TestClass B [Check y false]] =
  [(A, x); (A, y); (B, x); (B, y)].
Proof. split; reflexivity. Qed.
Example C138_nested :
  run [TestClass A [Check y false; TestClass B [Check x true]; Check x false]] = [(A, y); (B, x)] /\
  blames [TestClass A [Check y false; TestClass B [Check x true]; Check x false]] = [(A, y); (A, x)].
Proof. split; reflexivity. Qed.
Example C138_after : run [TestClass A []; Check x false] = [(A, x)] /\ blames [TestClass A []; Check x false] = [(no_class, x)].
Proof. split; reflexivity. Qed.
