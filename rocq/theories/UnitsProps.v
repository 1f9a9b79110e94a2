(** UnitsProps.v -- the property C133: programs of several units that include headers of this repository.  Statements only; the lemmas are
    in UnitsProofs.v. *)
From Verif Require Import Base UnitsModel UnitsSpec UnitsProofs.
From Coq Require Import String.
Local Open Scope string_scope.
Open Scope list_scope.

(** ** C133
    intended: any number of units may include any of the headers:
      own_definitions_ok p -> build p = Linked *)
(** they may, if no more than one gets test.hpp, and those that get binary_word.hpp declare StringType and StringStream first *)
Theorem C133_builds_partial :
  forall p, own_definitions_ok p -> test_once p -> (forall u, In u p -> names_ok u) -> build p = Linked.
Proof. exact build_linked. Qed.
Print Assumptions C133_builds_partial.

(** a unit gets these two only by naming them: no other header includes them *)
Theorem C133_named_partial : forall u h, gets u h -> (h = Test_ \/ h = BinaryWord_) -> In h (u_includes u).
Proof. exact gets_named. Qed.
Print Assumptions C133_named_partial.

(** test.hpp in two units: its variables are defined twice *)
Theorem C133_test_twice_refuted :
  forall p1 u1 p2 u2 p3, gets u1 Test_ -> gets u2 Test_ -> build (p1 ++ u1 :: p2 ++ u2 :: p3) <> Linked.
Proof. exact build_test_twice. Qed.
Print Assumptions C133_test_twice_refuted.

(** binary_word.hpp uses names that no header of the repository declares *)
Theorem C133_binary_word_refuted :
  forall p u, In u p -> gets u BinaryWord_ -> ~ In "StringType" (u_before u) -> build p = NotCompiled.
Proof. exact build_word. Qed.
Print Assumptions C133_binary_word_refuted.

Example C133_example :
  let main := mkUnit [Test_; Container_; LruCache_] [] ["main"] in
  let other := mkUnit [Handle_; Randomiser_; Container_; VariantInl_] [] ["f"; "g"] in
  let words := mkUnit [String_; BinaryWord_] ["StringType"; "StringStream"] ["h"] in
  headers_of main = [Test_; Macros_; Container_; Stdlib_; Metaprogramming_; Stlio_; Array_; Tuple_; LruCache_] /\
  build [main; other; words] = Linked /\
  build [main; mkUnit [Test_] [] ["k"]] = DefinedTwice /\
  build [main; mkUnit [BinaryWord_] [] []] = NotCompiled.
Proof. cbv zeta. repeat split; vm_compute; reflexivity. Qed.
Example C133_example_hypotheses :
  let main := mkUnit [Test_; Container_] [] ["main"] in let other := mkUnit [Container_; Randomiser_] [] ["f"] in
  own_definitions_ok [main; other] /\ test_once [main; other] /\ (forall u, In u [main; other] -> names_ok u).
Proof.
  cbv zeta. split; [|split].
  - split; [repeat constructor; cbn; intuition discriminate|]. intros u x [<-|[<-|[]]] [<-|[]]; cbn; intuition discriminate.
  - intros [|a [|b p1]] u1 p2 u2 p3 E G1 G2; cbn in E.
    + injection E as <- E. destruct p2 as [|c p2]; cbn in E; [|injection E as _ E; destruct p2; discriminate E].
      injection E as <- _. apply headers_gets in G2. vm_compute in G2. intuition discriminate.
    + injection E as _ _ E. destruct p2; discriminate E.
    + injection E as _ _ E. destruct p1; discriminate E.
  - intros u [<-|[<-|[]]] G; apply headers_gets in G; vm_compute in G; intuition discriminate.
Qed.
