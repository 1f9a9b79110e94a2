(** RangeAlgoProps.v -- the property C151: the standard algorithms on ranges.  Statements only; the lemmas are in
    RangeAlgoProofs.v. *)
From Verif Require Import Base AlgoModel RangeModel RangeSpec RangeAlgoModel RangeAlgoSpec RangeAlgoProofs.

(** ** C151
    intended: the iterators of a Range are input iterators, and algorithms and constructors accept them:
      In q required_input -> meets range_iterator q = true, and accepted range_iterator a = true for all a.
    It is false of it++, == and the iterator traits, and of everything that needs the traits. *)
Theorem C151_requirements_refuted :
  forall q, In q required_input -> (meets range_iterator q = false <-> In q [Expr (OpInc, [It; Int]); Expr (OpEq, [It; It]); Traits]).
Proof. exact missing_input. Qed.
Print Assumptions C151_requirements_refuted.
Theorem C151_algorithms_refuted :
  forall a, accepted range_iterator a = true <-> In a [ForEach; Accumulate; Transform; InnerProduct].
Proof. exact accepted_exact. Qed.
Print Assumptions C151_algorithms_refuted.
(** Those that compile compute what they should. *)
Theorem C151_results_partial :
  forall (X : Type) (a b : Z) (fuel : nat), is_size_t a -> is_size_t b -> (a <= b)%Z -> (b - a < Z.of_nat fuel)%Z ->
  (forall (op : X -> Z -> X) init, accumulate op fuel a b init = Some (fold_left op (numbers a b) init)) /\
  (forall (op : Z -> X) out, transform op fuel a b out = Some (out ++ map op (numbers a b))) /\
  (forall (op : X -> Z -> Z -> X) c init, is_size_t c -> (c + (b - a) < 2 ^ 64)%Z ->
     inner_product op fuel a b c init = Some (fold_left (fun x p => op x (fst p) (snd p)) (combine (numbers a b) (numbers c (c + (b - a)))) init)).
Proof.
  exact (fun X a b fuel Ha Hb Hab Hf =>
    conj (fun op init => accumulate_ok op b Hb fuel a init Ha Hab Hf)
   (conj (fun op out => transform_ok op b Hb fuel a out Ha Hab Hf)
         (fun op c init Hc Hw => inner_ok op b Hb fuel a c init Ha Hc Hab Hf Hw))).
Qed.
Print Assumptions C151_results_partial.
Example C151_example :
  accumulate Z.add 10 3 7 0%Z = Some 18%Z /\ transform (Z.mul 2) 10 3 6 [] = Some [6; 8; 10]%Z /\
  inner_product (fun x i j => x + i * j)%Z 10 1 4 2 0%Z = Some 20%Z /\ accumulate Z.add 10 3 3 5%Z = Some 5%Z /\
  accumulate Z.add 10 7 3 0%Z = None /\ numbers 3 7 = [3; 4; 5; 6]%Z /\
  accepted range_iterator MakeVector = false /\ accepted range_iterator Accumulate = true.
Proof. vm_compute. repeat split. Qed.
Example C151_example_hypotheses : is_size_t 3 /\ is_size_t 7 /\ (7 - 3 < Z.of_nat 10)%Z.
Proof. unfold is_size_t. cbn. lia. Qed.
